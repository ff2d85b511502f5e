(** Comparing workbooks (C58). *)
From Coq Require Import Reals Lra.
From Flocq Require Import Core.
From Verif Require Import Base BaseFacts Coord Comparing XlMethods SpecData SpecParse SpecFloats SpecCells FloatFacts ComparingProofs
  CompareProofs ScrapeProofs DataFacts DataProofs.

Lemma tol5_finite : finite tol_1e5. Proof. split; reflexivity. Qed.
Lemma tol5_value : (0 < value tol_1e5 <= 1000001 / 100000000000)%R.
Proof.
  assert (E : tol_1e5 = S754_finite false 5902958103587057 (-69)) by (vm_compute; reflexivity).
  rewrite E. unfold value, BinarySingleNaN.SF2R, F2R. cbn [cond_Zopp Fnum Fexp].
  change (bpow radix2 (-69)) with (/ IZR (2 ^ 69))%R. change (2 ^ 69)%Z with 590295810358705651712%Z. lra.
Qed.
Lemma close5 a b x y : number a x -> number b y -> approx_equal a b tol_1e5 = Ok true ->
  (Rabs (x - y) <= Rabs x * (100001 / 10000000000) + / 10 ^ 300)%R.
Proof.
  intros A B H. apply (c47_close _ _ _ _ _ A B tol5_finite) in H; [|pose proof tol5_value; rewrite Rabs_pos_eq; lra].
  eapply Rle_trans; [exact H|]. rewrite Rabs_mult. pose proof tol5_value as T. rewrite (Rabs_pos_eq (value tol_1e5)) by lra.
  pose proof tiny. pose proof (Rabs_pos x) as P.
  assert (E : (bpow radix2 (-51) <= / 1000000000000000)%R).
  { change (bpow radix2 (-51)) with (/ IZR (2 ^ 51))%R. change (2 ^ 51)%Z with 2251799813685248%Z. lra. }
  pose proof (bpow_gt_0 radix2 (-51)).
  apply Rplus_le_compat; auto. rewrite Rmult_comm, <- Rmult_assoc, Rmult_comm. apply Rmult_le_compat_l; auto. nra.
Qed.

Lemma num_py_float a x : number a x -> exists f, py_float a = Ok f.
Proof. intros N. destruct (num_conv a x N) as [f [F _]]. exists f. destruct N; auto. Qed.
Lemma trim_strip t u : trimmed t u <-> u = strip t.
Proof. apply strip_text. Qed.
Lemma empty_no_float : exists x, py_float (VStr []) = Err x.
Proof. eexists. vm_compute. reflexivity. Qed.
Lemma approx_num_text a x t : number a x -> t <> [] ->
  approx_equal a (VStr t) tol_1e5 <> Ok true /\ approx_equal (VStr t) a tol_1e5 <> Ok true.
Proof.
  intros N TN.
  assert (E1 : py_eq a (VStr t) = false) by (destruct N; auto). assert (E2 : py_eq (VStr t) a = false) by (destruct N; auto).
  pose proof (num_nan a x N) as NN. pose proof (num_nostr a x N) as NS. destruct (num_conv a x N) as [f [F _]].
  assert (TT : truthy (VStr t) = true) by (destruct t; auto; congruence).
  unfold approx_equal. rewrite E1, E2, NS, NN, TT. cbn [is_str andb negb bind np_isnan]. rewrite andb_false_r. split.
  - rewrite andb_true_r. destruct (truthy a); [|discriminate]. unfold approx_equal_. rewrite F. cbn [bind num_int].
    destruct (num_int a); cbn [num_float bind]; discriminate.
  - discriminate.
Qed.
Lemma bind_assert r : (do b <- r; assert_ b) = Ok tt -> r = Ok true.
Proof. destruct r as [[|]|]; cbn; congruence. Qed.
Lemma assert_true b : assert_ b = Ok tt -> b = true.
Proof. destruct b; auto; discriminate. Qed.
Lemma ok_unit (r : res unit) u : r = Ok u -> r = Ok tt. Proof. destruct u. auto. Qed.

Lemma compare_alike a b : cell_content a -> cell_content b -> compare_cell_values a b = Ok tt -> alike a b.
Proof.
  intros CA CB H. unfold compare_cell_values in H.
  destruct CA as [->|[[x NA]|[[s ->]|[d ->]]]].
  - cbn [py_float] in H.
    destruct CB as [->|[[y NB]|[[t ->]|[d' ->]]]]; cbn [normalize_value] in H.
    + apply al_text with []; constructor.
    + exfalso. destruct NB; cbn in H; discriminate.
    + apply assert_true in H. cbn [py_eq] in H. apply text_eqb_eq in H. apply al_text with []; constructor. apply trim_strip. auto.
    + discriminate.
  - destruct (num_py_float a x NA) as [f F].
    destruct CB as [->|[[y NB]|[[t ->]|[d' ->]]]].
    + exfalso. cbn [py_float] in H. rewrite F in H. destruct NA; cbn in H; discriminate.
    + destruct (num_py_float b y NB) as [g G]. rewrite F, G in H. apply bind_assert in H.
      apply al_number with x y; auto. apply (close5 a b); auto.
    + exfalso. rewrite F in H. destruct (py_float (VStr t)) as [g|] eqn:G.
      * apply bind_assert in H. assert (t <> []). { intros ->. destruct empty_no_float as [z Z]. congruence. }
        destruct (approx_num_text a x t NA H0) as [A _]. auto.
      * destruct NA; cbn in H; discriminate.
    + exfalso. cbn [py_float] in H. rewrite F in H. destruct NA; cbn in H; discriminate.
  - destruct CB as [->|[[y NB]|[[t ->]|[d' ->]]]].
    + replace (match py_float (VStr s) with Ok f1 => match py_float VNone with Ok f2 => (VFloat f1, VFloat f2) | Err _ => (normalize_value (VStr s), normalize_value VNone) end | Err _ => (normalize_value (VStr s), normalize_value VNone) end)
        with (normalize_value (VStr s), normalize_value VNone) in H by (destruct (py_float (VStr s)); auto).
      cbn [normalize_value] in H. apply assert_true in H. cbn [py_eq] in H. apply text_eqb_eq in H.
      apply al_text with []; constructor. apply trim_strip. auto.
    + exfalso. destruct (num_py_float b y NB) as [g G]. rewrite G in H. destruct (py_float (VStr s)) as [f|] eqn:F.
      * apply bind_assert in H. assert (s <> []). { intros ->. destruct empty_no_float as [z Z]. congruence. }
        destruct (approx_num_text b y s NB H0) as [_ A]. auto.
      * destruct NB; cbn in H; discriminate.
    + assert (E : strip s = strip t \/ s = t).
      { destruct (py_float (VStr s)) as [f|]; [destruct (py_float (VStr t)) as [g|]|]; cbn [normalize_value] in H.
        - apply bind_assert in H. right. unfold approx_equal in H. cbn [py_eq is_str andb] in H.
          destruct (text_eqb s t) eqn:E; [apply text_eqb_eq; auto|discriminate].
        - left. apply assert_true in H. cbn [py_eq] in H. apply text_eqb_eq. auto.
        - left. apply assert_true in H. cbn [py_eq] in H. apply text_eqb_eq. auto. }
      apply al_text with (strip s); constructor; apply trim_strip; auto. destruct E; congruence.
    + exfalso. destruct (py_float (VStr s)); cbn in H; discriminate.
  - destruct CB as [->|[[y NB]|[[t ->]|[d' ->]]]]; cbn [py_float normalize_value] in H.
    + discriminate.
    + destruct NB; cbn in H; discriminate.
    + discriminate.
    + apply assert_true in H. cbn [py_eq] in H. apply dt_eqb_eq in H. subst. constructor.
Qed.

Lemma compare_same v : (exists f, v = VFloat f) \/ cell_content v \/ (exists z, v = VInt z) -> compare_cell_values v v = Ok tt.
Proof.
  assert (X : forall u, (u = VNone \/ (exists b, u = VBool b) \/ (exists z, u = VInt z) \/ (exists f, u = VFloat f) \/ (exists t, u = VStr t) \/ exists d, u = VDate d) ->
    compare_cell_values u u = Ok tt).
  { intros u [->|[[b ->]|[[z ->]|[[f ->]|[[t ->]|[d ->]]]]]]; unfold compare_cell_values.
    - reflexivity.
    - destruct b; reflexivity.
    - cbn [py_float]. destruct (finite_or_zero _).
      + unfold approx_equal. cbn [py_eq]. rewrite Z.eqb_refl. auto.
      + cbn [normalize_value py_eq]. rewrite Z.eqb_refl. auto.
    - cbn [py_float]. rewrite approx_refl. auto.
    - destruct (py_float (VStr t)).
      + unfold approx_equal. cbn [py_eq]. rewrite text_eqb_refl. auto.
      + cbn [normalize_value py_eq]. rewrite text_eqb_refl. auto.
    - cbn [py_float normalize_value py_eq]. rewrite (proj2 (dt_eqb_eq d d) eq_refl). auto. }
  intros [F|[C|Z]]; apply X; auto 6.
  destruct C as [->|[[x N]|[T|D]]]; auto 8. destruct N; eauto 8.
Qed.

Lemma compare_texts a b u : reads_as a u -> reads_as b u -> (exists x, py_float (VStr u) = Err x) -> compare_cell_values a b = Ok tt.
Proof.
  assert (S1 : forall t z, py_float (VStr (strip t)) = Err z -> py_float (VStr t) = Err z).
  { intros t z. cbn [py_float]. unfold py_float_of_text. rewrite strip_idem. auto. }
  intros A B [x E]. unfold compare_cell_values.
  inversion A as [HA|s u1 SU HA HU]; subst; inversion B as [HB|t u2 TU HB HU']; subst.
  - reflexivity.
  - apply trim_strip in TU. cbn [py_float normalize_value py_eq]. rewrite <- TU. reflexivity.
  - apply trim_strip in SU. rewrite (S1 s x) by (rewrite <- SU; auto). cbn [normalize_value py_eq]. rewrite <- SU. reflexivity.
  - apply trim_strip in SU, TU. rewrite (S1 s x) by (rewrite <- SU; auto). cbn [normalize_value py_eq].
    rewrite <- SU, <- TU, text_eqb_refl. reflexivity.
Qed.

Lemma Forall2_In_l {A B} (P : A -> B -> Prop) l l' a : Forall2 P l l' -> In a l -> exists b, In b l' /\ P a b.
Proof. induction 1; intros []; subst; [eexists; split; [left|]; eauto|]. destruct (IHForall2 H1) as [b [I Q]]. exists b. split; [right|]; auto. Qed.
Lemma compare_ws_ok w1 w2 : (forall r c, both_reach w1 w2 r c -> compare_cell_values (cell w1 r c) (cell w2 r c) = Ok tt) ->
  compare_cells_ws w1 w2 = Ok true.
Proof.
  intros H. unfold compare_cells_ws. rewrite (mapM_pure _ (fun _ => map (fun _ => tt) (zrange 1 (Z.min (max_col w1) (max_col w2))))); auto.
  intros r Hr. apply zrange_In in Hr. apply (mapM_pure _ (fun _ => tt)). intros c Hc. apply zrange_In in Hc. apply H. unfold both_reach. lia.
Qed.
Lemma compare_ws_only w1 w2 x : compare_cells_ws w1 w2 = Ok x ->
  x = true /\ forall r c, both_reach w1 w2 r c -> compare_cell_values (cell w1 r c) (cell w2 r c) = Ok tt.
Proof.
  unfold compare_cells_ws. intros H. apply bind_ok in H as [l [H1 H2]]. split; [congruence|].
  intros r c (R1 & R2 & C1 & C2). apply mapM_ok in H1.
  assert (IR : In r (zrange 1 (Z.min (max_row w1) (max_row w2)))) by (apply zrange_In; lia).
  assert (IC : In c (zrange 1 (Z.min (max_col w1) (max_col w2)))) by (apply zrange_In; lia).
  destruct (Forall2_In_l _ _ _ r H1 IR) as [ys [_ H3]]. apply mapM_ok in H3.
  destruct (Forall2_In_l _ _ _ c H3 IC) as [[] [_ H4]]. auto.
Qed.
Lemma compare_cells_ok wb1 wb2 : (forall i w1 w2, nth_error wb1 i = Some w1 -> nth_error wb2 i = Some w2 -> compare_cells_ws w1 w2 = Ok true) ->
  compare_cells wb1 wb2 = Ok true.
Proof.
  revert wb2. induction wb1 as [|w1 wb1 IH]; intros [|w2 wb2] H; cbn; auto.
  rewrite (H 0%nat w1 w2 eq_refl eq_refl). cbn. apply IH. intros i a b A B. apply (H (S i)); auto.
Qed.
Lemma compare_cells_only wb1 wb2 x : compare_cells wb1 wb2 = Ok x ->
  x = true /\ forall i w1 w2, nth_error wb1 i = Some w1 -> nth_error wb2 i = Some w2 -> compare_cells_ws w1 w2 = Ok true.
Proof.
  revert wb2. induction wb1 as [|w1 wb1 IH]; intros [|w2 wb2] H; cbn in H;
    try (split; [congruence|intros [|i] a b A B; cbn in *; discriminate]).
  apply bind_ok in H as [y [H1 H2]]. destruct (IH _ H2) as [-> K]. split; auto.
  intros [|i] a b A B; cbn in A, B; [|eauto]. injection A as <-. injection B as <-.
  destruct (compare_ws_only _ _ _ H1) as [-> _]. auto.
Qed.
