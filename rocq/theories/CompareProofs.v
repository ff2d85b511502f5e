(** Comparing frames (C48). *)
From Coq Require Import Reals Lra.
From Flocq Require Import Core.
From Verif Require Import Base BaseFacts Comparing PeriodRange DataFrame SpecFloats FloatFacts ComparingProofs SpecCompare ScrapeProofs.
Local Open Scope R_scope.

Lemma tol4_finite : finite tol_1e4. Proof. split; reflexivity. Qed.
Lemma tol4_value : 0 < value tol_1e4 <= 1000001 / 10000000000.
Proof.
  assert (E : tol_1e4 = S754_finite false 7378697629483821 (-66)) by (vm_compute; reflexivity).
  rewrite E. unfold value, BinarySingleNaN.SF2R, F2R. cbn [cond_Zopp Fnum Fexp].
  change (bpow radix2 (-66)) with (/ IZR (2 ^ 66)). change (2 ^ 66)%Z with 73786976294838206464%Z. lra.
Qed.
Lemma tiny : bpow radix2 (-1073) <= / 10 ^ 300.
Proof.
  change (bpow radix2 (-1073)) with (/ IZR (2 ^ 1073)). change (10 ^ 300) with (IZR 10 ^ 300). rewrite pow_IZR.
  apply Rinv_le; [apply IZR_lt; apply Z.pow_pos_nonneg; lia|]. apply IZR_le. vm_compute. discriminate.
Qed.
Lemma Ok_inj {A} (x y : A) : @Ok A x = Ok y -> x = y.
Proof. congruence. Qed.
Lemma finite_or f : valid_binary prec emax f = true -> finite f \/ f = S754_nan \/ exists s, f = S754_infinity s.
Proof. intros V. destruct f; eauto; left; split; auto. Qed.

Lemma approx_agree f g : valid_binary prec emax f = true -> valid_binary prec emax g = true ->
  approx_equal (VFloat f) (VFloat g) tol_1e4 = Ok true -> agree f g.
Proof.
  intros Vf Vg H. destruct (finite_or f Vf) as [F|[->|[s ->]]].
  - destruct (finite_or g Vg) as [G|[->|[s ->]]].
    + right. left. split; auto. split; auto.
      apply (c47_close _ _ _ _ _ (n_float f F) (n_float g G) tol4_finite) in H; [|pose proof tol4_value; rewrite Rabs_pos_eq; lra].
      eapply Rle_trans; [exact H|]. rewrite Rabs_mult. pose proof tol4_value as T. rewrite (Rabs_pos_eq (value tol_1e4)) by lra.
      pose proof tiny. pose proof (Rabs_pos (value f)) as P.
      assert (A : bpow radix2 (-51) <= / 1000000000000000).
      { change (bpow radix2 (-51)) with (/ IZR (2 ^ 51)). change (2 ^ 51)%Z with 2251799813685248%Z. lra. }
      pose proof (bpow_gt_0 radix2 (-51)).
      apply Rplus_le_compat; auto. rewrite Rmult_comm, <- Rmult_assoc, Rmult_comm. apply Rmult_le_compat_l; auto. nra.
    + exfalso. unfold approx_equal in H. cbn [py_eq is_str andb] in H.
      destruct f as [z|z| |z m e]; try (destruct F; discriminate); cbn in H; discriminate.
    + exfalso. unfold approx_equal in H. destruct f as [z|z| |z m e]; try (clear H; destruct F; discriminate).
      * destruct s; vm_compute in H; discriminate.
      * assert (Fa : finite (S754_finite z m e)) by exact F.
        cbn [py_eq SFeqb SFcompare is_str andb truthy negb np_isnan is_nan bind] in H.
        destruct s, z; try discriminate;
        unfold approx_equal_ in H; cbn [num_float py_float bind num_int] in H; pose proof (Ok_inj _ _ H) as HH; clear H;
        match type of HH with SFleb _ ?p = true =>
          assert (NI : finite p); [|destruct p as [q|q| |q mm ee]; try (destruct NI; discriminate); try discriminate; destruct q; discriminate] end;
        (match goal with |- finite (SFmul _ _ _ ?f) =>
          destruct (mul_ok tol_1e4 f tol4_finite Fa) as [M _]; apply M; apply big_nearest with f; auto;
          rewrite Rabs_mult; pose proof tol4_value; rewrite (Rabs_pos_eq (value tol_1e4)) by lra; pose proof (Rabs_pos (value f)); nra end).
  - left. split; auto. destruct (finite_or g Vg) as [G|[->|[s ->]]]; auto; exfalso.
    + destruct g as [z|z| |z m e]; try (destruct G; discriminate); vm_compute in H; discriminate.
    + destruct s; vm_compute in H; discriminate.
  - right. right. split; eauto. intros ->. destruct s; vm_compute in H; discriminate.
Qed.

Lemma column_of_nth c cols data i v : NoDup cols -> nth_error cols i = Some c -> nth_error data i = Some v -> column_of c cols data = v.
Proof.
  revert data i. induction cols as [|k cols IH]; intros [|w data] [|i] ND A B; cbn in *; try discriminate.
  - inversion A; inversion B; subst. rewrite text_eqb_refl. auto.
  - inversion ND; subst. destruct (text_eqb c k) eqn:E.
    + apply text_eqb_eq in E. subst. exfalso. apply H1. eapply nth_error_In; eauto.
    + eapply IH; eauto.
Qed.
Lemma check_column_rows v1 v2 r f g : check_column v1 v2 = Ok true -> nth_error v1 r = Some f -> nth_error v2 r = Some g ->
  approx_equal (VFloat f) (VFloat g) tol_1e4 = Ok true.
Proof.
  revert v2 r. induction v1 as [|a v1 IH]; intros [|b v2] [|r] H A B; try discriminate; cbn [check_column nth_error] in *.
  - inversion A; inversion B; subst. apply bind_ok in H as [x [E H]]. destruct x; [auto|discriminate].
  - apply bind_ok in H as [x [E H]]. destruct x; [eauto|discriminate].
Qed.
Lemma fold_cols (F : text -> res bool) l acc c : foldM (fun acc c => do b <- F c; Ok (acc && b)) l acc = Ok true -> In c l -> F c = Ok true.
Proof.
  revert acc. induction l as [|k l IH]; intros acc H I; [destruct I|].
  cbn [foldM] in H. apply bind_ok in H as [acc' [E H]]. apply bind_ok in E as [b [E1 E2]]. inversion E2; subst acc'.
  destruct I as [->|I]; [|eapply IH; eauto].
  assert (G : acc && b = true). { clear - H. revert H. generalize (acc && b). induction l as [|k l IH]; cbn [foldM]; intros x H; [congruence|].
    apply bind_ok in H as [y [E H]]. apply bind_ok in E as [z [E1 E2]]. inversion E2; subst. apply IH in H. destruct x; auto. }
  apply andb_true_iff in G as [_ ->]. auto.
Qed.
Lemma fold_cols_true (F : text -> res bool) l : (forall c, In c l -> F c = Ok true) -> foldM (fun acc c => do b <- F c; Ok (acc && b)) l true = Ok true.
Proof.
  induction l as [|k l IH]; intros H; auto. cbn [foldM]. rewrite H by (left; auto). cbn [bind andb]. apply IH. intros. apply H. right. auto.
Qed.
Lemma check_values_cols d1 d2 c : check_values d1 d2 = Ok true -> In c (df_cols d1) ->
  check_column (column_of c (df_cols d1) (df_data d1)) (column_of c (df_cols d2) (df_data d2)) = Ok true.
Proof.
  intros H I. apply (fold_cols (fun c => check_column (column_of c (df_cols d1) (df_data d1)) (column_of c (df_cols d2) (df_data d2))) _ _ _ H I).
Qed.
Lemma check_index_eq i1 i2 : List.length i1 = List.length i2 -> check_index i1 i2 = true -> i1 = i2.
Proof.
  revert i2. induction i1 as [|a i1 IH]; intros [|b i2] L H; cbn in *; try discriminate; auto.
  apply andb_true_iff in H as [E H]. apply dt_eqb_eq in E. subst. f_equal. apply IH; auto.
Qed.
Lemma forall_in c1 c2 : forallb (fun c => text_in c c2) c1 = true <-> (forall c, In c c1 -> In c c2).
Proof.
  rewrite forallb_forall. split; intros H c I; [apply text_in_In; auto|apply text_in_In; auto].
Qed.
Lemma check_columns_names c1 c2 b : check_columns c1 c2 = Ok b <-> b = true /\ same_names c1 c2.
Proof.
  unfold check_columns, same_names. destruct (forallb _ c1) eqn:E1; [destruct (forallb _ c2) eqn:E2|].
  - split.
    + intros H. inversion H. split; auto. rewrite forall_in in E1, E2. split; auto.
    + intros [-> _]. auto.
  - split; [discriminate|]. intros [_ H]. exfalso. assert (forallb (fun c => text_in c c1) c2 = true) by (apply forall_in; intros; apply H; auto). congruence.
  - split; [discriminate|]. intros [_ H]. exfalso. assert (forallb (fun c => text_in c c2) c1 = true) by (apply forall_in; intros; apply H; auto). congruence.
Qed.
Lemma assert_ok b u : assert_ b = Ok u -> b = true.
Proof. destruct b; cbn; auto; discriminate. Qed.

Lemma c48_detects d1 d2 x : frame d1 -> frame d2 -> compare_data_frames d1 d2 = Ok x ->
  x = true /\ pr_dates (df_index d1) = pr_dates (df_index d2) /\ pr_freq (df_index d1) = pr_freq (df_index d2) /\
  same_names (df_cols d1) (df_cols d2) /\
  forall c r f g, entry d1 c r f -> entry d2 c r g -> agree f g.
Proof.
  intros [N1 [L1 F1]] [N2 [L2 F2]] H. unfold compare_data_frames in H.
  apply bind_ok in H as [u1 [A1 H]]. apply bind_ok in H as [u2 [A2 H]]. apply bind_ok in H as [c0 [A3 H]].
  apply bind_ok in H as [u4 [A4 H]]. apply bind_ok in H as [u5 [A5 H]]. apply bind_ok in H as [v0 [A6 H]]. apply bind_ok in H as [u7 [A7 H]].
  inversion H; subst x. apply assert_ok in A1, A2, A4, A5, A7. subst v0. subst c0.
  apply Nat.eqb_eq in A1. apply text_eqb_eq in A2. apply check_columns_names in A3 as [_ A3].
  split; auto. split; [apply check_index_eq; auto|]. split; auto. split; auto.
  intros c r f g [i [v [I1 [I2 I3]]]] [j [w [J1 [J2 J3]]]].
  pose proof (check_values_cols _ _ c A6 (nth_error_In _ _ I1)) as K.
  rewrite (column_of_nth _ _ _ _ _ N1 I1 I2), (column_of_nth _ _ _ _ _ N2 J1 J2) in K.
  apply approx_agree; [eapply F1; eapply nth_error_In; eauto|eapply F2; eapply nth_error_In; eauto|eapply check_column_rows; eauto].
Qed.

Lemma c48_equal d1 d2 : frame d1 -> frame d2 ->
  pr_dates (df_index d1) = pr_dates (df_index d2) -> pr_freq (df_index d1) = pr_freq (df_index d2) ->
  same_names (df_cols d1) (df_cols d2) -> (forall c r f g, entry d1 c r f -> entry d2 c r g -> f = g) ->
  compare_data_frames d1 d2 = Ok true.
Proof.
  intros [N1 [L1 F1]] [N2 [L2 F2]] D Q S V. unfold compare_data_frames.
  rewrite D, Nat.eqb_refl, Q, text_eqb_refl. cbn [assert_ bind].
  replace (check_columns (df_cols d1) (df_cols d2)) with (@Ok bool true) by (symmetry; apply check_columns_names; auto). cbn [assert_ bind].
  rewrite check_index_refl. cbn [assert_ bind].
  assert (K : check_values d1 d2 = Ok true).
  { apply (fold_cols_true (fun c => check_column (column_of c (df_cols d1) (df_data d1)) (column_of c (df_cols d2) (df_data d2)))).
    intros k I.
    assert (C : column_of k (df_cols d1) (df_data d1) = column_of k (df_cols d2) (df_data d2)).
    { assert (In1 : In k (df_cols d1)) by exact I. pose proof (proj1 (S k) In1) as In2.
      apply In_nth_error in In1 as [i Hi]. apply In_nth_error in In2 as [j Hj].
      assert (exists v, nth_error (df_data d1) i = Some v) as [v Hv].
      { destruct (nth_error (df_data d1) i) eqn:E; eauto. apply nth_error_None in E. assert (i < List.length (df_cols d1))%nat by (apply nth_error_Some; congruence). lia. }
      assert (exists w, nth_error (df_data d2) j = Some w) as [w Hw].
      { destruct (nth_error (df_data d2) j) eqn:E; eauto. apply nth_error_None in E. assert (j < List.length (df_cols d2))%nat by (apply nth_error_Some; congruence). lia. }
      rewrite (column_of_nth _ _ _ _ _ N1 Hi Hv), (column_of_nth _ _ _ _ _ N2 Hj Hw).
      destruct (F1 v (nth_error_In _ _ Hv)) as [Lv _]. destruct (F2 w (nth_error_In _ _ Hw)) as [Lw _]. rewrite D in Lv. rewrite <- Lw in Lv.
      assert (X : forall r f g, nth_error v r = Some f -> nth_error w r = Some g -> f = g) by (intros r f g Hf Hg; eapply (V k r); [exists i, v|exists j, w]; auto).
      clear - X Lv. revert w X Lv. induction v as [|a v IH]; intros [|b w] X L; try discriminate; auto.
      f_equal; [apply (X O); auto|]. apply IH; auto. intros r. apply (X (Datatypes.S r)). }
    rewrite C. apply check_column_refl. }
  rewrite K. reflexivity.
Qed.
