(** Proofs of the theorems of PropsParams.v (C10 - C15). *)
From Coq Require Import ZifyBool ZifyNat ZifyN.
From Verif Require Import Base BaseFacts Coord XlMethods Params CoordFacts
  SpecCoord SpecParams SpecCoordFacts HeaderFacts ComposedFacts ScopeFacts BuildFacts BuildInv ParamsFacts
  ParamsProofs.
Local Open Scope Z_scope.

(** ** what process_headers_coord makes of declared headers *)
Lemma separate_plain ts cells : names_cells ts cells ->
  separate_composed_headers (VList (map VStr ts)) = Ok (map (fun _ => VList []) ts, map VStr ts).
Proof.
  intros N. cbn [separate_composed_headers].
  assert (M : mapM separate_one (map VStr ts) = Ok (map (fun t => (VList [], VStr t)) ts)).
  { induction N as [|t [r c] ts cells H N IH]; auto. cbn [map mapM].
    cbn [fst snd] in H. apply cell_named_iff in H. apply coord_sepfree in H.
    unfold separate_one at 1. replace (ch_in "_" t) with false.
    - cbn [bind]. rewrite IH. auto.
    - symmetry. apply H. reflexivity. }
  rewrite M. cbn [bind]. rewrite !map_map. auto.
Qed.

Lemma nth_error_eq {A} (l1 l2 : list A) : (forall i, nth_error l1 i = nth_error l2 i) -> l1 = l2.
Proof.
  revert l2. induction l1 as [|x l1 IH]; intros [|y l2] H; auto.
  - specialize (H O). discriminate.
  - specialize (H O). discriminate.
  - pose proof (H O) as H0. cbn in H0. inversion H0; subst. f_equal. apply IH. intros i. apply (H (S i)).
Qed.
Lemma Forall2_nth_intro {A B} (P : A -> B -> Prop) l1 l2 :
  (forall i a, nth_error l1 i = Some a -> exists b, nth_error l2 i = Some b /\ P a b) ->
  List.length l1 = List.length l2 -> Forall2 P l1 l2.
Proof.
  revert l2. induction l1 as [|x l1 IH]; intros [|y l2] H L; try discriminate; constructor.
  - destruct (H O x eq_refl) as [b [E P1]]. inversion E; subst; auto.
  - apply IH; [|cbn in L; lia]. intros i a E. exact (H (S i) a E).
Qed.

Lemma headers_processed v cells : header_cells v cells ->
  exists comps (names : list text), process_headers_coord v = Ok (comps, map VStr names) /\ names_cells names cells /\
    List.length comps = List.length names.
Proof.
  intros H. destruct H as [v cells H|parens init lst cells NI F H].
  - destruct (value_unpack v cells H) as [ts [U N]].
    exists (map (fun _ => VList []) ts), ts. unfold process_headers_coord. rewrite U. cbn [bind].
    rewrite (separate_plain ts cells N). rewrite map_length. auto.
  - destruct (composed_ok parens init lst NI F) as [comps [hs [P [L [C1 C2]]]]].
    assert (LE : List.length hs = List.length cells).
    { assert (G : forall i, (i < List.length hs)%nat <-> (i < List.length cells)%nat).
      { intros i. rewrite C1. rewrite Forall_app. split.
        - intros [A B]. inversion B; subst. destruct (nth_error (cp_cells lst) i) eqn:E.
          + apply nth_error_Some. rewrite (proj2 (H i p) (conj E A)). discriminate.
          + apply nth_error_None in E. lia.
        - intros A. apply nth_error_Some in A. destruct (nth_error cells i) as [p|] eqn:E; [|congruence].
          apply H in E. destruct E as [E1 E2]. split; auto. repeat constructor.
          apply nth_error_Some. congruence. }
      destruct (Nat.lt_trichotomy (List.length hs) (List.length cells)) as [A|[A|A]]; auto;
      [apply G in A|apply G in A]; lia. }
    exists comps, (map (fun v => match v with VStr t => t | _ => [] end) hs).
    assert (HS : map VStr (map (fun v => match v with VStr t => t | _ => [] end) hs) = hs).
    { rewrite map_map. rewrite <- (map_id hs) at 2. apply map_ext_in. intros x Hx.
      apply In_nth_error in Hx. destruct Hx as [i Hi].
      destruct (C2 i) as [h [cs [E1 _]]]; [apply nth_error_Some; congruence|]. rewrite Hi in E1. inversion E1; auto. }
    split; [|split].
    + rewrite HS. auto.
    + apply Forall2_nth_intro; [|rewrite map_length; auto].
      intros i t E. rewrite nth_error_map in E. destruct (nth_error hs i) as [x|] eqn:Ex; [|discriminate].
      destruct (C2 i) as [h [cs [E1 [CC _]]]]; [apply nth_error_Some; congruence|].
      rewrite Ex in E1. inversion E1; subst x. cbn in E. inversion E; subst t.
      destruct CC as [p [P1 P2]]. exists p. split; auto.
      destruct (nth_error cells i) as [q|] eqn:Eq.
      * apply H in Eq. destruct Eq as [Eq _]. congruence.
      * apply nth_error_None in Eq. assert (nth_error hs i <> None) by congruence.
        apply nth_error_Some in H0. lia.
    + rewrite map_length. auto.
Qed.
Lemma names_len (ts : list text) cells : names_cells ts cells -> List.length ts = List.length cells.
Proof. induction 1; cbn; auto. Qed.

(** ** C10 *)
Lemma nested_len ls u : unpack_gen (VList (map VList ls)) = Ok u -> List.length u = List.length ls.
Proof.
  revert u. induction ls as [|l ls IH]; intros u H; [inversion H; auto|].
  cbn [map] in H. 
  change (unpack_gen (VList (VList l :: map VList ls))) with
    (do here <- (do u <- unpack_gen (VList l); Ok [VList u]); do rest <- unpack_gen (VList (map VList ls)); Ok (here ++ rest)) in H.
  inv_bind H. inv_bind E. inversion E; subst a. inv_bind H. inversion H; subst. cbn. f_equal. auto.
Qed.
Lemma c10 json d p hv cells : NoDup (map fst d) -> make_params json (PDict d) = Ok p ->
  dget (pname "headers_coord") d = Some hv -> header_cells hv cells -> cells <> [] ->
  lists_fit d (List.length cells) -> series_count p (List.length cells).
Proof.
  intros ND H Hh HC NE [F1 [tv [TV F2]]]. 
  destruct (make_inv _ _ _ (dget_ne _ _ _ Hh) H) as [b [Hb ->]].
  destruct (build_inv _ _ Hb) as [f [th [tmv [alv [ctxv [comps [hs [ns [d6 [d8 [d9 B]]]]]]]]]]].
  destruct (headers_processed _ _ HC) as [comps' [names [P [N LC]]]].
  change (pname "headers_coord") with n_headers_coord in *.
  pose proof (bt_headers _ _ _ _ _ _ _ _ _ _ _ _ _ B) as P'. rewrite (dgetN_some _ _ _ Hh) in P'.
  rewrite P in P'. inversion P'; subst comps' hs. clear P'.
  pose proof (names_len _ _ N) as LN.
  assert (L6 : forall k l, k <> n_missing_value -> dgetN k d6 = VList l -> (List.length l <= List.length cells)%nat).
  { intros k l K E. rewrite (bt_d6 _ _ _ _ _ _ _ _ _ _ _ _ _ B) in E.
    assert (F1' : forall k, ~ In k [n_headers_coord; n_time_header; n_context; n_missing_value] ->
        forall l, dgetN k d = VList l -> (List.length l <= List.length cells)%nat).
    { intros k' K' l' E'. apply (F1 k' l'); auto. unfold dgetN in E'. destruct (dget k' d); [congruence|discriminate]. }
    destruct (text_eqb k n_frequency) eqn:E1.
    { subst f. destruct (bt_freq _ _ _ _ _ _ _ _ _ _ _ _ _ B) as [f0 [A1 A2]].
      unfold curate_frequency in A2. destruct f0; try discriminate. inv_bind A2. inversion A2; subst.
      rewrite (mapM_length _ _ _ E). apply (F1 n_frequency l0 A1). intros X. cbn in X. repeat (destruct X as [X|X]; [discriminate|]). destruct X. }
    destruct (text_eqb k n_headers_coord) eqn:E2; [inversion E; rewrite map_length; lia|].
    destruct (text_eqb k n_composed) eqn:E3.
    { destruct (existsb truthy comps); [inversion E; subst; lia|]. apply text_eqb_eq in E3; subst k.
      apply (F1' n_composed); auto. intros X. cbn in X. repeat (destruct X as [X|X]; [discriminate|]). destruct X. }
    destruct (text_eqb k n_time_header) eqn:E4.
    { subst th. pose proof (bt_time _ _ _ _ _ _ _ _ _ _ _ _ _ B) as U.
      change n_time_header with (pname "time_header_coord") in U. rewrite (dgetN_some _ _ _ TV) in U.
      destruct F2 as [[tc [V1 V2]]|[ls [-> V2]]].
      - destruct (value_unpack _ _ V1) as [ts [U' N']]. rewrite U in U'. inversion U'; subst.
        rewrite map_length. pose proof (names_len _ _ N'). lia.
      - unfold unpack_header_ranges in U. destruct (negb _); [discriminate|]. inv_bind U.
        destruct (Nat.eqb a 0); [discriminate|]. inv_bind U. inversion U; subst. rewrite (nested_len _ _ E0). auto. }
    destruct (text_eqb k n_context) eqn:E5.
    { subst ctxv. pose proof (bt_context _ _ _ _ _ _ _ _ _ _ _ _ _ B) as U.
      destruct (truthy (dgetN n_context d)) eqn:Tr.
      - unfold process_context in U. destruct (dgetN n_context d); try discriminate. inv_bind U. inv_bind U.
        inversion U; subst. apply mapM_length in E0. rewrite map_length in E0. lia.
      - rewrite <- U in Tr. destruct l; [cbn; lia|discriminate]. }
    unfold defaulted in E. destruct (is_none (dgetN k d)) eqn:IN.
    - destruct (text_eqb k n_time_alignment); [discriminate|].
      rewrite (proj2 (text_eqb_neq _ _) K) in E. destruct (dgetN k d); discriminate.
    - apply (F1' k); auto. cbn. intros [X|[X|[X|[X|[]]]]]; subst k; try (rewrite text_eqb_refl in *; discriminate); auto. }
  assert (NS : ns = List.length cells).
  { pose proof (bt_ns _ _ _ _ _ _ _ _ _ _ _ _ _ B) as E.
    assert (E' : get_num_series d6 = Some (List.length cells)).
    { apply num_series_eq.
      - intros k l I K. apply (L6 k l K). apply dgetN_some. apply dget_NoDup; auto.
        apply (bt_nodup _ _ _ _ _ _ _ _ _ _ _ _ _ B ND).
      - exists n_headers_coord, (map VStr names). split; [|split; [discriminate|rewrite map_length; lia]].
        apply dget_In. rewrite (dgetN_in n_headers_coord d6).
        + f_equal. apply (bt_d6 _ _ _ _ _ _ _ _ _ _ _ _ _ B).
        + apply (bt_keys6 _ _ _ _ _ _ _ _ _ _ _ _ _ B). eapply dget_has; eauto. }
    congruence. }
  apply count_num. rewrite <- NS. destruct ns as [|m]; [destruct cells; [congruence|discriminate]|].
  apply (b_num_series B ND).
Qed.

(** ** C11 *)
Lemma c11_alignment json d p v n i : NoDup (map fst d) -> make_params json (PDict d) = Ok p ->
  series_count p n -> (i < n)%nat ->
  given_once (pname "alignment") d v -> v <> VNone ->
  v = VStr (pname "vertical") \/ v = VStr (pname "horizontal") ->
  series_value p (pname "alignment") i v.
Proof.
  intros ND H C I [NL G] NN V.
  assert (NE : d <> []) by (destruct G as [G|G]; eapply dget_ne; eauto).
  destruct (built_series _ _ _ _ _ ND NE H C I) as (b & m & f & th & tmv & alv & ctxv & comps & hs & d6 & d8 & d9 & -> & -> & _ & B).
  change (pname "alignment") with n_alignment in *.
  exists (repeat v (S m)). split; [|apply nth_repeat_some; auto].
  rewrite params_of_get by (cbn; tauto).
  assert (E8 : dgetN n_alignment d8 = v \/ dgetN n_alignment d8 = VList [v]).
  { pose proof (bt_al _ _ _ _ _ _ _ _ _ _ _ _ _ B) as A. rewrite (bt_d8 _ _ _ _ _ _ _ _ _ _ _ _ _ B).
    change (alv = v \/ alv = VList [v]).
    destruct G as [G|G]; rewrite (dgetN_some _ _ _ G) in A.
    - left. destruct V as [-> | ->]; exact A.
    - right. exact A. }
  erewrite (b_gen B ND n_alignment); [|apply (b_in8 B); destruct G as [G|G]; eapply dget_has; eauto|tneq|tneq|reflexivity| |].
  - destruct E8 as [-> | ->]; [apply bcast_scalar; auto|reflexivity].
  - left. destruct E8 as [-> | ->]; [auto|discriminate].
  - destruct E8 as [-> | ->]; [|discriminate]. intros ->. apply NL. eexists; eauto.
Qed.
Lemma c11_multicolumn json d p n i : NoDup (map fst d) -> make_params json (PDict d) = Ok p ->
  series_count p n -> (i < n)%nat ->
  given_once (pname "time_multicolumn") d (VBool true) ->
  series_value p (pname "time_multicolumn") i (VBool true).
Proof.
  intros ND H C I [NL G].
  assert (NE : d <> []) by (destruct G as [G|G]; eapply dget_ne; eauto).
  destruct (built_series _ _ _ _ _ ND NE H C I) as (b & m & f & th & tmv & alv & ctxv & comps & hs & d6 & d8 & d9 & -> & -> & _ & B).
  change (pname "time_multicolumn") with n_time_multicolumn in *.
  exists (repeat (VBool true) (S m)). split; [|apply nth_repeat_some; auto].
  rewrite params_of_get by (cbn; tauto).
  assert (E8 : dgetN n_time_multicolumn d8 = VBool true \/ dgetN n_time_multicolumn d8 = VList [VBool true]).
  { pose proof (bt_tm _ _ _ _ _ _ _ _ _ _ _ _ _ B) as A. rewrite (bt_d8 _ _ _ _ _ _ _ _ _ _ _ _ _ B).
    change (tmv = VBool true \/ tmv = VList [VBool true]).
    destruct G as [G|G]; rewrite (dgetN_some _ _ _ G) in A; auto. }
  erewrite (b_gen B ND n_time_multicolumn); [|apply (b_in8 B); destruct G as [G|G]; eapply dget_has; eauto|tneq|tneq|reflexivity| |].
  - destruct E8 as [-> | ->]; reflexivity.
  - left. destruct E8 as [-> | ->]; discriminate.
  - destruct E8 as [-> | ->]; discriminate.
Qed.
(** lists of one alignment per series *)
Lemma c11_alignments json d p l n i : NoDup (map fst d) -> make_params json (PDict d) = Ok p ->
  series_count p n -> (i < n)%nat -> dget (pname "alignment") d = Some (VList l) -> List.length l = n ->
  exists v, nth_error l i = Some v /\ series_value p (pname "alignment") i v.
Proof.
  intros ND H C I G L.
  destruct (built_series _ _ _ _ _ ND (dget_ne _ _ _ G) H C I) as (b & m & f & th & tmv & alv & ctxv & comps & hs & d6 & d8 & d9 & -> & -> & _ & B).
  destruct (nth_error l i) as [v|] eqn:E; [|apply nth_error_None in E; lia].
  exists v. split; auto. exists l. split; auto.
  change (pname "alignment") with n_alignment in *.
  rewrite params_of_get by (cbn; tauto).
  assert (E8 : dgetN n_alignment d8 = VList l).
  { pose proof (bt_al _ _ _ _ _ _ _ _ _ _ _ _ _ B) as A. rewrite (bt_d8 _ _ _ _ _ _ _ _ _ _ _ _ _ B).
    change (alv = VList l). rewrite (dgetN_some _ _ _ G) in A. destruct l; [discriminate|]. exact A. }
  erewrite (b_gen B ND n_alignment); [|apply (b_in8 B); eapply dget_has; eauto|tneq|tneq|reflexivity| |];
    rewrite E8; [apply bcast_full; auto|left; discriminate|]. intros X; inversion X; subst; discriminate.
Qed.

(** ** C12 *)
Lemma Zmem_In x l : Zmem x l = true <-> In x l.
Proof.
  induction l as [|y l IH]; cbn; [intuition discriminate|]. rewrite orb_true_iff, IH. rewrite Z.eqb_eq. intuition.
Qed.
Lemma distinct_NoDup l : distinct l = true <-> NoDup l.
Proof.
  induction l as [|x l IH]; cbn; [intuition constructor|].
  rewrite andb_true_iff, negb_true_iff, IH. split.
  - intros [A B]. constructor; auto. intros C. apply Zmem_In in C. congruence.
  - intros H. inversion H; subst. split; auto. apply not_true_is_false. intros C. apply Zmem_In in C. contradiction.
Qed.
Lemma all_same_iff l : all_same l = true <-> l <> [] /\ exists x, forall y, In y l -> y = x.
Proof.
  destruct l as [|x l]; cbn; [intuition discriminate|]. rewrite forallb_forall. split.
  - intros H. split; [discriminate|]. exists x. intros y [A|A]; auto. apply H in A. lia.
  - intros [_ [z H]] y A. rewrite (H x), (H y) by auto. lia.
Qed.
Lemma in_one_row_iff cells : cells <> [] -> (all_same (map fst cells) = true <-> in_one_row cells).
Proof.
  intros N. rewrite all_same_iff. unfold in_one_row. split.
  - intros [_ [x H]]. exists x. intros p Hp. apply H. apply in_map; auto.
  - intros [x H]. split; [destruct cells; [congruence|discriminate]|]. exists x. intros y Hy.
    apply in_map_iff in Hy. destruct Hy as [p [<- Hp]]. auto.
Qed.
Lemma in_one_column_iff cells : cells <> [] -> (all_same (map snd cells) = true <-> in_one_column cells).
Proof.
  intros N. rewrite all_same_iff. unfold in_one_column. split.
  - intros [_ [x H]]. exists x. intros p Hp. apply H. apply in_map; auto.
  - intros [x H]. split; [destruct cells; [congruence|discriminate]|]. exists x. intros y Hy.
    apply in_map_iff in Hy. destruct Hy as [p [<- Hp]]. auto.
Qed.
Lemma mapM_as_text ts : mapM as_text (map VStr ts) = Ok ts.
Proof. exact (as_texts_strs ts). Qed.

Lemma guess_spec (ts : list text) cells a : names_cells ts cells -> guess_alignment (VList (map VStr ts)) = Ok a ->
  a = VNone \/
  (2 <= List.length cells)%nat /\
  ((a = VStr (pname "vertical") /\ in_one_row cells /\ NoDup (map snd cells)) \/
   (a = VStr (pname "horizontal") /\ in_one_column cells /\ NoDup (map fst cells))).
Proof.
  intros N H. cbn [guess_alignment] in H. rewrite map_length in H. pose proof (names_len _ _ N) as L.
  destruct (Nat.leb (List.length ts) 1) eqn:E1; [inversion H; auto|]. apply Nat.leb_gt in E1.
  rewrite mapM_as_text in H. cbn [bind] in H. inv_bind H. destruct a0; [|inversion H; auto].
  rewrite (proj1 (names_cells_iff _ _) N) in H. cbn [bind] in H.
  assert (NC : cells <> []) by (destruct cells; [cbn in L; lia|congruence]).
  destruct (all_same (map fst cells) && distinct (map snd cells)) eqn:E2.
  - apply andb_true_iff in E2. destruct E2 as [A B]. right. split; [lia|]. left.
    inversion H; subst. split; auto. split; [apply in_one_row_iff; auto|apply distinct_NoDup; auto].
  - destruct (all_same (map snd cells) && distinct (map fst cells)) eqn:E3; [|inversion H; auto].
    apply andb_true_iff in E3. destruct E3 as [A B]. right. split; [lia|]. right.
    inversion H; subst. split; auto. split; [apply in_one_column_iff; auto|apply distinct_NoDup; auto].
Qed.
Lemma not_given_falsy k d : ~ given k d -> dgetN k d = VNone.
Proof. intros H. unfold dgetN. destruct (not_given_cases _ _ H) as [-> | ->]; auto. Qed.

Lemma c12 json d p hv cells i a n : NoDup (map fst d) -> make_params json (PDict d) = Ok p ->
  series_count p n -> (i < n)%nat ->
  dget (pname "headers_coord") d = Some hv -> header_cells hv cells -> ~ given (pname "alignment") d ->
  series_value p (pname "alignment") i a ->
  (2 <= List.length cells)%nat /\
  ((a = VStr (pname "vertical") /\ in_one_row cells /\ NoDup (map snd cells)) \/
   (a = VStr (pname "horizontal") /\ in_one_column cells /\ NoDup (map fst cells))).
Proof.
  intros ND H C I Hh HC NG [l [S1 S2]].
  destruct (built_series _ _ _ _ _ ND (dget_ne _ _ _ Hh) H C I) as (b & m & f & th & tmv & alv & ctxv & comps & hs & d6 & d8 & d9 & -> & -> & _ & B).
  destruct (headers_processed _ _ HC) as [comps' [names [P [N LC]]]].
  change (pname "headers_coord") with n_headers_coord in *. change (pname "alignment") with n_alignment in *.
  pose proof (bt_headers _ _ _ _ _ _ _ _ _ _ _ _ _ B) as P'. rewrite (dgetN_some _ _ _ Hh) in P'.
  rewrite P in P'. inversion P'; subst comps' hs. clear P'.
  pose proof (bt_al _ _ _ _ _ _ _ _ _ _ _ _ _ B) as A. rewrite (not_given_falsy _ _ NG) in A. cbn [truthy] in A.
  rewrite params_of_get in S1 by (cbn; tauto).
  assert (I8 : In n_alignment (map fst d8)).
  { apply (bt_keys8 _ _ _ _ _ _ _ _ _ _ _ _ _ B). right. right. split; auto. rewrite (not_given_falsy _ _ NG). auto. }
  assert (E8 : dgetN n_alignment d8 = alv) by apply (bt_d8 _ _ _ _ _ _ _ _ _ _ _ _ _ B).
  rewrite (built_value _ _ _ _ _ _ _ _ _ _ _ _ _ B) in S1. change (text_in n_alignment OPTIONAL) with false in S1.
  cbn beta iota in S1. erewrite (b_gen9 B ND n_alignment) in S1; [|exact I8|tneq|tneq|reflexivity].
  rewrite E8 in S1. destruct (guess_spec _ _ _ N A) as [->|[L G]].
  - discriminate.
  - split; auto.
    assert (a = alv).
    { assert (S3 : VList (repeat alv (S m)) = VList l).
      { rewrite <- S1. destruct G as [[-> _]|[-> _]]; reflexivity. }
      assert (l = repeat alv (S m)) by congruence. subst l.
      rewrite nth_repeat_some in S2 by auto. congruence. }
    subst a. auto.
Qed.
(** the guess is made when there are four headers or more, or an unbroken run *)
Lemma c12_made json d p hv cells i n : NoDup (map fst d) -> make_params json (PDict d) = Ok p ->
  series_count p n -> (i < n)%nat ->
  dget (pname "headers_coord") d = Some hv -> header_cells hv cells -> ~ given (pname "alignment") d ->
  (2 <= List.length cells)%nat ->
  ((4 <= List.length cells)%nat /\ in_one_row cells /\ NoDup (map snd cells) \/ row_run cells ->
    series_value p (pname "alignment") i (VStr (pname "vertical"))) /\
  ((4 <= List.length cells)%nat /\ in_one_column cells /\ NoDup (map fst cells) \/ column_run cells ->
    series_value p (pname "alignment") i (VStr (pname "horizontal"))).
Proof.
  intros ND H C I Hh HC NG L.
  destruct (built_series _ _ _ _ _ ND (dget_ne _ _ _ Hh) H C I) as (b & m & f & th & tmv & alv & ctxv & comps & hs & d6 & d8 & d9 & -> & -> & _ & B).
  destruct (headers_processed _ _ HC) as [comps' [names [P [N LC]]]].
  change (pname "headers_coord") with n_headers_coord in *. change (pname "alignment") with n_alignment in *.
  pose proof (bt_headers _ _ _ _ _ _ _ _ _ _ _ _ _ B) as P'. rewrite (dgetN_some _ _ _ Hh) in P'.
  rewrite P in P'. inversion P'; subst comps' hs. clear P'.
  pose proof (bt_al _ _ _ _ _ _ _ _ _ _ _ _ _ B) as A. rewrite (not_given_falsy _ _ NG) in A. cbn [truthy] in A.
  assert (I8 : In n_alignment (map fst d8)).
  { apply (bt_keys8 _ _ _ _ _ _ _ _ _ _ _ _ _ B). right. right. split; auto. rewrite (not_given_falsy _ _ NG). auto. }
  assert (E8 : dgetN n_alignment d8 = alv) by apply (bt_d8 _ _ _ _ _ _ _ _ _ _ _ _ _ B).
  assert (NC : cells <> []) by (destruct cells; [cbn in L; lia|congruence]).
  pose proof (names_len _ _ N) as LN.
  cbn [guess_alignment] in A. rewrite map_length in A.
  replace (Nat.leb (List.length names) 1) with false in A by (symmetry; apply Nat.leb_gt; lia).
  rewrite mapM_as_text in A. cbn [bind] in A.
  assert (W : forall t, alv = VStr t -> series_value (params_of b) n_alignment i (VStr t)).
  { intros t ->. exists (repeat (VStr t) (S m)). split; [|apply nth_repeat_some; auto].
    rewrite params_of_get by (cbn; tauto).
    erewrite (b_gen B ND n_alignment); [|exact I8|tneq|tneq|reflexivity| |]; rewrite E8; [reflexivity|left; discriminate|discriminate]. }
  assert (RR : row_run cells -> in_one_row cells /\ NoDup (map snd cells)).
  { intros [r [c [k E]]]. subst cells. split.
    - exists r. intros p Hp. apply in_map_iff in Hp. destruct Hp as [j [<- _]]. auto.
    - rewrite map_map. cbn. apply FinFun.Injective_map_NoDup; [|apply seq_NoDup]. intros x y. lia. }
  assert (CR : column_run cells -> in_one_column cells /\ NoDup (map fst cells)).
  { intros [r [c [k E]]]. subst cells. split.
    - exists c. intros p Hp. apply in_map_iff in Hp. destruct Hp as [j [<- _]]. auto.
    - rewrite map_map. cbn. apply FinFun.Injective_map_NoDup; [|apply seq_NoDup]. intros x y. lia. }
  assert (GO : (4 <= List.length cells)%nat \/ row_run cells \/ column_run cells ->
     (if Nat.ltb (List.length names) 4 then consecutive_cells names else Ok true) = Ok true).
  { intros X. destruct (Nat.ltb (List.length names) 4) eqn:E; auto. apply Nat.ltb_lt in E.
    destruct X as [X|X]; [lia|]. eapply consecutive_complete; eauto. }
  split; intros X.
  - rewrite GO in A by tauto. cbn [bind] in A. rewrite (proj1 (names_cells_iff _ _) N) in A. cbn [bind] in A.
    assert (Y : in_one_row cells /\ NoDup (map snd cells)) by tauto. destruct Y as [Y1 Y2].
    rewrite (proj2 (in_one_row_iff _ NC) Y1), (proj2 (distinct_NoDup _) Y2) in A. apply W. inversion A; auto.
  - rewrite GO in A by tauto. cbn [bind] in A. rewrite (proj1 (names_cells_iff _ _) N) in A. cbn [bind] in A.
    assert (Y : in_one_column cells /\ NoDup (map fst cells)) by tauto. destruct Y as [Y1 Y2].
    rewrite (proj2 (in_one_column_iff _ NC) Y1), (proj2 (distinct_NoDup _) Y2) in A.
    replace (distinct (map snd cells)) with false in A.
    + rewrite andb_false_r in A. apply W. inversion A; auto.
    + symmetry. apply not_true_is_false. intros D. apply distinct_NoDup in D.
      destruct Y1 as [col Y1]. destruct cells as [|p [|q cells]]; cbn in L; try lia.
      cbn [map] in D. inversion D; subst. apply H2. left. rewrite (Y1 p), (Y1 q) by (cbn; auto). auto.
Qed.
