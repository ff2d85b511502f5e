(** Proof of the exact number of series (C10). *)
From Coq Require Import ZifyBool ZifyNat ZifyN.
From Verif Require Import Base BaseFacts Coord XlMethods Params CoordFacts
  SpecCoord SpecParams SpecCount SpecCoordFacts HeaderFacts ComposedFacts ScopeFacts BuildFacts BuildInv ParamsFacts
  ParamsProofs ParamsProofs2.
Local Open Scope Z_scope.

Lemma c10_exact json d p hv cells n : NoDup (map fst d) -> make_params json (PDict d) = Ok p ->
  dget (pname "headers_coord") d = Some hv -> header_cells hv cells -> cells <> [] ->
  (List.length cells <= n)%nat -> lists_fit d n -> list_of_length d cells n -> series_count p n.
Proof.
  intros ND H Hh HC NE LN0 [F1 [tv [TV F2]]] AT.
  destruct (make_inv _ _ _ (dget_ne _ _ _ Hh) H) as [b [Hb ->]].
  destruct (build_inv _ _ Hb) as [f [th [tmv [alv [ctxv [comps [hs [ns [d6 [d8 [d9 B]]]]]]]]]]].
  destruct (headers_processed _ _ HC) as [comps' [names [P [N LC]]]].
  change (pname "headers_coord") with n_headers_coord in *.
  pose proof (bt_headers _ _ _ _ _ _ _ _ _ _ _ _ _ B) as P'. rewrite (dgetN_some _ _ _ Hh) in P'.
  rewrite P in P'. inversion P'; subst comps' hs. clear P'.
  pose proof (names_len _ _ N) as LN.
  assert (TH : forall l, th = VList l ->
     (forall tcells, value_cells tv tcells -> List.length l = List.length tcells) /\
     (forall ls, tv = VList (map VList ls) -> List.length l = List.length ls)).
  { intros l ->. pose proof (bt_time _ _ _ _ _ _ _ _ _ _ _ _ _ B) as U.
    change n_time_header with (pname "time_header_coord") in U. rewrite (dgetN_some _ _ _ TV) in U. split.
    - intros tc V. destruct (value_unpack _ _ V) as [ts [U' N']]. rewrite U in U'. inversion U'; subst.
      rewrite map_length. apply (names_len _ _ N').
    - intros ls ->. unfold unpack_header_ranges in U. destruct (negb _); [discriminate|]. inv_bind U.
      destruct (Nat.eqb a 0); [discriminate|]. inv_bind U. inversion U; subst. apply (nested_len _ _ E0). }
  assert (THL : (exists tcells, value_cells tv tcells /\ List.length tcells = n) \/
     (exists ls, tv = VList (map VList ls) /\ List.length ls = n) -> exists l, th = VList l).
  { intros A2.
    pose proof (bt_time _ _ _ _ _ _ _ _ _ _ _ _ _ B) as U.
    change n_time_header with (pname "time_header_coord") in U. rewrite (dgetN_some _ _ _ TV) in U.
    destruct A2 as [(tc & V & _)|(ls & -> & V)].
    - destruct (value_unpack _ _ V) as [ts [U' N']]. rewrite U in U'. inversion U'. eauto.
    - destruct ls as [|x ls]; [destruct cells; [congruence|cbn in *; lia]|].
      unfold unpack_header_ranges in U. cbn [map truthy negb py_len bind List.length Nat.eqb] in U. inv_bind U. inversion U. eauto. }
  assert (L6 : forall k l, k <> n_missing_value -> dgetN k d6 = VList l -> (List.length l <= n)%nat).
  { intros k l K E. rewrite (bt_d6 _ _ _ _ _ _ _ _ _ _ _ _ _ B) in E.
    assert (F1' : forall k, ~ In k [n_headers_coord; n_time_header; n_context; n_missing_value] ->
        forall l, dgetN k d = VList l -> (List.length l <= n)%nat).
    { intros k' K' l' E'. apply (F1 k' l'); auto. unfold dgetN in E'. destruct (dget k' d); [congruence|discriminate]. }
    destruct (text_eqb k n_frequency) eqn:E1.
    { subst f. destruct (bt_freq _ _ _ _ _ _ _ _ _ _ _ _ _ B) as [f0 [A1 A2]].
      unfold curate_frequency in A2. destruct f0; try discriminate. inv_bind A2. inversion A2; subst.
      rewrite (mapM_length _ _ _ E). apply (F1 n_frequency l0 A1). intros X. cbn in X. repeat (destruct X as [X|X]; [discriminate|]). destruct X. }
    destruct (text_eqb k n_headers_coord) eqn:E2; [inversion E; rewrite map_length; lia|].
    destruct (text_eqb k n_composed) eqn:E3.
    { destruct (existsb truthy comps); [inversion E; subst; lia|]. apply text_eqb_eq in E3; subst k.
      apply (F1' n_composed); auto. intros X. cbn in X. repeat (destruct X as [X|X]; [discriminate|]). destruct X. }
    destruct (text_eqb k n_time_header) eqn:E4.
    { destruct (TH l E) as [T1 T2]. destruct F2 as [[tc [V1 V2]]|[ls [V1 V2]]].
      - rewrite (T1 tc V1). exact V2.
      - rewrite (T2 ls V1). exact V2. }
    destruct (text_eqb k n_context) eqn:E5.
    { subst ctxv. pose proof (bt_context _ _ _ _ _ _ _ _ _ _ _ _ _ B) as U.
      destruct (truthy (dgetN n_context d)) eqn:Tr.
      - unfold process_context in U. destruct (dgetN n_context d); try discriminate. inv_bind U. inv_bind U.
        inversion U; subst. apply mapM_length in E0. rewrite map_length in E0. lia.
      - rewrite <- U in Tr. destruct l; [cbn; lia|discriminate]. }
    unfold defaulted in E. destruct (is_none (dgetN k d)) eqn:IN.
    - destruct (text_eqb k n_time_alignment); [discriminate|].
      rewrite (proj2 (text_eqb_neq _ _) K) in E. destruct (dgetN k d); discriminate.
    - apply (F1' k); auto. cbn. intros [X|[X|[X|[X|[]]]]]; subst k; try (rewrite text_eqb_refl in *; discriminate); auto. }
  assert (IN6 : forall k l, In k (map fst d) -> dgetN k d6 = VList l -> In (k, VList l) d6).
  { intros k l I E. apply dget_In. rewrite (dgetN_in k d6); [rewrite E; reflexivity|].
    apply (bt_keys6 _ _ _ _ _ _ _ _ _ _ _ _ _ B), I. }
  assert (NS : ns = n).
  { pose proof (bt_ns _ _ _ _ _ _ _ _ _ _ _ _ _ B) as E.
    assert (E' : get_num_series d6 = Some n).
    { apply num_series_eq.
      - intros k l I K. apply (L6 k l K). apply dgetN_some. apply dget_NoDup; auto.
        apply (bt_nodup _ _ _ _ _ _ _ _ _ _ _ _ _ B ND).
      - destruct AT as [A|[(k & l & A1 & A2 & A3)|(tv' & A1 & A2)]].
        + exists n_headers_coord, (map VStr names). split; [|split; [discriminate|rewrite map_length; lia]].
          apply IN6; [eapply dget_has; eauto|apply (bt_d6 _ _ _ _ _ _ _ _ _ _ _ _ _ B)].
        + assert (KM : k <> n_missing_value) by (intros ->; apply A3; cbn; auto 10).
          destruct (text_eqb k n_frequency) eqn:EF.
          * apply text_eqb_eq in EF. subst k. destruct (bt_freq _ _ _ _ _ _ _ _ _ _ _ _ _ B) as [f0 [Q1 Q2]].
            rewrite A1 in Q1. inversion Q1; subst f0. cbn [curate_frequency] in Q2. inv_bind Q2. inversion Q2; subst f.
            exists n_frequency, a. split; [|split; [discriminate|rewrite (mapM_length _ _ _ E0); exact A2]].
            apply IN6; [eapply dget_has; eauto|]. rewrite (bt_d6 _ _ _ _ _ _ _ _ _ _ _ _ _ B). reflexivity.
          * exists k, l. split; [|split; [exact KM|exact A2]].
            apply IN6; [eapply dget_has; eauto|]. rewrite (bt_d6 _ _ _ _ _ _ _ _ _ _ _ _ _ B), EF.
            assert (X : forall x, In x [n_headers_coord; n_composed; n_time_header; n_context; n_missing_value] -> text_eqb k x = false).
            { intros x I. apply text_eqb_neq. intros ->. apply A3. exact I. }
            rewrite (X n_headers_coord), (X n_composed), (X n_time_header), (X n_context) by (cbn; auto 10).
            rewrite (dgetN_some _ _ _ A1). reflexivity.
        + rewrite TV in A1. inversion A1; subst tv'. destruct (THL A2) as [l EL]. destruct (TH l EL) as [T1 T2].
          exists n_time_header, l. split; [|split; [discriminate|]].
          * apply IN6; [eapply dget_has; exact TV|]. rewrite (bt_d6 _ _ _ _ _ _ _ _ _ _ _ _ _ B). exact EL.
          * destruct A2 as [(tc & V1 & V2)|(ls & V1 & V2)]; [rewrite (T1 tc V1)|rewrite (T2 ls V1)]; exact V2. }
    congruence. }
  apply count_num. rewrite <- NS. destruct ns as [|m]; [destruct cells; [congruence|cbn in LN0; lia]|].
  apply (b_num_series B ND).
Qed.
