(** Proofs of the theorems of PropsParams.v (C13 - C15, C52). *)
From Coq Require Import ZifyBool ZifyNat ZifyN Sorting.Sorted.
From Verif Require Import Base BaseFacts Coord XlMethods Params CoordFacts
  SpecCoord SpecParams SpecCoordFacts HeaderFacts ComposedFacts ScopeFacts BuildFacts BuildInv ParamsFacts
  ParamsProofs ParamsProofs2.
Local Open Scope Z_scope.

(** ** C13 *)
Lemma d6_same {d b f th tmv alv ctxv comps hs ns d6 d8 d9} :
  built d b f th tmv alv ctxv comps hs ns d6 d8 d9 ->
  forall k, ~ In k [n_frequency; n_headers_coord; n_composed; n_time_header; n_context; n_time_alignment; n_missing_value] ->
  dget k d6 = dget k d.
Proof.
  intros B k N. destruct (dget k d) as [v|] eqn:E.
  - rewrite (dgetN_in k d6) by (apply (bt_keys6 _ _ _ _ _ _ _ _ _ _ _ _ _ B); eapply dget_has; eauto).
    f_equal. rewrite (bt_d6 _ _ _ _ _ _ _ _ _ _ _ _ _ B), (dgetN_some _ _ _ E).
    rewrite !(proj2 (text_eqb_neq _ _)) by (intros ->; apply N; cbn; tauto).
    apply defaulted_other; intros ->; apply N; cbn; tauto.
  - apply dget_None. apply dget_None in E. intros I. apply (bt_keys6' _ _ _ _ _ _ _ _ _ _ _ _ _ B) in I.
    destruct I as [I|I]; auto. apply N. cbn in I. cbn. tauto.
Qed.
Lemma mapM_coords (ts : list text) cells : names_cells ts cells ->
  mapM (fun h => do t <- as_text h; parse_coord t) (map VStr ts) = Ok cells.
Proof.
  induction 1 as [|t [r c] ts cells H N IH]; auto. cbn [map mapM as_text bind].
  cbn [fst snd] in H. apply cell_named_iff in H. rewrite H. cbn [bind]. rewrite IH. auto.
Qed.
Lemma int_value_gt v z k : int_value v z -> int_gt v k = Ok (k <? z).
Proof. destruct 1; auto. Qed.
Lemma c13 json d p hv r0 c0 cells z : make_params json (PDict d) = Ok p ->
  dget (pname "headers_coord") d = Some hv -> header_cells hv ((r0, c0) :: cells) -> first_data d z ->
  (dget (pname "alignment") d = Some (VStr (pname "vertical")) \/
   dget (pname "alignment") d = None /\ cells <> [] /\
     in_one_row ((r0, c0) :: cells) /\ NoDup (map snd ((r0, c0) :: cells)) -> r0 < z) /\
  (dget (pname "alignment") d = Some (VStr (pname "horizontal")) \/
   dget (pname "alignment") d = None /\ cells <> [] /\
     in_one_column ((r0, c0) :: cells) /\ NoDup (map fst ((r0, c0) :: cells)) -> c0 < z).
Proof.
  intros H Hh HC [v [x [D1 [D2 D3]]]].
  destruct (make_inv _ _ _ (dget_ne _ _ _ Hh) H) as [b [Hb ->]].
  destruct (build_inv _ _ Hb) as [f [th [tmv [alv [ctxv [comps [hs [ns [d6 [d8 [d9 B]]]]]]]]]]].
  destruct (headers_processed _ _ HC) as [comps' [names [P [N LC]]]].
  change (pname "headers_coord") with n_headers_coord in *. change (pname "alignment") with n_alignment in *.
  change (pname "data_starts") with n_data_starts in *.
  pose proof (bt_headers _ _ _ _ _ _ _ _ _ _ _ _ _ B) as P'. rewrite (dgetN_some _ _ _ Hh) in P'.
  rewrite P in P'. inversion P'; subst comps' hs. clear P'.
  pose proof (bt_consistent _ _ _ _ _ _ _ _ _ _ _ _ _ B) as K. unfold check_consistency in K.
  rewrite (proj2 (dgetE_ok n_data_starts d6 v)) in K.
  2:{ rewrite (d6_same B); auto. cbn. intuition discriminate. }
  cbn [bind] in K.
  assert (E1 : (match v with VList _ => py_index v 0 | _ => Ok v end) = Ok x).
  { destruct D2 as [->|[l ->]]; [|reflexivity]. destruct D3; auto. }
  rewrite E1 in K. cbn [bind] in K.
  rewrite (proj2 (dgetE_ok n_headers_coord d6 (VList (map VStr names)))) in K.
  2:{ rewrite (dgetN_in n_headers_coord d6).
      - f_equal. apply (bt_d6 _ _ _ _ _ _ _ _ _ _ _ _ _ B).
      - apply (bt_keys6 _ _ _ _ _ _ _ _ _ _ _ _ _ B). eapply dget_has; eauto. }
  cbn [bind] in K. rewrite (mapM_coords _ _ N) in K. cbn [bind] in K.
  rewrite (d6_same B n_alignment) in K by (cbn; intuition discriminate).
  assert (NC : (r0, c0) :: cells <> []) by discriminate.
  assert (Step : forall l0 l (Q : res unit), (do _ <- (do q <- head_err (l0 :: l); do g <- int_gt x q; assert_ g); Q) = Ok tt -> l0 < z /\ Q = Ok tt).
  { intros l0 l Q HQ. cbn [head_err bind] in HQ. rewrite (int_value_gt _ _ _ D3) in HQ. cbn [bind] in HQ.
    destruct (l0 <? z) eqn:E; [|discriminate]. cbn in HQ. split; [lia|auto]. }
  assert (L2 : cells <> [] -> Nat.ltb 1 (List.length (map VStr names)) = true).
  { intros NE. rewrite map_length, (names_len _ _ N). apply Nat.ltb_lt. destruct cells; [congruence|cbn; lia]. }
  split; (intros [A|[A [NE [R1 R2]]]]; rewrite A in K).
  - cbn -[head_err int_gt bind map] in K. apply (Step r0 (map fst cells)) in K. tauto.
  - rewrite L2 in K by auto. cbv zeta in K.
    rewrite (proj2 (in_one_row_iff _ NC) R1), (proj2 (distinct_NoDup _) R2) in K.
    cbn [andb orb py_eq str_] in K. apply (Step r0 (map fst cells)) in K. tauto.
  - cbn -[head_err int_gt bind map] in K. cbn [bind] in K. 
    assert (K' : (do _ <- (do q <- head_err (c0 :: map snd cells); do g <- int_gt x q; assert_ g); Ok tt) = Ok tt).
    { change (map snd ((r0, c0) :: cells)) with (c0 :: map snd cells) in K. rewrite K. auto. }
    apply Step in K'. tauto.
  - rewrite L2 in K by auto. cbv zeta in K.
    rewrite (proj2 (in_one_column_iff _ NC) R1), (proj2 (distinct_NoDup _) R2) in K.
    cbn [andb orb py_eq str_] in K. inv_bind K.
    assert (K' : (do _ <- (do q <- head_err (c0 :: map snd cells); do g <- int_gt x q; assert_ g); Ok tt) = Ok tt).
    { change (map snd ((r0, c0) :: cells)) with (c0 :: map snd cells) in K. rewrite K. auto. }
    apply Step in K'. tauto.
Qed.

(** ** C14 *)
Lemma params_keys b : map fst (params_of b) = PARAM_NAMES.
Proof. unfold params_of. rewrite map_map. apply map_id. Qed.
Lemma context_list {d b f th tmv alv ctxv comps hs m d6 d8 d9} :
  built d b f th tmv alv ctxv comps hs (S m) d6 d8 d9 -> NoDup (map fst d) ->
  exists x l, dgetN n_context b = VList (x :: l).
Proof.
  intros B ND. rewrite (built_value _ _ _ _ _ _ _ _ _ _ _ _ _ B). change (text_in n_context OPTIONAL) with true.
  cbn beta iota. unfold filled. destruct (truthy (dgetN n_context d9)) eqn:T; [|cbn; eauto].
  destruct (in_dec text_dec n_context (map fst d8)) as [I|I].
  2:{ rewrite (b_not8 B ND _ I) in T. discriminate. }
  erewrite (b_gen9 B ND n_context) in T |- *; [|exact I|tneq|tneq|reflexivity|exact I|tneq|tneq|reflexivity].
  unfold apply_to_all_gen in *. destruct (_ && _ && _); [discriminate|].
  destruct (dgetN n_context d8) as [| | | | | |[|x [|y l]]| |]; cbn in T |- *; try discriminate; eauto.
Qed.
Lemma c14 json d p n : NoDup (map fst d) -> d <> [] -> make_params json (PDict d) = Ok p ->
  series_count p n -> (0 < n)%nat ->
  exists e, make_params json (PObj p) = Err e.
Proof.
  intros ND NE H C L.
  destruct (built_series _ _ _ _ _ ND NE H C L) as (b & m & f & th & tmv & alv & ctxv & comps & hs & d6 & d8 & d9 & -> & -> & Hb & B).
  cbn [make_params]. rewrite (b_num_series B ND).
  destruct (build (params_of b)) as [b'|e] eqn:E; [|cbn; eauto]. exfalso.
  destruct (build_inv _ _ E) as [f' [th' [tmv' [alv' [ctxv' [comps' [hs' [ns' [d6' [d8' [d9' B']]]]]]]]]]].
  pose proof (bt_valid _ _ _ _ _ _ _ _ _ _ _ _ _ B') as V. unfold validate_parameters in V.
  pose proof (proj1 (foldM_unit (fun kv => validate_one (fst kv) (snd kv)) _) V) as V'.
  destruct (context_list B ND) as [x [l X]].
  assert (I : In (n_context, VList (x :: l)) (dset n_frequency f' (params_of b))).
  { apply dget_In. rewrite dget_dset_other by tneq. rewrite (dgetN_in n_context (params_of b)).
    - rewrite params_of_get by (cbn; tauto). rewrite X. auto.
    - rewrite params_keys. cbn; tauto. }
  specialize (V' _ I). discriminate V'.
Qed.

(** ** C15 *)
Lemma set_composed_ok p l : exists p', set_general p n_composed (VList l) = Ok p'.
Proof.
  unfold set_general.
  destruct (valid_param_list n_composed (VList l) (get_num_series p)) as [g|e] eqn:E.
  - cbn [bind]. destruct g; eauto. cbn. eauto.
  - exfalso. unfold valid_param_list in E. destruct (get_num_series p) as [n|]; [|discriminate].
    destruct (Nat.eqb _ _); [|discriminate]. destruct l; discriminate.
Qed.
Lemma c15_rejected p k v p' e : set_item p k v = (p', Err e) -> p' = p.
Proof.
  unfold set_item. destruct (text_eqb k n_context && truthy v).
  - intros H. destruct (match dgetN n_headers_coord p with VList hl => do c <- process_context v hl; Ok (dset k c p) | _ => Err EType end);
    inversion H; auto.
  - destruct (text_eqb k n_headers_coord).
    + destruct (process_headers_coord v) as [[comp hcs]|e']; [|intros H; inversion H; auto].
      destruct (existsb truthy comp); [|intros H; inversion H].
      destruct (set_composed_ok (dset k (VList hcs) p) comp) as [p2 ->]. intros H; inversion H.
    + intros H. destruct (set_general p k v); inversion H; auto.
Qed.

(** parameters whose values are not lists *)
Definition scalar_names : list text :=
  [pname "alignment"; pname "series_names"; pname "data_starts"; pname "data_ends"; pname "continuity";
   pname "blank_rows"; pname "missings"; pname "time_alignment"; pname "time_multicolumn";
   pname "time_composed"; pname "frequency"].
Lemma scalar_acceptable k vv x : In k scalar_names -> valid_values k = Ok vv -> not_type x ->
  valid_param_value x vv = true -> ~ is_list_value x /\ (forall l, Forall (fun y => not_type y /\ valid_param_value y vv = true) l -> acceptable k (VList l)).
Proof.
  intros K V NT H. split.
  { intros [l ->]. cbn in K. repeat (destruct K as [<-|K]; [inversion V; subst; discriminate|]). contradiction. }
  intros l F.
  assert (G : forall l', Forall (fun y => not_type y /\ valid_param_value y vv = true) l' -> k <> pname "frequency" -> acceptable k (VList l')).
  { intros l' F' NF. apply validate_acceptable; auto.
    - apply valid_values_in in V. apply in_map_iff. exists (k, vv); auto.
    - split; [discriminate|]. eapply Forall_impl; [|exact F']. intros y [Hy _]. exact Hy.
    - unfold validate_one. cbn [is_none]. rewrite (proj2 (text_eqb_neq k n_frequency) NF).
      replace (text_eqb k n_context) with false.
      + apply (foldM_unit (fun v => do vv0 <- valid_values k; if valid_param_value v vv0 then Ok tt else Err EInvalid)).
        intros y Hy. rewrite V. cbn [bind]. rewrite Forall_forall in F'. destruct (F' y Hy) as [_ ->]. auto.
      + symmetry. cbn in K. repeat (destruct K as [<-|K]; [reflexivity|]). contradiction. }
  destruct (text_dec k (pname "frequency")) as [->|NF]; [|auto].
  apply acc_frequency. unfold each. eapply Forall_impl; [|exact F]. intros y [_ Hy].
  inversion V; subst vv. cbn [valid_param_value existsb str_ orb] in Hy. rewrite orb_false_r in Hy.
  repeat (apply orb_true_iff in Hy; destruct Hy as [Hy|Hy]); apply py_eq_str in Hy; subst y;
    eexists; (split; [reflexivity|]); (apply Forall_cons; [|apply Forall_nil]); cbn; tauto.
Qed.
Lemma c15_accepted p k v p' n : series_count p (S n) -> In k scalar_names -> plain v ->
  set_item p k v = (p', Ok tt) ->
  (exists l, dgetN k p' = VList l /\ List.length l = S n /\ acceptable k (VList l)) /\ (forall k', k' <> k -> dgetN k' p' = dgetN k' p).
Proof.
  intros C K P H. apply num_count in C. unfold set_item in H.
  replace (text_eqb k n_context) with false in H.
  2:{ symmetry. cbn in K. repeat (destruct K as [<-|K]; [reflexivity|]). contradiction. }
  replace (text_eqb k n_headers_coord) with false in H.
  2:{ symmetry. cbn in K. repeat (destruct K as [<-|K]; [reflexivity|]). contradiction. }
  cbn [andb] in H. destruct (set_general p k v) as [q|] eqn:E; inversion H; subst q; clear H.
  unfold set_general in E. rewrite C in E.
  assert (V : exists vv, valid_values k = Ok vv /\ vv <> []).
  { cbn in K. repeat (destruct K as [<-|K]; [eexists; split; [reflexivity|discriminate]|]). contradiction. }
  destruct V as [vv [V NV]].
  inv_bind E. destruct a.
  - inversion E; subst p'; clear E. unfold valid_param_list in E0. destruct v; try discriminate.
    destruct (Nat.eqb (List.length l) (S n)) eqn:L; [|discriminate]. apply Nat.eqb_eq in L.
    split.
    + exists l. rewrite dgetN_dset, text_eqb_refl. split; auto. split; auto.
      destruct l as [|x l]; [discriminate|]. rewrite V in E0. cbn [bind] in E0.
      assert (F : forallb (fun x0 => valid_param_value x0 vv) (x :: l) = true) by congruence.
      rewrite forallb_forall in F.
      destruct P as [_ P]. rewrite Forall_forall in P.
      apply (scalar_acceptable k vv x K V); [apply P; left; auto|apply F; left; auto|].
      apply Forall_forall. intros y Hy. split; auto.
    + intros k' N. rewrite dgetN_dset. rewrite (proj2 (text_eqb_neq k k')) by auto. auto.
  - rewrite V in E. cbn [bind] in E. destruct (valid_param_value v vv) eqn:W; cbn [negb] in E; [|discriminate].
    inv_bind E. inversion E; subst p'; clear E.
    destruct (scalar_acceptable k vv v K V (proj1 P) W) as [NL A].
    assert (G : a = VList (repeat v (S n))).
    { unfold apply_to_all in E1. replace (text_eqb k n_time_header) with false in E1.
      2:{ symmetry. cbn in K. repeat (destruct K as [<-|K]; [reflexivity|]). contradiction. }
      replace (text_eqb k n_missing_value) with false in E1.
      2:{ symmetry. cbn in K. repeat (destruct K as [<-|K]; [reflexivity|]). contradiction. }
      inversion E1 as [E2]. rewrite gen_bcast; [apply bcast_scalar; auto|].
      destruct v; try (left; discriminate). right. left. clear -W NV. destruct vv as [|x vv]; [congruence|].
      unfold none_in. unfold valid_param_value in W. revert W. generalize (x :: vv). intros l. clear.
      induction l as [|y l IH]; auto. cbn [existsb]. intros H. apply orb_true_iff in H. destruct H as [H|H].
      - apply orb_true_iff. left. destruct y; cbn in *; auto; discriminate.
      - rewrite IH; auto. apply orb_true_r. }
    subst a. split.
    + exists (repeat v (S n)). rewrite dgetN_dset, text_eqb_refl. split; auto. split; [apply repeat_length|].
      apply A. apply Forall_forall. intros y Hy. apply repeat_spec in Hy. subst y. split; auto. apply P.
    + intros k' N. rewrite dgetN_dset. rewrite (proj2 (text_eqb_neq k k')) by auto. auto.
Qed.
