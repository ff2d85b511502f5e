(** Proofs of the theorems of PropsParams.v (C08 - C15). *)
From Coq Require Import ZifyBool ZifyNat ZifyN.
From Verif Require Import Base BaseFacts Coord XlMethods Params CoordFacts
  SpecCoord SpecParams SpecCoordFacts HeaderFacts ComposedFacts ScopeFacts BuildFacts BuildInv ParamsFacts.
Local Open Scope Z_scope.

Lemma make_inv json d p : d <> [] -> make_params json (PDict d) = Ok p ->
  exists b, build d = Ok b /\ p = params_of b.
Proof.
  intros N H. destruct d as [|x d]; [congruence|]. cbn [make_params] in H.
  inv_bind H. inversion H; eauto.
Qed.
Lemma dget_ne k d v : dget k d = Some v -> d <> [].
Proof. destruct d; [discriminate|congruence]. Qed.
Lemma series_count_unique p n m : series_count p n -> series_count p m -> n = m.
Proof.
  intros [A [k [l [K [L E]]]]] [A' [k' [l' [K' [L' E']]]]].
  specialize (A _ _ K' L'). specialize (A' _ _ K L). lia.
Qed.
Lemma count_num p n : get_num_series p = Some n -> series_count p n.
Proof. intros H. exact (num_series_max _ _ H). Qed.
Lemma num_count p n : series_count p n -> get_num_series p = Some n.
Proof. intros [A B]. apply num_series_eq; auto. Qed.

(** ** no series at all *)
Section zero.
Context {d0 b : dict} {f th tmv alv ctxv : pyval} {comps hs : list pyval} {d6 d8 d9 : dict}.
Hypothesis B : built d0 b f th tmv alv ctxv comps hs 0 d6 d8 d9.
Hypothesis ND : NoDup (map fst d0).
Definition nolists (d : dict) : Prop := forall k l, k <> n_missing_value -> dgetN k d = VList l -> l = [].
Lemma zero_d6 : nolists d6.
Proof.
  intros k l N H. destruct (num_series_max _ _ (bt_ns _ _ _ _ _ _ _ _ _ _ _ _ _ B)) as [M _].
  assert (I : In (k, VList l) d6).
  { apply dget_In. unfold dgetN in H. destruct (dget k d6); [congruence|discriminate]. }
  specialize (M _ _ I N). destruct l; auto. cbn in M. lia.
Qed.
Lemma zero_d8 : nolists d8.
Proof.
  intros k l N H. rewrite (bt_d8 _ _ _ _ _ _ _ _ _ _ _ _ _ B) in H.
  destruct (text_eqb k n_time_multicolumn) eqn:E1.
  - pose proof (bt_tm _ _ _ _ _ _ _ _ _ _ _ _ _ B) as T. rewrite H in T.
    destruct (truthy (dgetN n_time_multicolumn d0)) eqn:Tr.
    + apply (zero_d6 n_time_multicolumn); [tneq|].
      rewrite (bt_d6 _ _ _ _ _ _ _ _ _ _ _ _ _ B). rewrite T. apply (defaulted_other n_time_multicolumn); tneq.
    + exfalso. unfold guess_time_multicolumn in T. inv_bind T.
      destruct a; try discriminate. destruct (negb _); try discriminate.
      inv_bind T. inv_bind T. discriminate.
  - destruct (text_eqb k n_alignment) eqn:E2; [|apply (zero_d6 k); auto].
    pose proof (bt_al _ _ _ _ _ _ _ _ _ _ _ _ _ B) as T. rewrite H in T.
    destruct (truthy (dgetN n_alignment d0)) eqn:Tr.
    + apply (zero_d6 n_alignment); [tneq|].
      rewrite (bt_d6 _ _ _ _ _ _ _ _ _ _ _ _ _ B). rewrite T. apply (defaulted_other n_alignment); tneq.
    + exfalso. cbn [guess_alignment] in T. destruct (Nat.leb _ _); [discriminate|].
      inv_bind T. inv_bind T. destruct a0; [|discriminate]. inv_bind T.
      destruct (_ && _); [discriminate|]. destruct (_ && _); discriminate.
Qed.
Lemma zero_d9 : nolists d9.
Proof.
  intros k l N H. destruct (built_d9 _ _ _ _ _ _ _ _ _ _ _ _ _ B ND) as [D K].
  destruct (in_dec text_dec k (map fst d8)) as [I|I].
  - destruct (D k I) as [vv [V1 [V2 _]]]. rewrite H in V2. unfold apply_to_all in V2.
    assert (G : forall v, (forall l, v = VList l -> l = []) -> apply_to_all_gen v (Some O) vv = VList l -> l = []).
    { intros v Hv G. unfold apply_to_all_gen in G. destruct (_ && _ && _); [discriminate|]. cbn [ns_pos] in G.
      destruct v as [| | | | | |[|x [|y l']]| |]; try discriminate; [inversion G; auto| |]; specialize (Hv _ eq_refl); discriminate. }
    destruct (text_eqb k n_time_header).
    + unfold apply_to_all_time_header in V2. inv_bind V2. destruct a.
      * destruct (dgetN k d8) eqn:E8; try discriminate. destruct (Nat.eqb _ _) eqn:L; [|discriminate].
        inversion V2; subst. apply Nat.eqb_eq in L. destruct l; auto. discriminate.
      * inv_bind V2. inv_bind V2. destruct (_ || _).
        -- assert (E' : apply_to_all_gen (dgetN k d8) (Some O) vv = VList l) by congruence.
           eapply G; [|exact E']. intros l'. apply zero_d8; auto.
        -- inversion V2; auto.
    + rewrite (proj2 (text_eqb_neq _ _) N) in V2.
      assert (E' : apply_to_all_gen (dgetN k d8) (Some O) vv = VList l) by congruence.
      eapply G; [|exact E']. intros l'. apply zero_d8; auto.
  - unfold dgetN in H. destruct (dget k d9) eqn:E; [|discriminate]. exfalso. apply I, K. eapply dget_has; eauto.
Qed.
Lemma zero_b : nolists b.
Proof.
  pose proof (bt_optional _ _ _ _ _ _ _ _ _ _ _ _ _ B) as H. unfold apply_optional in H.
  revert H. apply foldM_inv with (P := nolists); [|exact zero_d9].
  intros s k s' Hk Hs H. destruct (truthy (dgetN k s)) eqn:E; cbn [negb] in H; [inversion H; subst; auto|].
  assert (V : exists def vv, dgetE k DEFAULT_VALUES = Ok def /\ valid_values k = Ok vv /\
             apply_to_all k def (Some O) s vv = Ok VNone).
  { cbn in Hk. repeat (destruct Hk as [<-|Hk]; [do 2 eexists; repeat split; reflexivity|]). contradiction. }
  destruct V as [def [vv [V1 [V2 V3]]]]. rewrite V1 in H. cbn [bind] in H. rewrite V2 in H. cbn [bind] in H.
  rewrite V3 in H. cbn [bind] in H. inversion H; subst. intros k' l N. rewrite dgetN_dset.
  destruct (text_eqb k k'); [discriminate|]. apply Hs; auto.
Qed.
Lemma zero_count n : series_count (params_of b) n -> n = O.
Proof.
  intros [_ [k [l [K [N E]]]]]. apply params_of_In in K. destruct K as [_ K].
  symmetry in K. apply zero_b in K; auto. subst. auto.
Qed.
End zero.

(** a built object with a series [i] *)
Lemma built_series json d p n i : NoDup (map fst d) -> d <> [] -> make_params json (PDict d) = Ok p ->
  series_count p n -> (i < n)%nat ->
  exists b m f th tmv alv ctxv comps hs d6 d8 d9, n = S m /\ p = params_of b /\ build d = Ok b /\
    built d b f th tmv alv ctxv comps hs (S m) d6 d8 d9.
Proof.
  intros ND NE H C I. destruct (make_inv _ _ _ NE H) as [b [Hb ->]].
  destruct (build_inv _ _ Hb) as [f [th [tmv [alv [ctxv [comps [hs [ns [d6 [d8 [d9 B]]]]]]]]]]].
  destruct ns as [|m].
  - apply (zero_count B ND) in C. lia.
  - exists b, m, f, th, tmv, alv, ctxv, comps, hs, d6, d8, d9.
    split; [|auto]. eapply series_count_unique; [exact C|]. apply count_num. apply (b_num_series B ND).
Qed.

Lemma nth_repeat_some {A} (x : A) n i : (i < n)%nat -> nth_error (repeat x n) i = Some x.
Proof. revert i. induction n as [|n IH]; intros i H; [lia|]. destruct i; cbn; auto. apply IH. lia. Qed.
Lemma bcast_scalar m v : ~ is_list_value v -> bcast m v = VList (repeat v m).
Proof. intros H. destruct v; auto. exfalso. apply H. eexists; eauto. Qed.
Lemma bcast_full m l : List.length l = S m -> bcast (S m) (VList l) = VList l.
Proof. intros H. destruct l as [|x [|y l]]; auto. cbn in H. inversion H; subst. auto. Qed.

(** parameters whose values are kept as the user gives them *)
Definition plain_names : list text :=
  [pname "data_starts"; pname "data_ends"; pname "continuity"; pname "blank_rows"; pname "missings";
   pname "time_composed"; pname "time_alignment"; pname "series_names"].

Section plain.
Context {d0 b : dict} {f th tmv alv ctxv : pyval} {comps hs : list pyval} {n : nat} {d6 d8 d9 : dict}.
Hypothesis B : built d0 b f th tmv alv ctxv comps hs (S n) d6 d8 d9.
Hypothesis ND : NoDup (map fst d0).
Lemma plain_facts k : In k plain_names -> k <> n_time_header /\ k <> n_missing_value /\ In k PARAM_NAMES /\
  (exists vv, valid_values k = Ok vv) /\
  (forall v, dgetN k d0 = v -> v <> VNone -> dgetN k d8 = v).
Proof.
  intros H.
  assert (G : forall v, dgetN k d0 = v -> v <> VNone -> dgetN k d8 = v).
  { intros v E N. rewrite (bt_d8 _ _ _ _ _ _ _ _ _ _ _ _ _ B), (bt_d6 _ _ _ _ _ _ _ _ _ _ _ _ _ B), E.
    assert (D : defaulted k v = v) by (unfold defaulted; destruct v; auto; congruence). rewrite D.
    cbn in H. repeat (destruct H as [<-|H]; [reflexivity|]). contradiction. }
  split; [|split; [|split; [|split]]]; auto; clear G; cbn in H;
  repeat (destruct H as [<-|H];
    [first [discriminate | (eexists; reflexivity)
       | (apply text_in_In; reflexivity)]|]); try contradiction.
Qed.
Lemma plain_value k v : In k plain_names -> dget k d0 = Some v -> v <> VNone -> v <> VList [] ->
  dgetN k (params_of b) = bcast (S n) v.
Proof.
  intros H E N N'. destruct (plain_facts k H) as [A1 [A2 [A3 [[vv V] G]]]].
  rewrite params_of_get by auto. specialize (G v (dgetN_some _ _ _ E) N).
  rewrite (b_gen B ND k vv); rewrite ?G; auto. apply (b_in8 B). eapply dget_has; eauto.
Qed.
End plain.

(** ** C09 *)
Lemma c09_once json d p k v n i : NoDup (map fst d) -> make_params json (PDict d) = Ok p ->
  series_count p n -> (i < n)%nat -> In k plain_names -> given_once k d v -> v <> VNone ->
  series_value p k i v.
Proof.
  intros ND H C I K [NL G] NN.
  assert (NE : d <> []) by (destruct G as [G|G]; eapply dget_ne; eauto).
  destruct (built_series _ _ _ _ _ ND NE H C I) as (b & m & f & th & tmv & alv & ctxv & comps & hs & d6 & d8 & d9 & -> & -> & _ & B).
  exists (repeat v (S m)). split; [|apply nth_repeat_some; auto].
  destruct G as [G|G].
  - rewrite (plain_value B ND k v); auto; [apply bcast_scalar; auto|]. intros ->. apply NL. eexists; eauto.
  - rewrite (plain_value B ND k (VList [v])); auto; discriminate.
Qed.
Lemma c09_list json d p k l n i : NoDup (map fst d) -> make_params json (PDict d) = Ok p ->
  series_count p n -> (i < n)%nat -> In k plain_names -> dget k d = Some (VList l) -> List.length l = n ->
  exists v, nth_error l i = Some v /\ series_value p k i v.
Proof.
  intros ND H C I K G L.
  destruct (built_series _ _ _ _ _ ND (dget_ne _ _ _ G) H C I) as (b & m & f & th & tmv & alv & ctxv & comps & hs & d6 & d8 & d9 & -> & -> & _ & B).
  destruct (nth_error l i) as [v|] eqn:E.
  - exists v. split; auto. exists l. split; auto.
    rewrite (plain_value B ND k (VList l)); auto; [apply bcast_full; auto|discriminate|].
    intros E'. inversion E'; subst. discriminate.
  - apply nth_error_None in E. lia.
Qed.
Lemma c09_markers json d p v n i : NoDup (map fst d) -> make_params json (PDict d) = Ok p ->
  series_count p n -> (i < n)%nat -> dget (pname "missing_value") d = Some v -> v <> VNone ->
  (~ is_list_value v -> series_value p (pname "missing_value") i (VList [v])) /\
  (forall l, v = VList l -> ~ (exists x l', l = VList x :: l') -> series_value p (pname "missing_value") i v) /\
  (forall l x l', v = VList l -> l = VList x :: l' -> List.length l = n /\
     exists y, nth_error l i = Some y /\ series_value p (pname "missing_value") i y).
Proof.
  intros ND H C I G NN.
  destruct (built_series _ _ _ _ _ ND (dget_ne _ _ _ G) H C I) as (b & m & f & th & tmv & alv & ctxv & comps & hs & d6 & d8 & d9 & -> & -> & _ & B).
  assert (E6 : dgetN n_missing_value d6 = v).
  { rewrite (bt_d6 _ _ _ _ _ _ _ _ _ _ _ _ _ B).
    change (defaulted n_missing_value (dgetN (pname "missing_value") d) = v).
    rewrite (dgetN_some _ _ _ G). unfold defaulted. destruct v; auto. congruence. }
  pose proof (b_missing_value B ND) as M. rewrite E6 in M.
  unfold series_value.
  change (pname "missing_value") with n_missing_value. rewrite (params_of_get b n_missing_value) by (cbn; tauto).
  rewrite M. split; [|split].
  - intros NL. exists (repeat (VList [v]) (S m)). split; [|apply nth_repeat_some; auto].
    destruct v; auto. exfalso. apply NL. eexists; eauto.
  - intros l -> NX. exists (repeat (VList l) (S m)). split; [|apply nth_repeat_some; auto].
    destruct l as [|[] l]; auto. exfalso. apply NX; eauto.
  - intros l x l' -> ->.
    assert (L : List.length (VList x :: l') = S m).
    { destruct (built_d9 _ _ _ _ _ _ _ _ _ _ _ _ _ B ND) as [D _].
      assert (I8 : In n_missing_value (map fst d8)).
      { apply (b_in8 B). eapply dget_has; eauto. }
      destruct (D _ I8) as [vv [V1 [V2 _]]].
      assert (E8 : dgetN n_missing_value d8 = VList (VList x :: l')).
      { rewrite (bt_d8 _ _ _ _ _ _ _ _ _ _ _ _ _ B). exact E6. }
      rewrite E8 in V2.
      change (apply_to_all n_missing_value (VList (VList x :: l')) (Some (S m)) d8 vv)
       with (apply_to_all_missing_value (VList (VList x :: l')) (Some (S m))) in V2.
      unfold apply_to_all_missing_value in V2. inv_bind V2. apply assert_ok' in E. apply Nat.eqb_eq in E. auto. }
    split; auto. destruct (nth_error (VList x :: l') i) as [y|] eqn:E.
    + exists y. split; auto. eauto.
    + apply nth_error_None in E. lia.
Qed.

(** one time header cell *)
Lemma c09_time_header json d p t r c n i : NoDup (map fst d) -> make_params json (PDict d) = Ok p ->
  series_count p n -> (i < n)%nat ->
  given_once (pname "time_header_coord") d (VStr t) -> cell_named t r c ->
  (dgetN (pname "time_multicolumn") d = VNone \/ dgetN (pname "time_multicolumn") d = VBool false) ->
  series_value p (pname "time_header_coord") i (VStr (upper t)).
Proof.
  intros ND H C I [_ G] T TM.
  assert (NE : d <> []) by (destruct G as [G|G]; eapply dget_ne; eauto).
  destruct (built_series _ _ _ _ _ ND NE H C I) as (b & m & f & th & tmv & alv & ctxv & comps & hs & d6 & d8 & d9 & -> & -> & _ & B).
  pose proof (proj1 (cell_named_iff _ _ _) T) as Tp.
  change (pname "time_header_coord") with n_time_header in *.
  assert (TH : th = VList [VStr (upper t)]).
  { pose proof (bt_time _ _ _ _ _ _ _ _ _ _ _ _ _ B) as U.
    assert (U1 : unpack_header_ranges (VStr t) = Ok (VList [VStr (upper t)])).
    { apply (unpack_header_text t [upper t] [(r, c)]); [constructor; auto|]. eapply unpack_single; eauto. }
    assert (U2 : unpack_header_ranges (VList [VStr t]) = Ok (VList [VStr (upper t)])).
    { apply (unpack_header_list [t] [[upper t]]); [discriminate|]. constructor; [|constructor]. eapply unpack_single; eauto. }
    destruct G as [G|G]; rewrite (dgetN_some _ _ _ G) in U; congruence. }
  subst th.
  assert (TMV : tmv = VBool false).
  { pose proof (bt_tm _ _ _ _ _ _ _ _ _ _ _ _ _ B) as U.
    replace (truthy (dgetN n_time_multicolumn d)) with false in U.
    2:{ change n_time_multicolumn with (pname "time_multicolumn"). destruct TM as [-> | ->]; auto. }
    unfold guess_time_multicolumn in U. unfold is_repeated in U. cbn [forallb py_eq andb] in U.
    rewrite text_eqb_refl in U. cbn in U. congruence. }
  subst tmv.
  assert (I8 : In n_time_header (map fst d8)).
  { apply (b_in8 B). destruct G as [G|G]; eapply dget_has; eauto. }
  assert (K8 : In n_time_multicolumn (map fst d8)).
  { apply (bt_keys8 _ _ _ _ _ _ _ _ _ _ _ _ _ B). right. left. split; auto.
    change n_time_multicolumn with (pname "time_multicolumn"). destruct TM as [-> | ->]; auto. }
  destruct (built_d9 _ _ _ _ _ _ _ _ _ _ _ _ _ B ND) as [D _].
  destruct (D _ I8) as [vv [V1 [V2 _]]].
  assert (E8 : dgetN n_time_header d8 = VList [VStr (upper t)]).
  { rewrite (bt_d8 _ _ _ _ _ _ _ _ _ _ _ _ _ B), (bt_d6 _ _ _ _ _ _ _ _ _ _ _ _ _ B). reflexivity. }
  assert (T8 : dgetE n_time_multicolumn d8 = Ok (VBool false)).
  { apply dgetE_ok. rewrite (dgetN_in _ _ K8). f_equal. rewrite (bt_d8 _ _ _ _ _ _ _ _ _ _ _ _ _ B). reflexivity. }
  rewrite E8 in V2.
  change (apply_to_all n_time_header (VList [VStr (upper t)]) (Some (S m)) d8 vv)
    with (apply_to_all_time_header (VList [VStr (upper t)]) (Some (S m)) d8 vv) in V2.
  unfold apply_to_all_time_header in V2. cbn [py_index nth_error bind is_list] in V2. rewrite T8 in V2.
  cbn [bind truthy negb orb] in V2.
  exists (repeat (VStr (upper t)) (S m)). split; [|apply nth_repeat_some; auto].
  rewrite params_of_get by (cbn; tauto).
  rewrite (built_value _ _ _ _ _ _ _ _ _ _ _ _ _ B).
  change (text_in n_time_header OPTIONAL) with false. cbn beta iota.
  inversion V2 as [V3]. auto.
Qed.

(** the parameters handed to the scraping of series [i] *)
Lemma get_series_gen p i : forall ks acc sp,
  foldM (fun acc k => let v := dgetN k p in
    if is_none v then Ok acc else do x <- py_index v i; Ok (acc ++ [(k, x)])) ks acc = Ok sp ->
  forall k v, In k ks -> NoDup ks -> ~ In k (map fst acc) -> series_value p k i v -> dget k sp = Some v.
Proof.
  intros ks. induction ks as [|k0 ks IH]; intros acc sp H k v K ND NA [l [S1 S2]]; [destruct K|].
  cbn [foldM] in H. inv_bind H. inversion ND; subst. destruct K as [->|K].
  - cbv zeta in E. rewrite S1 in E. cbn [is_none py_index] in E. rewrite S2 in E. cbn [bind] in E. inversion E; subst a.
    clear IH E. assert (G : forall ks acc sp, foldM (fun acc k => let v := dgetN k p in
      if is_none v then Ok acc else do x <- py_index v i; Ok (acc ++ [(k, x)])) ks acc = Ok sp ->
      forall k v, dget k acc = Some v -> dget k sp = Some v).
    { clear. induction ks as [|k0 ks IH]; intros acc sp H k v G; cbn [foldM] in H; [congruence|].
      inv_bind H. apply (IH _ _ H). cbv zeta in E. destruct (is_none (dgetN k0 p)); [inversion E; subst; auto|].
      inv_bind E. inversion E; subst. clear -G. induction acc as [|[k' v'] acc IH]; [discriminate|].
      cbn in *. destruct (text_eqb k k'); auto. }
    apply (G _ _ _ H). clear -NA. induction acc as [|[k' v'] acc IH]; cbn in *.
    + rewrite text_eqb_refl. auto.
    + destruct (text_eqb k k') eqn:E; [apply text_eqb_eq in E; subst; tauto|]. auto.
  - apply (IH _ _ H k v K); auto; [|exists l; auto].
    cbv zeta in E. destruct (is_none (dgetN k0 p)); [inversion E; subst; auto|].
    inv_bind E. inversion E; subst. rewrite map_app, in_app_iff. cbn. intros [A|[A|[]]]; [tauto|]. congruence.
Qed.
Lemma names_nodup : NoDup PARAM_NAMES.
Proof.
  assert (G : (fix nd (l : list text) := match l with [] => true | x :: l' => negb (text_in x l') && nd l' end) PARAM_NAMES = true) by reflexivity.
  revert G. generalize PARAM_NAMES. induction l as [|x l IH]; intros G; constructor.
  - apply andb_true_iff in G. destruct G as [G _]. intros H. apply text_in_In in H. rewrite H in G. discriminate.
  - apply IH. apply andb_true_iff in G. tauto.
Qed.
Lemma get_series_value p i k v sp : In k PARAM_NAMES -> series_value p k i v ->
  get_series_params p i = Ok sp -> dget k sp = Some v.
Proof. intros K S H. eapply (get_series_gen p i PARAM_NAMES []); eauto. apply names_nodup. Qed.

(** ** C08 *)
Lemma c08_value json d p t n i : NoDup (map fst d) -> make_params json (PDict d) = Ok p ->
  series_count p n -> (i < n)%nat -> given_once (pname "frequency") d (VStr t) ->
  series_value p (pname "frequency") i (VStr (freq_reading t)).
Proof.
  intros ND H C I [_ G].
  assert (NE : d <> []) by (destruct G as [G|G]; eapply dget_ne; eauto).
  destruct (built_series _ _ _ _ _ ND NE H C I) as (b & m & f & th & tmv & alv & ctxv & comps & hs & d6 & d8 & d9 & -> & -> & _ & B).
  assert (F : dgetN n_frequency d8 = f).
  { rewrite (bt_d8 _ _ _ _ _ _ _ _ _ _ _ _ _ B), (bt_d6 _ _ _ _ _ _ _ _ _ _ _ _ _ B). reflexivity. }
  assert (I8 : In n_frequency (map fst d8)).
  { apply (b_in8 B). destruct G as [G|G]; eapply dget_has; eauto. }
  exists (repeat (VStr (freq_reading t)) (S m)). split; [|apply nth_repeat_some; auto].
  change (pname "frequency") with n_frequency. rewrite params_of_get by (cbn; tauto).
  destruct (bt_freq _ _ _ _ _ _ _ _ _ _ _ _ _ B) as [f0 [F1 F2]].
  assert (FV : f = VStr (freq_reading t) \/ f = VList [VStr (freq_reading t)]).
  { change n_frequency with (pname "frequency") in F1.
    destruct G as [G|G]; rewrite G in F1; inversion F1; subst f0; cbn in F2; inversion F2; auto. }
  erewrite (b_gen B ND n_frequency); [|exact I8|tneq|tneq|reflexivity| |].
  - rewrite F. destruct FV as [-> | ->]; reflexivity.
  - left. rewrite F. destruct FV as [-> | ->]; discriminate.
  - rewrite F. destruct FV as [-> | ->]; discriminate.
Qed.
Lemma c08_values json d p ts n i : NoDup (map fst d) -> make_params json (PDict d) = Ok p ->
  series_count p n -> (i < n)%nat -> dget (pname "frequency") d = Some (VList (map VStr ts)) -> List.length ts = n ->
  exists t, nth_error ts i = Some t /\ series_value p (pname "frequency") i (VStr (freq_reading t)).
Proof.
  intros ND H C I G L.
  destruct (built_series _ _ _ _ _ ND (dget_ne _ _ _ G) H C I) as (b & m & f & th & tmv & alv & ctxv & comps & hs & d6 & d8 & d9 & -> & -> & _ & B).
  destruct (nth_error ts i) as [t|] eqn:E; [|apply nth_error_None in E; lia].
  exists t. split; auto.
  assert (I8 : In n_frequency (map fst d8)) by (apply (b_in8 B); eapply dget_has; eauto).
  destruct (bt_freq _ _ _ _ _ _ _ _ _ _ _ _ _ B) as [f0 [F1 F2]].
  change n_frequency with (pname "frequency") in F1. rewrite G in F1. inversion F1; subst f0.
  assert (FV : f = VList (map (fun t => VStr (freq_reading t)) ts)).
  { unfold curate_frequency in F2. inv_bind F2. inversion F2; subst. f_equal.
    clear -E0. revert a E0. induction ts as [|t ts IH]; cbn; intros a E0; [congruence|].
    inv_bind E0. inversion E0; subst. f_equal; auto. }
  assert (F : dgetN n_frequency d8 = f).
  { rewrite (bt_d8 _ _ _ _ _ _ _ _ _ _ _ _ _ B), (bt_d6 _ _ _ _ _ _ _ _ _ _ _ _ _ B). reflexivity. }
  exists (map (fun t => VStr (freq_reading t)) ts). split.
  - change (pname "frequency") with n_frequency. rewrite params_of_get by (cbn; tauto).
    erewrite (b_gen B ND n_frequency); [|exact I8|tneq|tneq|reflexivity| |]; rewrite F, FV.
    + apply bcast_full. rewrite map_length. auto.
    + left; discriminate.
    + destruct ts; discriminate.
  - rewrite nth_error_map, E. auto.
Qed.
