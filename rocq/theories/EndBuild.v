(** The parameters a plain request gives and the first attempt made with them (C38). *)
From Coq Require Import ZifyBool ZifyNat.
From Verif Require Import Base BaseFacts Coord CoordFacts XlMethods Params ParseTime TimeIndex Attempts DataFrame Scrape
  SpecCoord SpecCoordFacts SpecParams HeaderFacts ComposedFacts ScopeFacts BuildFacts BuildInv ParamsFacts ParamsProofs ParamsProofs2 SpecAttempts AttemptsFacts AttemptsProofs
  SpecTime SpecData SpecFrames SpecScrape SpecEnd BuildAccept EndFacts.
Local Open Scope Z_scope.

(** parameter [k] has one value for each of the [n] series, given by [g] *)
Definition fixed (p : dict) (n : nat) (k : text) (g : nat -> pyval) : Prop :=
  exists l, dgetN k p = VList l /\ List.length l = n /\ forall i, (i < n)%nat -> nth_error l i = Some (g i).
(** or is to be searched for, and [g] is the default *)
Definition ready (p : dict) (n : nat) (k : text) (g : nat -> pyval) : Prop :=
  fixed p n k g \/ dgetN k p = VNone /\ exists vv v, In (k, vv, v) searchable /\ forall i, g i = v.

Lemma fixed_value p n k g i : fixed p n k g -> (i < n)%nat -> series_value p k i (g i).
Proof. intros (l & E & L & G) I. exists l. auto. Qed.
Lemma fixed_intro p n k g : parameters_object p -> series_count p n -> (0 < n)%nat -> k <> pname "missing_value" ->
  (forall i, (i < n)%nat -> series_value p k i (g i)) -> fixed p n k g.
Proof.
  intros PO C N K G. destruct (G (n - 1)%nat) as (l & E & V); [lia|]. exists l. split; auto. split.
  - assert (n - 1 < List.length l)%nat by (apply nth_error_Some; congruence).
    assert (List.length l <= n)%nat; [|lia]. destruct C as [C _]. apply (C k); auto. apply dget_In.
    unfold dgetN in E. destruct (dget k p); [congruence|discriminate].
  - intros i I. destruct (G i I) as (l' & E' & V'). congruence.
Qed.

(** ** From the object to the first attempt *)
Section First.
Variables (p : dict) (n : nat) (g : text -> nat -> pyval).
Hypothesis PO : parameters_object p.
Hypothesis C : series_count p n.
Hypothesis N : (0 < n)%nat.
Hypothesis R : forall k, In k PARAM_NAMES -> ready p n k (g k).

Lemma unset_none k : dgetN k p = VNone -> In k PARAM_NAMES -> ~ In k optional_names -> unset p k.
Proof.
  intros E K O. split; auto. unfold dgetN in E. destruct (dget k p) eqn:D; [congruence|].
  apply dget_None in D. exfalso. apply D. rewrite PO. exact K.
Qed.
Lemma searchable_not_optional k vv v : In (k, vv, v) searchable -> In k PARAM_NAMES /\ ~ In k optional_names /\ k <> pname "missing_value".
Proof.
  intros S. cbn in S. repeat (destruct S as [S|S]; [inversion S; subst; split; [apply text_in_In; reflexivity|split; [|discriminate]];
    intros I; apply text_in_In in I; discriminate|]). destruct S.
Qed.
Lemma ready_unset k : unset p k -> dgetN k p = VNone /\ exists vv v, In (k, vv, v) searchable /\ forall i, g k i = v.
Proof.
  intros [D O]. assert (K : In k PARAM_NAMES) by (apply dget_has in D; rewrite PO in D; exact D).
  destruct (R k K) as [(l & E & _)|X]; auto. unfold dgetN in E. rewrite D in E. discriminate.
Qed.
Lemma first_attempt : exists l a, discover_parameters p = Ok l /\ hd_error l = Some a /\ forall k, In k PARAM_NAMES -> fixed a n k (g k).
Proof.
  set (missing := map (fun x : text * list pyval * pyval => fst x) (filter (fun x => is_none (dgetN (fst (fst x)) p)) searchable)).
  assert (SN : NoDup (map (fun x : text * list pyval * pyval => fst (fst x)) searchable)).
  { cbn. repeat constructor; cbn; intuition discriminate. }
  assert (IN : forall k vv, In (k, vv) missing <-> exists v, In (k, vv, v) searchable /\ dgetN k p = VNone).
  { intros k vv. unfold missing. rewrite in_map_iff. split.
    - intros [[[k' vv'] v] [E I]]. cbn [fst] in E. inversion E; subst. apply filter_In in I as [I J]. cbn [fst] in J. exists v. split; auto. apply is_none_eq. auto.
    - intros [v [I J]]. exists (k, vv, v). split; auto. apply filter_In. split; auto. cbn [fst]. rewrite J. reflexivity. }
  assert (TS : to_search p missing).
  { split; [|split].
    - unfold missing. rewrite map_map. revert SN. generalize searchable as l. induction l as [|[[k vv] v] l IH]; intros ND; [constructor|].
      cbn [map fst] in ND. inversion ND as [|? ? NI ND']; subst. cbn [filter fst]. destruct (is_none _); [|apply IH; auto].
      cbn [map fst]. constructor; [|apply IH; auto]. intros I. apply NI. apply in_map_iff in I as [x [E I]]. apply filter_In in I as [I _].
      apply in_map_iff. exists x. auto.
    - intros k. split.
      + intros I. apply in_map_iff in I as [[k' vv] [E I]]. cbn in E. subst k'. apply IN in I as [v [I J]].
        destruct (searchable_not_optional _ _ _ I) as (K1 & K2 & _). apply unset_none; auto.
      + intros U. destruct (ready_unset k U) as [E [vv [v [S _]]]]. apply in_map_iff. exists (k, vv). split; auto. apply IN. eauto.
    - intros k vv I. apply IN in I as [v [I _]]. eauto. }
  assert (SE : says_enough p n).
  { intros k v I O NV. assert (K : In k PARAM_NAMES) by (apply In_keys in I; rewrite PO in I; exact I).
    assert (D : dgetN k p = v) by (apply dgetN_some, dget_NoDup; auto; apply object_NoDup; auto).
    destruct (R k K) as [(l & E & L & _)|[E _]]; [|congruence]. exists l. split; [congruence|]. destruct (text_eqb k _); lia. }
  destruct (c16_total p missing n PO C N TS SE) as [l DP].
  assert (MV : ~ unset p (pname "missing_value")).
  { intros U. destruct (ready_unset _ U) as [_ [vv [v [S _]]]]. destruct (searchable_not_optional _ _ _ S) as (_ & _ & X). auto. }
  destruct (c17 p l n PO C N MV DP) as (a & HA & DF).
  assert (IA : In a l) by (destruct l; inversion HA; left; auto).
  destruct (c18 p l a n PO C N MV DP IA) as (KP & _ & CA).
  assert (OA : forall k, k <> pname "missing_value" -> (forall i, (i < n)%nat -> series_value a k i (g k i)) -> fixed a n k (g k)).
  { intros k K G. destruct (G (n - 1)%nat) as (l' & E & V); [lia|]. exists l'. split; auto. split.
    - assert (n - 1 < List.length l')%nat by (apply nth_error_Some; congruence).
      assert (List.length l' <= n)%nat; [|lia]. destruct CA as [CA _]. apply (CA k); auto. apply dget_In.
      unfold dgetN in E. destruct (dget k a); [congruence|discriminate].
    - intros i I. destruct (G i I) as (l'' & E' & V'). congruence. }
  exists l, a. split; auto. split; auto. intros k K. destruct (R k K) as [F|[E [vv [v [S G]]]]].
  - destruct F as (l' & E & L & G). exists l'. split; auto. unfold dgetN in *. rewrite KP; auto. intros [U _]. rewrite U in E. discriminate.
  - destruct (searchable_not_optional _ _ _ S) as (K1 & K2 & K3). apply OA; auto. intros i I. rewrite G. eapply DF; eauto. apply unset_none; auto.
Qed.
End First.

(** ** From the request to the object *)
Lemma object_made json d p : d <> [] -> make_params json (PDict d) = Ok p -> parameters_object p.
Proof.
  intros NE H. destruct (make_inv _ _ _ NE H) as [b [_ ->]]. unfold parameters_object, params_of. rewrite map_map. cbn [fst]. rewrite map_id. reflexivity.
Qed.

Section Request.
Variables (json : text -> res dict) (d : dict) (cells : list (Z * Z)) (time : Z * Z) (z m : Z) (f : string) (se : settings).
Hypothesis RQ : request d cells time z m f se.
Hypothesis AFTER : forall rc, hd_error cells = Some rc -> depth_of (se_align se) rc < z.
Hypothesis NAMES : ~ given (pname "series_names") d \/
  exists names, dget (pname "series_names") d = Some (VList (map VStr names)) /\ List.length names = List.length cells.
Hypothesis FREQ : Forall (fun c => In c (pname "ASQMWD")) (pname f).

Lemma not_given_none k v : ~ given k d -> dget k d = Some v -> v = VNone.
Proof. intros G E. destruct v; auto; exfalso; apply G; eexists; split; try exact E; discriminate. Qed.

Lemma once_acceptable k v u : given_once k d v -> dget k d = Some u -> acceptable k v -> (forall x, each (eq v) x -> acceptable k x) -> acceptable k u.
Proof. intros [NL [E|E]] D A B; rewrite E in D; inversion D; subst; auto. apply B. cbn. constructor; auto. Qed.

Lemma none_or k : (given k d -> forall v, dget k d = Some v -> acceptable k v) -> forall v, dget k d = Some v -> acceptable k v.
Proof.
  intros G v D. destruct v; try (apply G; [eexists; split; [exact D|discriminate]|exact D]). constructor.
Qed.
Lemma value_texts v cs : value_cells v cs -> each a_text v.
Proof. intros [t c _|es css _ _]; cbn; [eexists; reflexivity|]. apply Forall_forall. intros x X. apply in_map_iff in X as [t [<- _]]. eexists; reflexivity. Qed.
Lemma frequency_ok u : freq_reading u = pname f -> frequency_text (VStr u).
Proof. intros E. exists u. split; auto. rewrite E. exact FREQ. Qed.

Lemma request_acceptable k v : In k parameter_names -> dget k d = Some v -> acceptable k v.
Proof.
  intros K. revert v. apply none_or. intros GV v D. destruct RQ as [r1 r2 [hv [r3 [r3' _]]] [t [r4 _]] r5 [u [r6 r6']] r7 r8 r9 r10 r11 r12 r13 r14 r15 r16 r17].
  assert (ONCE : forall (P : pyval -> Prop) x, given_once k d x -> P x -> each P v).
  { intros P x [NL [E|E]] X; rewrite E in D; inversion D; subst; cbn; auto. destruct v; auto. exfalso. apply NL. eexists; eauto. }
  assert (FLAG : forall b, In k [pname "continuity"; pname "blank_rows"; pname "missings"; pname "time_multicolumn"; pname "time_composed"] ->
     says d k (VBool b) -> acceptable k v).
  { intros b K' [G|[G _]]; [|contradiction]. apply acc_flag; auto. apply (ONCE _ _ G). destruct b; [left|right]; reflexivity. }
  unfold parameter_names in K. cbn [map] in K.
  repeat (destruct K as [E|K]; [rewrite <- E in *; clear E|]).
  - apply acc_alignment. destruct r8 as [G|G|G _|G _ _]; try contradiction; apply (ONCE _ _ G); auto.
  - apply acc_names. destruct NAMES as [G|[names [E _]]]; [contradiction|]. rewrite E in D. inversion D; subst. cbn. apply Forall_forall.
    intros x X. apply in_map_iff in X as [y [<- _]]. left. eexists; reflexivity.
  - rewrite r3 in D. inversion D; subst. apply acc_headers. eapply value_texts; eauto.
  - contradiction.
  - contradiction.
  - apply acc_data_starts. apply (ONCE _ _ r5). left. eexists; reflexivity.
  - destruct r7 as [G|G]; [contradiction|]. apply acc_data_ends. apply (ONCE _ _ G). left. left. eexists; reflexivity.
  - refine (FLAG _ _ r9); repeat first [left; reflexivity|right].
  - refine (FLAG _ _ r10); repeat first [left; reflexivity|right].
  - refine (FLAG _ _ r11); repeat first [left; reflexivity|right].
  - apply acc_missing_value.
  - destruct r14 as [G|[G _]]; [|contradiction]. apply acc_time_alignment. apply (ONCE _ _ G). right. left. reflexivity.
  - destruct r15 as [G|G]; [contradiction|]. rewrite G in D. inversion D; subst. apply acc_flag; [repeat first [left; reflexivity|right]|]. right. reflexivity.
  - apply acc_time_header. apply (ONCE _ _ r4). left. eexists; reflexivity.
  - refine (FLAG _ _ r13); repeat first [left; reflexivity|right].
  - apply acc_frequency. apply (ONCE _ _ r6). apply frequency_ok. auto.
  - destruct K.
Qed.

Lemma request_built : exists p, make_params json (PDict d) = Ok p.
Proof.
  pose proof request_acceptable as RA.
  destruct RQ as [r1 r2 [hv [r3 [r3' r3'']]] [t [r4 r4']] r5 [u [r6 r6']] r7 r8 r9 r10 r11 r12 r13 r14 r15 r16 r17].
  apply (c55 json d cells z).
  - constructor; auto.
    + intros k v I. pose proof (r2 k (In_keys _ _ _ I)) as K. split; auto. apply RA; auto. apply dget_NoDup; auto.
    + exists hv. split; auto. constructor; auto.
    + destruct r4 as [_ [E|E]].
      * exists (VStr t), [time]. split; auto. split; [|discriminate]. constructor. rewrite (surjective_pairing time). constructor. auto.
      * exists (VList (map VStr [t])), (List.concat [[time]]). split; auto. split; [|discriminate]. constructor; [discriminate|].
        constructor; [|constructor]. rewrite (surjective_pairing time). constructor. auto.
    + destruct r5 as [_ [E|E]]; [exists (VInt z), (VInt z)|exists (VList [VInt z]), (VInt z)]; split; auto; split; eauto; constructor.
    + destruct r6 as [_ [E|E]]; eexists; split; try exact E; discriminate.
    + intros mm l E. destruct r12 as [v G _ NL|l' G NX|G].
      * rewrite E in G. inversion G; subst. apply NL. eexists; eauto.
      * rewrite E in G. inversion G; subst. eapply NX; eauto.
      * apply G. eexists. split; [exact E|discriminate].
    + left. auto.
  - destruct cells as [|[r0 c0] others]; [congruence|]. specialize (AFTER _ eq_refl). cbn [data_after_header].
    assert (NB : in_one_row ((r0, c0) :: others) -> others <> [] -> NoDup (map fst ((r0, c0) :: others)) -> False).
    { intros [row R0] O D. destruct others as [|q others]; [congruence|]. cbn [map] in D. inversion D as [|? ? NI _]; subst. apply NI. left.
      transitivity row; [apply R0; cbn; auto|symmetry; apply (R0 (r0, c0)); cbn; auto]. }
    destruct r8 as [G|G|G NC|G L CR].
    + split; auto. intros [E|(E & _)]; destruct G as [_ [G|G]]; rewrite G in E; discriminate.
    + split; auto. intros [E|(E & _)]; destruct G as [_ [G|G]]; rewrite G in E; discriminate.
    + split; auto. intros [E|(E & O & C1 & C2)]; [exfalso; apply G; eexists; split; [exact E|discriminate]|].
      exfalso. apply NC. split; auto. destruct others; [congruence|cbn; lia].
    + split; auto. intros [E|(E & O & R1 & R2)]; [exfalso; apply G; eexists; split; [exact E|discriminate]|].
      exfalso. apply (NB R1 O). destruct CR as [(_ & _ & D)|(r' & c' & k' & E')]; auto. rewrite E'. rewrite map_map. cbn [fst].
      apply FinFun.Injective_map_NoDup; [|apply seq_NoDup]. intros x y. lia.
Qed.

(** *** the values of the object *)
Lemma request_nonempty : d <> [].
Proof. destruct RQ as [_ _ [hv [E _]] _ _ _ _ _ _ _ _ _ _ _ _ _ _]. eapply dget_ne; eauto. Qed.

Lemma request_count p : make_params json (PDict d) = Ok p -> series_count p (List.length cells).
Proof.
  intros H. destruct RQ as [r1 r2 [hv [r3 [r3' r3'']]] [t [r4 r4']] r5 [u [r6 r6']] r7 r8 r9 r10 r11 r12 r13 r14 r15 r16 r17].
  assert (N : (1 <= List.length cells)%nat) by (destruct cells; [congruence|cbn; lia]).
  apply (c10 json d p hv cells); auto; [constructor; auto|]. split.
  - intros k l E K.
    assert (G : given k d) by (eexists; split; [exact E|discriminate]).
    assert (ONCE : forall x, given_once k d x -> (List.length l <= List.length cells)%nat).
    { intros x [NL [E'|E']]; rewrite E in E'; inversion E'; subst; [exfalso; apply NL; eexists; reflexivity|cbn; lia]. }
    assert (SAYS : forall x, says d k x -> (List.length l <= List.length cells)%nat).
    { intros x [G'|[G' _]]; [eauto|contradiction]. }
    pose proof (r2 k (dget_has _ _ _ E)) as KN. unfold parameter_names in KN. cbn [map] in KN.
    repeat (destruct KN as [EK|KN]; [rewrite <- EK in *; clear EK|]); eauto; try contradiction;
      try (exfalso; apply K; repeat first [left; reflexivity|right]; fail).
    + destruct r8 as [A|A|A _|A _ _]; eauto; contradiction.
    + destruct NAMES as [A|[names [A L]]]; [contradiction|]. rewrite E in A. inversion A; subst. rewrite map_length. lia.
    + destruct r7; eauto; contradiction.
    + destruct r15 as [A|A]; [contradiction|]. rewrite E in A. discriminate.
  - destruct r4 as [_ [E|E]]; eexists; (split; [exact E|]); left; exists [time]; (split; [|cbn; lia]).
    + constructor. rewrite (surjective_pairing time). constructor. auto.
    + change [time] with (List.concat [[time]]). apply (vc_list [t] [[time]]); [discriminate|].
      constructor; [|constructor]. rewrite (surjective_pairing time). constructor. auto.
Qed.

Definition align_text (al : align) : text := match al with Vert => pname "vertical" | Horiz => pname "horizontal" end.
Definition requested (hs : list text) (t : text) (k : text) (i : nat) : pyval :=
  if text_eqb k n_alignment then VStr (align_text (se_align se))
  else if text_eqb k n_series_names then match dgetN n_series_names d with VList l => nth i l VNone | _ => VNone end
  else if text_eqb k n_headers_coord then VStr (nth i hs [])
  else if text_eqb k n_composed then VNone
  else if text_eqb k n_context then VNone
  else if text_eqb k n_data_starts then VInt z
  else if text_eqb k n_data_ends then if is_none (dgetN n_data_ends d) then VNone else VInt m
  else if text_eqb k n_continuity then VBool (se_continuity se)
  else if text_eqb k n_blank_rows then VBool (se_blanks se)
  else if text_eqb k n_missings then VBool (se_missings se)
  else if text_eqb k n_missing_value then VList (se_markers se)
  else if text_eqb k n_time_alignment then VInt 0
  else if text_eqb k n_time_multicolumn then VBool false
  else if text_eqb k n_time_header then VStr t
  else if text_eqb k n_time_composed then VBool (se_composed se)
  else VStr (pname f).

Section Values.
Variable p : dict.
Hypothesis H : make_params json (PDict d) = Ok p.
Let n := List.length cells.

Lemma n_pos : (0 < n)%nat.
Proof. unfold n. destruct RQ as [_ _ [hv [_ [_ E]]] _ _ _ _ _ _ _ _ _ _ _ _ _ _]. destruct cells; [congruence|cbn; lia]. Qed.
Lemma the_build : exists b f0 th tmv alv ctxv comps hs d6 d8 d9 k, n = S k /\ p = params_of b /\ built d b f0 th tmv alv ctxv comps hs (S k) d6 d8 d9.
Proof.
  pose proof (request_count p H) as C. fold n in C.
  destruct (built_series json d p n 0 (rq_once _ _ _ _ _ _ _ RQ) request_nonempty H C n_pos) as (b & k & f0 & th & tmv & alv & ctxv & comps & hs & d6 & d8 & d9 & E & E' & _ & B).
  exists b, f0, th, tmv, alv, ctxv, comps, hs, d6, d8, d9, k. auto.
Qed.
Lemma fixed_from k g : k <> pname "missing_value" -> (forall i, (i < n)%nat -> series_value p k i (g i)) -> fixed p n k g.
Proof.
  intros K G. apply fixed_intro; auto.
  - eapply object_made; [|exact H]. apply request_nonempty.
  - apply request_count; auto.
  - apply n_pos.
Qed.
Lemma fixed_repeat k v : dgetN k p = VList (repeat v n) -> fixed p n k (fun _ => v).
Proof. intros E. exists (repeat v n). split; auto. split; [apply repeat_length|]. intros i I. apply nth_repeat_some; auto. Qed.

(** left out *)
Lemma left_optional k : In k [n_series_names; n_data_ends; n_composed; n_context] -> ~ given k d -> fixed p n k (fun _ => VNone).
Proof.
  intros K G. destruct the_build as (b & f0 & th & tmv & alv & ctxv & comps & hs & d6 & d8 & d9 & m0 & E & EP & B).
  apply fixed_repeat. rewrite E. pose proof (rq_once _ _ _ _ _ _ _ RQ) as ND.
  assert (KP : In k PARAM_NAMES /\ text_in k OPTIONAL = true /\ k <> n_time_header /\ k <> n_missing_value /\
    (exists vv, valid_values k = Ok vv /\ none_in vv = true) /\ text_eqb k n_time_multicolumn = false /\ text_eqb k n_alignment = false).
  { repeat (destruct K as [<-|K]; [split; [apply text_in_In; reflexivity|]; split; [reflexivity|]; split; [discriminate|]; split; [discriminate|];
      split; [eexists; split; reflexivity|]; split; reflexivity|]). destruct K. }
  destruct KP as (K1 & K2 & K3 & K4 & (vv & K5 & K6) & K7 & K8).
  rewrite EP, params_of_get by auto. rewrite (built_value _ _ _ _ _ _ _ _ _ _ _ _ _ B), K2.
  assert (CP : existsb truthy comps = false).
  { destruct RQ as [_ _ [hv [Hh [Hc _]]] _ _ _ _ _ _ _ _ _ _ _ _ _ _].
    destruct (value_unpack _ _ Hc) as [ts [U N]]. pose proof (bt_headers _ _ _ _ _ _ _ _ _ _ _ _ _ B) as P.
    change n_headers_coord with (pname "headers_coord") in P. rewrite (dgetN_some _ _ _ Hh) in P. unfold process_headers_coord in P. rewrite U in P. cbn [bind] in P.
    rewrite (separate_plain ts cells N) in P. inversion P. clear. induction ts; auto. }
  assert (E8 : dgetN k d8 = VNone).
  { rewrite (bt_d8 _ _ _ _ _ _ _ _ _ _ _ _ _ B), K7, K8, (bt_d6 _ _ _ _ _ _ _ _ _ _ _ _ _ B), CP.
    pose proof (bt_context _ _ _ _ _ _ _ _ _ _ _ _ _ B) as CX. pose proof (not_given_falsy _ _ G) as F.
    repeat (destruct K as [<-|K]; [cbn [text_eqb]|]); try (destruct K); try (rewrite F; reflexivity).
    cbn - [dgetN]. rewrite F in CX. exact CX. }
  destruct (in_dec text_dec k (map fst d8)) as [I|I].
  - rewrite (b_gen9 B ND k vv) by auto. rewrite E8. unfold apply_to_all_gen. rewrite K6. cbn [is_none andb negb]. rewrite andb_false_r. reflexivity.
  - rewrite (b_not8 B ND k I). reflexivity.
Qed.
Lemma left_flag k : In k [n_continuity; n_blank_rows; n_missings; n_time_composed] -> ~ given k d -> dgetN k p = VNone.
Proof.
  intros K G. destruct the_build as (b & f0 & th & tmv & alv & ctxv & comps & hs & d6 & d8 & d9 & m0 & E & EP & B).
  pose proof (rq_once _ _ _ _ _ _ _ RQ) as ND.
  assert (KP : In k PARAM_NAMES /\ text_in k OPTIONAL = false /\ k <> n_time_header /\ k <> n_missing_value /\
    (exists vv, valid_values k = Ok vv /\ apply_to_all_gen VNone (Some (S m0)) vv = VNone) /\ dgetN k d8 = VNone).
  { assert (F := not_given_falsy _ _ G).
    repeat (destruct K as [<-|K]; [split; [apply text_in_In; reflexivity|]; split; [reflexivity|]; split; [discriminate|]; split; [discriminate|];
      split; [eexists; split; reflexivity|]; rewrite (bt_d8 _ _ _ _ _ _ _ _ _ _ _ _ _ B), (bt_d6 _ _ _ _ _ _ _ _ _ _ _ _ _ B), F; reflexivity|]). destruct K. }
  destruct KP as (K1 & K2 & K3 & K4 & (vv & K5 & K6) & E8).
  rewrite EP, params_of_get by auto. rewrite (built_value _ _ _ _ _ _ _ _ _ _ _ _ _ B), K2.
  destruct (in_dec text_dec k (map fst d8)) as [I|I].
  - rewrite (b_gen9 B ND k vv) by auto. rewrite E8. auto.
  - rewrite (b_not8 B ND k I). reflexivity.
Qed.

Lemma given_from k v : In k ParamsProofs.plain_names -> given_once k d v -> v <> VNone -> fixed p n k (fun _ => v).
Proof.
  intros K G NV. apply fixed_from.
  - intros E. rewrite E in K. apply text_in_In in K. discriminate.
  - intros i I. eapply c09_once; eauto; [apply (rq_once _ _ _ _ _ _ _ RQ)|apply request_count; auto].
Qed.
Lemma flag_ready k b : In k [n_continuity; n_blank_rows; n_missings; n_time_composed] -> says d k (VBool b) -> ready p n k (fun _ => VBool b).
Proof.
  intros K [G|[G (vv & S)]].
  - left. apply given_from; auto; [|discriminate].
    repeat (destruct K as [<-|K]; [apply text_in_In; reflexivity|]). destruct K.
  - right. split; [apply left_flag; auto|]. exists vv, (VBool b). auto.
Qed.
Lemma alignment_ready : ready p n n_alignment (fun _ => VStr (align_text (se_align se))).
Proof.
  pose proof fixed_from as FF. pose proof (request_count p H) as CN. fold n in CN.
  pose proof (rq_once _ _ _ _ _ _ _ RQ) as ND.
  destruct the_build as (b & f0 & th & tmv & alv & ctxv & comps & hs & d6 & d8 & d9 & m0 & E & EP & B).
  assert (E8 : dgetN n_alignment d8 = alv) by apply (bt_d8 _ _ _ _ _ _ _ _ _ _ _ _ _ B).
  assert (G : forall v, In n_alignment (map fst d8) -> bcast (S m0) alv = VList (repeat (VStr v) (S m0)) -> alv <> VNone -> alv <> VList [] ->
    fixed p n n_alignment (fun _ => VStr v)).
  { intros v I BC NN NL. apply fixed_repeat. rewrite EP, params_of_get by (apply text_in_In; reflexivity).
    erewrite (b_gen B ND n_alignment); [|exact I|discriminate|discriminate|reflexivity|left; congruence|congruence]. rewrite E8, E. auto. }
  assert (GIV : forall v, given_once n_alignment d (VStr v) -> v <> [] -> fixed p n n_alignment (fun _ => VStr v)).
  { intros v [_ X] NV. pose proof (bt_al _ _ _ _ _ _ _ _ _ _ _ _ _ B) as A. destruct X as [X|X].
    - rewrite (dgetN_some _ _ _ X) in A. cbn [truthy] in A. destruct v as [|c v]; [congruence|]. cbn in A. 
      apply G; [apply (b_in8 B); eapply dget_has; eauto|rewrite A; reflexivity|rewrite A; discriminate|rewrite A; discriminate].
    - rewrite (dgetN_some _ _ _ X) in A. cbn [truthy] in A. 
      apply G; [apply (b_in8 B); eapply dget_has; eauto|rewrite A; reflexivity|rewrite A; discriminate|rewrite A; discriminate]. }
  destruct RQ as [r1 r2 [hv [r3 [r3' r3'']]] [t [r4 r4']] r5 [u [r6 r6']] r7 r8 r9 r10 r11 r12 r13 r14 r15 r16 r17].
  destruct r8 as [A|A|A NC|A L CR].
  - left. apply GIV; auto. discriminate.
  - left. apply GIV; auto. discriminate.
  - pose proof (bt_al _ _ _ _ _ _ _ _ _ _ _ _ _ B) as GA. change n_alignment with (pname "alignment") in GA. rewrite (not_given_falsy _ _ A) in GA. cbn [truthy] in GA.
    assert (I8 : In n_alignment (map fst d8)).
    { apply (bt_keys8 _ _ _ _ _ _ _ _ _ _ _ _ _ B). right. right. split; auto. change n_alignment with (pname "alignment"). rewrite (not_given_falsy _ _ A). auto. }
    destruct (value_unpack _ _ r3') as [ts [U N]]. pose proof (bt_headers _ _ _ _ _ _ _ _ _ _ _ _ _ B) as P.
    change n_headers_coord with (pname "headers_coord") in P. rewrite (dgetN_some _ _ _ r3) in P. unfold process_headers_coord in P. rewrite U in P. cbn [bind] in P.
    rewrite (separate_plain ts cells N) in P. inversion P; subst hs. destruct (guess_spec _ _ _ N GA) as [X|[L [[X _]|(X & C1 & C2)]]].
    + right. split; [|eexists _, _; split; [left; reflexivity|intros; reflexivity]]. rewrite EP, params_of_get by (apply text_in_In; reflexivity).
      rewrite (built_value _ _ _ _ _ _ _ _ _ _ _ _ _ B). change (text_in n_alignment OPTIONAL) with false. cbn beta iota.
      erewrite (b_gen9 B ND n_alignment); [|exact I8|discriminate|discriminate|reflexivity]. rewrite E8, X. reflexivity.
    + left. apply G; [auto|rewrite X; reflexivity|rewrite X; discriminate|rewrite X; discriminate].
    + exfalso. apply NC. auto.
  - left. apply FF; [discriminate|]. intros i I. cbn [align_text].
    apply (c12_made json d p hv cells i n); auto; [constructor; auto].
Qed.
Lemma markers_ready : ready p n n_missing_value (fun _ => VList (se_markers se)).
Proof.
  left. pose proof (rq_once _ _ _ _ _ _ _ RQ) as ND. apply fixed_repeat.
  destruct the_build as (b & f0 & th & tmv & alv & ctxv & comps & hs & d6 & d8 & d9 & m0 & E & EP & B).
  rewrite EP, params_of_get by (apply text_in_In; reflexivity). rewrite (b_missing_value B ND).
  rewrite (bt_d6 _ _ _ _ _ _ _ _ _ _ _ _ _ B).
  change (match defaulted n_missing_value (dgetN (pname "missing_value") d) with
   | VList (VList x :: l) => VList (VList x :: l) | VList l => VList (repeat (VList l) (S m0)) | v => VList (repeat (VList [v]) (S m0)) end = VList (repeat (VList (se_markers se)) n)).
  rewrite E. destruct (rq_markers _ _ _ _ _ _ _ RQ) as [v G NN NL|l G NX|G].
  - rewrite (dgetN_some _ _ _ G). destruct v; try reflexivity; [congruence|]. exfalso. apply NL. eexists; reflexivity.
  - rewrite (dgetN_some _ _ _ G). cbn [defaulted is_none]. destruct l as [|[] l]; try reflexivity. exfalso. eapply NX; reflexivity.
  - rewrite (not_given_falsy _ _ G). reflexivity.
Qed.
Lemma aligned_ready : ready p n n_time_alignment (fun _ => VInt 0).
Proof.
  left. destruct (rq_aligned _ _ _ _ _ _ _ RQ) as [G|[G _]].
  - apply given_from; auto; [apply text_in_In; reflexivity|discriminate].
  - pose proof (rq_once _ _ _ _ _ _ _ RQ) as ND. apply fixed_repeat.
    destruct the_build as (b & f0 & th & tmv & alv & ctxv & comps & hs & d6 & d8 & d9 & m0 & E & EP & B).
    rewrite EP, params_of_get by (apply text_in_In; reflexivity).
    assert (E8 : dgetN n_time_alignment d8 = VInt 0).
    { rewrite (bt_d8 _ _ _ _ _ _ _ _ _ _ _ _ _ B), (bt_d6 _ _ _ _ _ _ _ _ _ _ _ _ _ B). 
      change n_time_alignment with (pname "time_alignment"). rewrite (not_given_falsy _ _ G). reflexivity. }
    erewrite (b_gen B ND n_time_alignment); [| |discriminate|discriminate|reflexivity|left; congruence|congruence]; [rewrite E8, E; reflexivity|].
    apply (bt_keys8 _ _ _ _ _ _ _ _ _ _ _ _ _ B). left. apply (bt_ta6 _ _ _ _ _ _ _ _ _ _ _ _ _ B).
Qed.
Lemma multi_none : dgetN (pname "time_multicolumn") d = VNone \/ dgetN (pname "time_multicolumn") d = VBool false.
Proof.
  destruct (rq_one_column _ _ _ _ _ _ _ RQ) as [G|G]; [left; apply not_given_falsy; auto|right; apply dgetN_some; auto].
Qed.
Lemma multi_ready : ready p n n_time_multicolumn (fun _ => VBool false).
Proof.
  left. pose proof (rq_once _ _ _ _ _ _ _ RQ) as ND. pose proof multi_none as MN. apply fixed_repeat.
  destruct the_build as (b & f0 & th & tmv & alv & ctxv & comps & hs & d6 & d8 & d9 & m0 & E & EP & B).
  assert (MN' : truthy (dgetN n_time_multicolumn d) = false) by (change n_time_multicolumn with (pname "time_multicolumn"); destruct MN as [-> | ->]; auto).
  rewrite EP, params_of_get by (apply text_in_In; reflexivity).
  destruct RQ as [r1 r2 [hv [r3 [r3' r3'']]] [t [r4 r4']] r5 [u [r6 r6']] r7 r8 r9 r10 r11 r12 r13 r14 r15 r16 r17].
  assert (TH : th = VList [VStr (upper t)]).
  { pose proof (bt_time _ _ _ _ _ _ _ _ _ _ _ _ _ B) as U. pose proof (proj1 (cell_named_iff _ _ _) r4') as Tp.
    assert (U1 : unpack_header_ranges (VStr t) = Ok (VList [VStr (upper t)])).
    { apply (unpack_header_text t [upper t] [time]); [rewrite (surjective_pairing time); constructor; auto|]. eapply unpack_single; eauto. }
    assert (U2 : unpack_header_ranges (VList [VStr t]) = Ok (VList [VStr (upper t)])).
    { apply (unpack_header_list [t] [[upper t]]); [discriminate|]. constructor; [|constructor]. eapply unpack_single; eauto. }
    change n_time_header with (pname "time_header_coord") in U. destruct r4 as [_ [G|G]]; rewrite (dgetN_some _ _ _ G) in U; congruence. }
  assert (TMV : tmv = VBool false).
  { pose proof (bt_tm _ _ _ _ _ _ _ _ _ _ _ _ _ B) as U. rewrite MN', TH in U.
    unfold guess_time_multicolumn in U. unfold is_repeated in U. cbn [forallb py_eq andb] in U. rewrite text_eqb_refl in U. cbn in U. congruence. }
  assert (E8 : dgetN n_time_multicolumn d8 = VBool false) by (rewrite (bt_d8 _ _ _ _ _ _ _ _ _ _ _ _ _ B); exact TMV).
  erewrite (b_gen B ND n_time_multicolumn); [| |discriminate|discriminate|reflexivity|left; congruence|congruence]; [rewrite E8, E; reflexivity|].
  apply (bt_keys8 _ _ _ _ _ _ _ _ _ _ _ _ _ B). right. left. split; auto.
Qed.
Lemma headers_fixed : exists hs, names_cells hs cells /\ fixed p n n_headers_coord (fun i => VStr (nth i hs [])).
Proof.
  pose proof (rq_once _ _ _ _ _ _ _ RQ) as ND.
  destruct the_build as (b & f0 & th & tmv & alv & ctxv & comps & hs & d6 & d8 & d9 & m0 & E & EP & B).
  destruct RQ as [_ _ [hv [r3 [r3' r3'']]] _ _ _ _ _ _ _ _ _ _ _ _ _ _].
  destruct (value_unpack _ _ r3') as [ts [U N]]. pose proof (bt_headers _ _ _ _ _ _ _ _ _ _ _ _ _ B) as P.
  change n_headers_coord with (pname "headers_coord") in P. rewrite (dgetN_some _ _ _ r3) in P. unfold process_headers_coord in P. rewrite U in P. cbn [bind] in P.
  rewrite (separate_plain ts cells N) in P. inversion P; subst hs. exists ts. split; auto. pose proof (names_len _ _ N) as LN.
  assert (E8 : dgetN n_headers_coord d8 = VList (map VStr ts)).
  { rewrite (bt_d8 _ _ _ _ _ _ _ _ _ _ _ _ _ B), (bt_d6 _ _ _ _ _ _ _ _ _ _ _ _ _ B). reflexivity. }
  assert (EQ : dgetN n_headers_coord p = VList (map VStr ts)).
  { rewrite EP, params_of_get by (apply text_in_In; reflexivity).
    erewrite (b_gen B ND n_headers_coord); [| |discriminate|discriminate|reflexivity|left; congruence|].
    - rewrite E8. apply bcast_full. rewrite map_length. unfold n in E. lia.
    - apply (b_in8 B). eapply dget_has. exact r3.
    - rewrite E8. destruct ts; [|discriminate]. cbn in LN. unfold n in E. lia. }
  exists (map VStr ts). split; auto. split; [rewrite map_length; unfold n; lia|]. intros i I. rewrite nth_error_map.
  rewrite (nth_error_nth' ts [] (n := i)) by (unfold n in I; lia). reflexivity.
Qed.

Lemma request_ready : exists hs t, names_cells hs cells /\ cell_named t (fst time) (snd time) /\
  forall k, In k PARAM_NAMES -> ready p n k (requested hs t k).
Proof.
  pose proof (rq_once _ _ _ _ _ _ _ RQ) as ND. pose proof (request_count p H) as C. fold n in C.
  destruct headers_fixed as (hs & NC & HF). pose proof alignment_ready as AR. pose proof markers_ready as MR. pose proof aligned_ready as TR.
  pose proof multi_ready as MU. pose proof multi_none as MN.
  pose proof flag_ready as FR. pose proof left_optional as LO. pose proof given_from as GF.
  assert (NM : ready p n n_series_names (requested hs [] n_series_names)).
  { left. change (requested hs [] n_series_names) with (fun i => match dgetN (pname "series_names") d with VList l => nth i l VNone | _ => VNone end).
    destruct NAMES as [G|(names & E & L)].
    - rewrite (not_given_falsy _ _ G). apply LO; auto. left; reflexivity.
    - rewrite (dgetN_some _ _ _ E). apply fixed_from; [discriminate|]. intros i I.
      destruct (c09_list json d p (pname "series_names") (map VStr names) n i) as (v & V1 & V2); auto; [apply text_in_In; reflexivity|rewrite map_length; auto|].
      rewrite (nth_error_nth _ _ VNone V1). auto. }
  destruct RQ as [r1 r2 [hv [r3 [r3' r3'']]] [t [r4 r4']] r5 [u [r6 r6']] r7 r8 r9 r10 r11 r12 r13 r14 r15 r16 r17].
  exists hs, (upper t). split; auto. split.
  { apply cell_named_iff, parse_upper, cell_named_iff. exact r4'. }
  intros k K. unfold PARAM_NAMES in K.
  assert (EN : ready p n n_data_ends (requested hs [] n_data_ends)).
  { left. change (requested hs [] n_data_ends) with (fun _ : nat => if is_none (dgetN (pname "data_ends") d) then VNone else VInt m). destruct r7 as [G|G].
    - rewrite (not_given_falsy _ _ G). apply LO; auto. right; left; reflexivity.
    - replace (is_none (dgetN (pname "data_ends") d)) with false by (destruct G as [_ [G|G]]; rewrite (dgetN_some _ _ _ G); reflexivity).
      apply GF; auto; [apply text_in_In; reflexivity|discriminate]. }
  assert (KK : In k [n_alignment; n_series_names; n_headers_coord; n_composed; n_context; n_data_starts; n_data_ends; n_continuity; n_blank_rows; n_missings;
     n_missing_value; n_time_alignment; n_time_multicolumn; n_time_header; n_time_composed; n_frequency]).
  { repeat (destruct K as [<-|K]; [apply text_in_In; reflexivity|]). destruct K. }
  clear K. 
  destruct KK as [<-|KK]; [exact AR|].
  destruct KK as [<-|KK]; [exact NM|].
  destruct KK as [<-|KK]; [left; exact HF|].
  destruct KK as [<-|KK]; [left; apply (LO n_composed); auto; apply text_in_In; reflexivity|].
  destruct KK as [<-|KK]; [left; apply (LO n_context); auto; apply text_in_In; reflexivity|].
  destruct KK as [<-|KK]; [left; apply (GF n_data_starts (VInt z)); auto; [apply text_in_In; reflexivity|discriminate]|].
  destruct KK as [<-|KK]; [exact EN|].
  destruct KK as [<-|KK]; [apply (FR n_continuity); auto; apply text_in_In; reflexivity|].
  destruct KK as [<-|KK]; [apply (FR n_blank_rows); auto; apply text_in_In; reflexivity|].
  destruct KK as [<-|KK]; [apply (FR n_missings); auto; apply text_in_In; reflexivity|].
  destruct KK as [<-|KK]; [exact MR|].
  destruct KK as [<-|KK]; [exact TR|].
  destruct KK as [<-|KK]; [exact MU|].
  destruct KK as [<-|KK].
  { left. apply fixed_from; [discriminate|]. intros i I. apply (c09_time_header json d p t (fst time) (snd time) n i); auto. }
  destruct KK as [<-|KK]; [apply (FR n_time_composed); auto; apply text_in_In; reflexivity|].
  destruct KK as [<-|KK]; [|destruct KK].
  left. apply fixed_from; [discriminate|]. intros i I. change (requested hs (upper t) n_frequency i) with (VStr (pname f)). rewrite <- r6'.
  apply (c08_value json d p u n i); auto.
Qed.
End Values.
End Request.
