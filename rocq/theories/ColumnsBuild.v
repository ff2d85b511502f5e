(** The parameters a request for a table with its index in several columns gives
    (C73).  As EndBuild.v, but for the time header. *)
From Coq Require Import ZifyBool ZifyNat.
From Verif Require Import Base BaseFacts Coord CoordFacts XlMethods Params ParseTime TimeIndex Attempts DataFrame Scrape
  SpecCoord SpecCoordFacts SpecParams HeaderFacts ComposedFacts ScopeFacts BuildFacts BuildInv ParamsFacts ParamsProofs ParamsProofs2 SpecAttempts AttemptsFacts AttemptsProofs
  SpecTime SpecData SpecFrames SpecScrape SpecEnd BuildAccept EndFacts EndBuild SpecColumnsCall.
Local Open Scope Z_scope.

Section Request.
Variables (json : text -> res dict) (d : dict) (cells : list (Z * Z)) (times : list (Z * Z)) (z m : Z) (f : string) (se : settings).
Hypothesis RQ : columns_request d cells times z m f se.
Hypothesis FEW : (List.length times <= List.length cells)%nat.
Hypothesis AFTER : forall rc, hd_error cells = Some rc -> depth_of (se_align se) rc < z.
Hypothesis NAMES : ~ given (pname "series_names") d \/
  exists names, dget (pname "series_names") d = Some (VList (map VStr names)) /\ List.length names = List.length cells.
Hypothesis FREQ : Forall (fun c => In c (pname "ASQMWD")) (pname f).

Lemma not_given_none k v : ~ given k d -> dget k d = Some v -> v = VNone.
Proof. intros G E. destruct v; auto; exfalso; apply G; eexists; split; try exact E; discriminate. Qed.

Lemma once_acceptable k v u : given_once k d v -> dget k d = Some u -> acceptable k v -> (forall x, each (eq v) x -> acceptable k x) -> acceptable k u.
Proof. intros [NL [E|E]] D A B; rewrite E in D; inversion D; subst; auto. apply B. cbn. constructor; auto. Qed.

Lemma none_or k : (given k d -> forall v, dget k d = Some v -> acceptable k v) -> forall v, dget k d = Some v -> acceptable k v.
Proof.
  intros G v D. destruct v; try (apply G; [eexists; split; [exact D|discriminate]|exact D]). constructor.
Qed.
Lemma value_texts v cs : value_cells v cs -> each a_text v.
Proof. intros [t c _|es css _ _]; cbn; [eexists; reflexivity|]. apply Forall_forall. intros x X. apply in_map_iff in X as [t [<- _]]. eexists; reflexivity. Qed.
Lemma frequency_ok u : freq_reading u = pname f -> frequency_text (VStr u).
Proof. intros E. exists u. split; auto. rewrite E. exact FREQ. Qed.

Lemma request_acceptable k v : In k parameter_names -> dget k d = Some v -> acceptable k v.
Proof.
  intros K. revert v. apply none_or. intros GV v D. destruct RQ as [r1 r2 [hv [r3 [r3' _]]] [tv [r4 r4']] r5 [u [r6 r6']] r7 r8 r9 r10 r11 r12 r13 r14 r15 r16 r17 r18].
  assert (ONCE : forall (P : pyval -> Prop) x, given_once k d x -> P x -> each P v).
  { intros P x [NL [E|E]] X; rewrite E in D; inversion D; subst; cbn; auto. destruct v; auto. exfalso. apply NL. eexists; eauto. }
  assert (FLAG : forall b, In k [pname "continuity"; pname "blank_rows"; pname "missings"; pname "time_multicolumn"; pname "time_composed"] ->
     says d k (VBool b) -> acceptable k v).
  { intros b K' [G|[G _]]; [|contradiction]. apply acc_flag; auto. apply (ONCE _ _ G). destruct b; [left|right]; reflexivity. }
  unfold parameter_names in K. cbn [map] in K.
  repeat (destruct K as [E|K]; [rewrite <- E in *; clear E|]).
  - apply acc_alignment. destruct r8 as [G|G|G _|G _ _]; try contradiction; apply (ONCE _ _ G); auto.
  - apply acc_names. destruct NAMES as [G|[names [E _]]]; [contradiction|]. rewrite E in D. inversion D; subst. cbn. apply Forall_forall.
    intros x X. apply in_map_iff in X as [y [<- _]]. left. eexists; reflexivity.
  - rewrite r3 in D. inversion D; subst. apply acc_headers. eapply value_texts; eauto.
  - contradiction.
  - contradiction.
  - apply acc_data_starts. apply (ONCE _ _ r5). left. eexists; reflexivity.
  - destruct r7 as [G|G]; [contradiction|]. apply acc_data_ends. apply (ONCE _ _ G). left. left. eexists; reflexivity.
  - refine (FLAG _ _ r9); repeat first [left; reflexivity|right].
  - refine (FLAG _ _ r10); repeat first [left; reflexivity|right].
  - refine (FLAG _ _ r11); repeat first [left; reflexivity|right].
  - apply acc_missing_value.
  - destruct r14 as [G|[G _]]; [|contradiction]. apply acc_time_alignment. apply (ONCE _ _ G). right. left. reflexivity.
  - destruct r15 as [G|[[G|G] _]]; [|contradiction|].
    + apply acc_flag; [repeat first [left; reflexivity|right]|]. apply (ONCE _ _ G). left. reflexivity.
    + rewrite G in D. inversion D; subst. apply acc_flag; [repeat first [left; reflexivity|right]|]. right. reflexivity.
  - rewrite r4 in D. inversion D; subst. apply acc_time_header. pose proof (value_texts _ _ r4') as X.
    destruct v; cbn [each] in *; auto. eapply Forall_impl; [|exact X]. auto.
  - refine (FLAG _ _ r13); repeat first [left; reflexivity|right].
  - apply acc_frequency. apply (ONCE _ _ r6). apply frequency_ok. auto.
  - destruct K.
Qed.

Lemma request_built : exists p, make_params json (PDict d) = Ok p.
Proof.
  pose proof request_acceptable as RA.
  destruct RQ as [r1 r2 [hv [r3 [r3' r3'']]] [tv [r4 r4']] r5 [u [r6 r6']] r7 r8 r9 r10 r11 r12 r13 r14 r15 r16 r17 r18].
  apply (c55 json d cells z).
  - constructor; auto.
    + intros k v I. pose proof (r2 k (In_keys _ _ _ I)) as K. split; auto. apply RA; auto. apply dget_NoDup; auto.
    + exists hv. split; auto. constructor; auto.
    + exists tv, times. split; auto. split; auto. intros ->. destruct r18 as [X _]. cbn in X. lia.
    + destruct r5 as [_ [E|E]]; [exists (VInt z), (VInt z)|exists (VList [VInt z]), (VInt z)]; split; auto; split; eauto; constructor.
    + destruct r6 as [_ [E|E]]; eexists; split; try exact E; discriminate.
    + intros mm l E. destruct r12 as [v G _ NL|l' G NX|G].
      * rewrite E in G. inversion G; subst. apply NL. eexists; eauto.
      * rewrite E in G. inversion G; subst. eapply NX; eauto.
      * apply G. eexists. split; [exact E|discriminate].
    + left. auto.
  - destruct cells as [|[r0 c0] others]; [congruence|]. specialize (AFTER _ eq_refl). cbn [data_after_header].
    assert (NB : in_one_row ((r0, c0) :: others) -> others <> [] -> NoDup (map fst ((r0, c0) :: others)) -> False).
    { intros [row R0] O D. destruct others as [|q others]; [congruence|]. cbn [map] in D. inversion D as [|? ? NI _]; subst. apply NI. left.
      transitivity row; [apply R0; cbn; auto|symmetry; apply (R0 (r0, c0)); cbn; auto]. }
    destruct r8 as [G|G|G NC|G L CR].
    + split; auto. intros [E|(E & _)]; destruct G as [_ [G|G]]; rewrite G in E; discriminate.
    + split; auto. intros [E|(E & _)]; destruct G as [_ [G|G]]; rewrite G in E; discriminate.
    + split; auto. intros [E|(E & O & C1 & C2)]; [exfalso; apply G; eexists; split; [exact E|discriminate]|].
      exfalso. apply NC. split; auto. destruct others; [congruence|cbn; lia].
    + split; auto. intros [E|(E & O & R1 & R2)]; [exfalso; apply G; eexists; split; [exact E|discriminate]|].
      exfalso. apply (NB R1 O). destruct CR as [(_ & _ & D)|(r' & c' & k' & E')]; auto. rewrite E'. rewrite map_map. cbn [fst].
      apply FinFun.Injective_map_NoDup; [|apply seq_NoDup]. intros x y. lia.
Qed.

(** *** the values of the object *)
Lemma request_nonempty : d <> [].
Proof. destruct RQ as [_ _ [hv [E _]] _ _ _ _ _ _ _ _ _ _ _ _ _ _ _]. eapply dget_ne; eauto. Qed.

Lemma request_count p : make_params json (PDict d) = Ok p -> series_count p (List.length cells).
Proof.
  intros H. destruct RQ as [r1 r2 [hv [r3 [r3' r3'']]] [tv [r4 r4']] r5 [u [r6 r6']] r7 r8 r9 r10 r11 r12 r13 r14 r15 r16 r17 r18].
  assert (N : (1 <= List.length cells)%nat) by (destruct cells; [congruence|cbn; lia]).
  apply (c10 json d p hv cells); auto; [constructor; auto|]. split.
  - intros k l E K.
    assert (G : given k d) by (eexists; split; [exact E|discriminate]).
    assert (ONCE : forall x, given_once k d x -> (List.length l <= List.length cells)%nat).
    { intros x [NL [E'|E']]; rewrite E in E'; inversion E'; subst; [exfalso; apply NL; eexists; reflexivity|cbn; lia]. }
    assert (SAYS : forall x, says d k x -> (List.length l <= List.length cells)%nat).
    { intros x [G'|[G' _]]; [eauto|contradiction]. }
    pose proof (r2 k (dget_has _ _ _ E)) as KN. unfold parameter_names in KN. cbn [map] in KN.
    repeat (destruct KN as [EK|KN]; [rewrite <- EK in *; clear EK|]); eauto; try contradiction;
      try (exfalso; apply K; repeat first [left; reflexivity|right]; fail).
    + destruct r8 as [A|A|A _|A _ _]; eauto; contradiction.
    + destruct NAMES as [A|[names [A L]]]; [contradiction|]. rewrite E in A. inversion A; subst. rewrite map_length. lia.
    + destruct r7; eauto; contradiction.
    + destruct r15 as [A|[[A|A] _]]; eauto; [contradiction|]. rewrite E in A. discriminate.
  - exists tv. split; auto. left. exists times. split; auto.
Qed.

Definition asked (hs ts : list text) (k : text) (i : nat) : pyval :=
  if text_eqb k n_alignment then VStr (align_text (se_align se))
  else if text_eqb k n_series_names then match dgetN n_series_names d with VList l => nth i l VNone | _ => VNone end
  else if text_eqb k n_headers_coord then VStr (nth i hs [])
  else if text_eqb k n_composed then VNone
  else if text_eqb k n_context then VNone
  else if text_eqb k n_data_starts then VInt z
  else if text_eqb k n_data_ends then if is_none (dgetN n_data_ends d) then VNone else VInt m
  else if text_eqb k n_continuity then VBool (se_continuity se)
  else if text_eqb k n_blank_rows then VBool (se_blanks se)
  else if text_eqb k n_missings then VBool (se_missings se)
  else if text_eqb k n_missing_value then VList (se_markers se)
  else if text_eqb k n_time_alignment then VInt 0
  else if text_eqb k n_time_multicolumn then VBool true
  else if text_eqb k n_time_header then VList (map VStr ts)
  else if text_eqb k n_time_composed then VBool (se_composed se)
  else VStr (pname f).

Section Values.
Variable p : dict.
Hypothesis H : make_params json (PDict d) = Ok p.
Let n := List.length cells.

Lemma n_pos : (0 < n)%nat.
Proof. unfold n. destruct RQ as [_ _ [hv [_ [_ E]]] _ _ _ _ _ _ _ _ _ _ _ _ _ _ _]. destruct cells; [congruence|cbn; lia]. Qed.
Lemma the_build : exists b f0 th tmv alv ctxv comps hs d6 d8 d9 k, n = S k /\ p = params_of b /\ built d b f0 th tmv alv ctxv comps hs (S k) d6 d8 d9.
Proof.
  pose proof (request_count p H) as C. fold n in C.
  destruct (built_series json d p n 0 (cq_once _ _ _ _ _ _ _ RQ) request_nonempty H C n_pos) as (b & k & f0 & th & tmv & alv & ctxv & comps & hs & d6 & d8 & d9 & E & E' & _ & B).
  exists b, f0, th, tmv, alv, ctxv, comps, hs, d6, d8, d9, k. auto.
Qed.
Lemma fixed_from k g : k <> pname "missing_value" -> (forall i, (i < n)%nat -> series_value p k i (g i)) -> fixed p n k g.
Proof.
  intros K G. apply fixed_intro; auto.
  - eapply object_made; [|exact H]. apply request_nonempty.
  - apply request_count; auto.
  - apply n_pos.
Qed.
Lemma fixed_repeat k v : dgetN k p = VList (repeat v n) -> fixed p n k (fun _ => v).
Proof. intros E. exists (repeat v n). split; auto. split; [apply repeat_length|]. intros i I. apply nth_repeat_some; auto. Qed.

(** left out *)
Lemma left_optional k : In k [n_series_names; n_data_ends; n_composed; n_context] -> ~ given k d -> fixed p n k (fun _ => VNone).
Proof.
  intros K G. destruct the_build as (b & f0 & th & tmv & alv & ctxv & comps & hs & d6 & d8 & d9 & m0 & E & EP & B).
  apply fixed_repeat. rewrite E. pose proof (cq_once _ _ _ _ _ _ _ RQ) as ND.
  assert (KP : In k PARAM_NAMES /\ text_in k OPTIONAL = true /\ k <> n_time_header /\ k <> n_missing_value /\
    (exists vv, valid_values k = Ok vv /\ none_in vv = true) /\ text_eqb k n_time_multicolumn = false /\ text_eqb k n_alignment = false).
  { repeat (destruct K as [<-|K]; [split; [apply text_in_In; reflexivity|]; split; [reflexivity|]; split; [discriminate|]; split; [discriminate|];
      split; [eexists; split; reflexivity|]; split; reflexivity|]). destruct K. }
  destruct KP as (K1 & K2 & K3 & K4 & (vv & K5 & K6) & K7 & K8).
  rewrite EP, params_of_get by auto. rewrite (built_value _ _ _ _ _ _ _ _ _ _ _ _ _ B), K2.
  assert (CP : existsb truthy comps = false).
  { destruct RQ as [_ _ [hv [Hh [Hc _]]] _ _ _ _ _ _ _ _ _ _ _ _ _ _ _].
    destruct (value_unpack _ _ Hc) as [ts [U N]]. pose proof (bt_headers _ _ _ _ _ _ _ _ _ _ _ _ _ B) as P.
    change n_headers_coord with (pname "headers_coord") in P. rewrite (dgetN_some _ _ _ Hh) in P. unfold process_headers_coord in P. rewrite U in P. cbn [bind] in P.
    rewrite (separate_plain ts cells N) in P. inversion P. clear. induction ts; auto. }
  assert (E8 : dgetN k d8 = VNone).
  { rewrite (bt_d8 _ _ _ _ _ _ _ _ _ _ _ _ _ B), K7, K8, (bt_d6 _ _ _ _ _ _ _ _ _ _ _ _ _ B), CP.
    pose proof (bt_context _ _ _ _ _ _ _ _ _ _ _ _ _ B) as CX. pose proof (not_given_falsy _ _ G) as F.
    repeat (destruct K as [<-|K]; [cbn [text_eqb]|]); try (destruct K); try (rewrite F; reflexivity).
    cbn - [dgetN]. rewrite F in CX. exact CX. }
  destruct (in_dec text_dec k (map fst d8)) as [I|I].
  - rewrite (b_gen9 B ND k vv) by auto. rewrite E8. unfold apply_to_all_gen. rewrite K6. cbn [is_none andb negb]. rewrite andb_false_r. reflexivity.
  - rewrite (b_not8 B ND k I). reflexivity.
Qed.
Lemma left_flag k : In k [n_continuity; n_blank_rows; n_missings; n_time_composed] -> ~ given k d -> dgetN k p = VNone.
Proof.
  intros K G. destruct the_build as (b & f0 & th & tmv & alv & ctxv & comps & hs & d6 & d8 & d9 & m0 & E & EP & B).
  pose proof (cq_once _ _ _ _ _ _ _ RQ) as ND.
  assert (KP : In k PARAM_NAMES /\ text_in k OPTIONAL = false /\ k <> n_time_header /\ k <> n_missing_value /\
    (exists vv, valid_values k = Ok vv /\ apply_to_all_gen VNone (Some (S m0)) vv = VNone) /\ dgetN k d8 = VNone).
  { assert (F := not_given_falsy _ _ G).
    repeat (destruct K as [<-|K]; [split; [apply text_in_In; reflexivity|]; split; [reflexivity|]; split; [discriminate|]; split; [discriminate|];
      split; [eexists; split; reflexivity|]; rewrite (bt_d8 _ _ _ _ _ _ _ _ _ _ _ _ _ B), (bt_d6 _ _ _ _ _ _ _ _ _ _ _ _ _ B), F; reflexivity|]). destruct K. }
  destruct KP as (K1 & K2 & K3 & K4 & (vv & K5 & K6) & E8).
  rewrite EP, params_of_get by auto. rewrite (built_value _ _ _ _ _ _ _ _ _ _ _ _ _ B), K2.
  destruct (in_dec text_dec k (map fst d8)) as [I|I].
  - rewrite (b_gen9 B ND k vv) by auto. rewrite E8. auto.
  - rewrite (b_not8 B ND k I). reflexivity.
Qed.

Lemma given_from k v : In k ParamsProofs.plain_names -> given_once k d v -> v <> VNone -> fixed p n k (fun _ => v).
Proof.
  intros K G NV. apply fixed_from.
  - intros E. rewrite E in K. apply text_in_In in K. discriminate.
  - intros i I. eapply c09_once; eauto; [apply (cq_once _ _ _ _ _ _ _ RQ)|apply request_count; auto].
Qed.
Lemma flag_ready k b : In k [n_continuity; n_blank_rows; n_missings; n_time_composed] -> says d k (VBool b) -> ready p n k (fun _ => VBool b).
Proof.
  intros K [G|[G (vv & S)]].
  - left. apply given_from; auto; [|discriminate].
    repeat (destruct K as [<-|K]; [apply text_in_In; reflexivity|]). destruct K.
  - right. split; [apply left_flag; auto|]. exists vv, (VBool b). auto.
Qed.
Lemma alignment_ready : ready p n n_alignment (fun _ => VStr (align_text (se_align se))).
Proof.
  pose proof fixed_from as FF. pose proof (request_count p H) as CN. fold n in CN.
  pose proof (cq_once _ _ _ _ _ _ _ RQ) as ND.
  destruct the_build as (b & f0 & th & tmv & alv & ctxv & comps & hs & d6 & d8 & d9 & m0 & E & EP & B).
  assert (E8 : dgetN n_alignment d8 = alv) by apply (bt_d8 _ _ _ _ _ _ _ _ _ _ _ _ _ B).
  assert (G : forall v, In n_alignment (map fst d8) -> bcast (S m0) alv = VList (repeat (VStr v) (S m0)) -> alv <> VNone -> alv <> VList [] ->
    fixed p n n_alignment (fun _ => VStr v)).
  { intros v I BC NN NL. apply fixed_repeat. rewrite EP, params_of_get by (apply text_in_In; reflexivity).
    erewrite (b_gen B ND n_alignment); [|exact I|discriminate|discriminate|reflexivity|left; congruence|congruence]. rewrite E8, E. auto. }
  assert (GIV : forall v, given_once n_alignment d (VStr v) -> v <> [] -> fixed p n n_alignment (fun _ => VStr v)).
  { intros v [_ X] NV. pose proof (bt_al _ _ _ _ _ _ _ _ _ _ _ _ _ B) as A. destruct X as [X|X].
    - rewrite (dgetN_some _ _ _ X) in A. cbn [truthy] in A. destruct v as [|c v]; [congruence|]. cbn in A. 
      apply G; [apply (b_in8 B); eapply dget_has; eauto|rewrite A; reflexivity|rewrite A; discriminate|rewrite A; discriminate].
    - rewrite (dgetN_some _ _ _ X) in A. cbn [truthy] in A. 
      apply G; [apply (b_in8 B); eapply dget_has; eauto|rewrite A; reflexivity|rewrite A; discriminate|rewrite A; discriminate]. }
  destruct RQ as [r1 r2 [hv [r3 [r3' r3'']]] [tv [r4 r4']] r5 [u [r6 r6']] r7 r8 r9 r10 r11 r12 r13 r14 r15 r16 r17 r18].
  destruct r8 as [A|A|A NC|A L CR].
  - left. apply GIV; auto. discriminate.
  - left. apply GIV; auto. discriminate.
  - pose proof (bt_al _ _ _ _ _ _ _ _ _ _ _ _ _ B) as GA. change n_alignment with (pname "alignment") in GA. rewrite (not_given_falsy _ _ A) in GA. cbn [truthy] in GA.
    assert (I8 : In n_alignment (map fst d8)).
    { apply (bt_keys8 _ _ _ _ _ _ _ _ _ _ _ _ _ B). right. right. split; auto. change n_alignment with (pname "alignment"). rewrite (not_given_falsy _ _ A). auto. }
    destruct (value_unpack _ _ r3') as [ts [U N]]. pose proof (bt_headers _ _ _ _ _ _ _ _ _ _ _ _ _ B) as P.
    change n_headers_coord with (pname "headers_coord") in P. rewrite (dgetN_some _ _ _ r3) in P. unfold process_headers_coord in P. rewrite U in P. cbn [bind] in P.
    rewrite (separate_plain ts cells N) in P. inversion P; subst hs. destruct (guess_spec _ _ _ N GA) as [X|[L [[X _]|(X & C1 & C2)]]].
    + right. split; [|eexists _, _; split; [left; reflexivity|intros; reflexivity]]. rewrite EP, params_of_get by (apply text_in_In; reflexivity).
      rewrite (built_value _ _ _ _ _ _ _ _ _ _ _ _ _ B). change (text_in n_alignment OPTIONAL) with false. cbn beta iota.
      erewrite (b_gen9 B ND n_alignment); [|exact I8|discriminate|discriminate|reflexivity]. rewrite E8, X. reflexivity.
    + left. apply G; [auto|rewrite X; reflexivity|rewrite X; discriminate|rewrite X; discriminate].
    + exfalso. apply NC. auto.
  - left. apply FF; [discriminate|]. intros i I. cbn [align_text].
    apply (c12_made json d p hv cells i n); auto; [constructor; auto].
Qed.
Lemma markers_ready : ready p n n_missing_value (fun _ => VList (se_markers se)).
Proof.
  left. pose proof (cq_once _ _ _ _ _ _ _ RQ) as ND. apply fixed_repeat.
  destruct the_build as (b & f0 & th & tmv & alv & ctxv & comps & hs & d6 & d8 & d9 & m0 & E & EP & B).
  rewrite EP, params_of_get by (apply text_in_In; reflexivity). rewrite (b_missing_value B ND).
  rewrite (bt_d6 _ _ _ _ _ _ _ _ _ _ _ _ _ B).
  change (match defaulted n_missing_value (dgetN (pname "missing_value") d) with
   | VList (VList x :: l) => VList (VList x :: l) | VList l => VList (repeat (VList l) (S m0)) | v => VList (repeat (VList [v]) (S m0)) end = VList (repeat (VList (se_markers se)) n)).
  rewrite E. destruct (cq_markers _ _ _ _ _ _ _ RQ) as [v G NN NL|l G NX|G].
  - rewrite (dgetN_some _ _ _ G). destruct v; try reflexivity; [congruence|]. exfalso. apply NL. eexists; reflexivity.
  - rewrite (dgetN_some _ _ _ G). cbn [defaulted is_none]. destruct l as [|[] l]; try reflexivity. exfalso. eapply NX; reflexivity.
  - rewrite (not_given_falsy _ _ G). reflexivity.
Qed.
Lemma aligned_ready : ready p n n_time_alignment (fun _ => VInt 0).
Proof.
  left. destruct (cq_aligned _ _ _ _ _ _ _ RQ) as [G|[G _]].
  - apply given_from; auto; [apply text_in_In; reflexivity|discriminate].
  - pose proof (cq_once _ _ _ _ _ _ _ RQ) as ND. apply fixed_repeat.
    destruct the_build as (b & f0 & th & tmv & alv & ctxv & comps & hs & d6 & d8 & d9 & m0 & E & EP & B).
    rewrite EP, params_of_get by (apply text_in_In; reflexivity).
    assert (E8 : dgetN n_time_alignment d8 = VInt 0).
    { rewrite (bt_d8 _ _ _ _ _ _ _ _ _ _ _ _ _ B), (bt_d6 _ _ _ _ _ _ _ _ _ _ _ _ _ B). 
      change n_time_alignment with (pname "time_alignment"). rewrite (not_given_falsy _ _ G). reflexivity. }
    erewrite (b_gen B ND n_time_alignment); [| |discriminate|discriminate|reflexivity|left; congruence|congruence]; [rewrite E8, E; reflexivity|].
    apply (bt_keys8 _ _ _ _ _ _ _ _ _ _ _ _ _ B). left. apply (bt_ta6 _ _ _ _ _ _ _ _ _ _ _ _ _ B).
Qed.
Lemma names_apart (ts : list text) cs : names_cells ts cs -> NoDup cs -> (2 <= List.length cs)%nat -> is_repeated (VList (map VStr ts)) = false.
Proof.
  intros N ND L. destruct N as [|t1 c1 ts cs H1 N]; [cbn in L; lia|]. destruct N as [|t2 c2 ts cs H2 N]; [cbn in L; lia|].
  cbn [map is_repeated forallb]. replace (py_eq (VStr t2) (VStr t1)) with false; [rewrite andb_false_r; reflexivity|].
  symmetry. cbn [py_eq]. apply text_eqb_neq. intros ->. apply cell_named_iff in H1, H2. rewrite H1 in H2. inversion H2 as [[X Y]].
  inversion ND as [|? ? NI _]; subst. apply NI. left. rewrite (surjective_pairing c1), (surjective_pairing c2). congruence.
Qed.
Lemma columns_guessed (ts : list text) k : names_cells ts times -> List.length cells = k ->
  (List.length times <> List.length cells \/ row_run times \/ column_run times) ->
  guess_time_multicolumn (VList (map VStr ts)) (Some k) = Ok (VBool true).
Proof.
  intros N K G. destruct RQ as [_ _ _ _ _ _ _ _ _ _ _ _ _ _ _ _ _ [L ND]].
  unfold guess_time_multicolumn. rewrite (names_apart ts times N ND L). cbn [bind]. rewrite map_length.
  pose proof (names_len _ _ N) as LN. destruct (Nat.eqb (List.length ts) k) eqn:E; cbn [negb]; [|reflexivity].
  apply Nat.eqb_eq in E. destruct G as [G|G]; [lia|].
  assert (M : as_texts (VList (map VStr ts)) = Ok ts).
  { clear. cbn [as_texts]. induction ts as [|x l IH]; auto. cbn [map mapM as_text bind]. rewrite IH. auto. }
  rewrite M. cbn [bind]. rewrite (consecutive_complete ts times N G). reflexivity.
Qed.
Lemma time_fixed : exists ts, names_cells ts times /\ fixed p n n_time_multicolumn (fun _ => VBool true) /\
  fixed p n n_time_header (fun _ => VList (map VStr ts)).
Proof.
  pose proof (cq_once _ _ _ _ _ _ _ RQ) as ND. pose proof columns_guessed as CG. pose proof n_pos as NP.
  pose proof fixed_from as FF. pose proof (request_count p H) as CN. fold n in CN.
  destruct the_build as (b & f0 & th & tmv & alv & ctxv & comps & hs & d6 & d8 & d9 & m0 & E & EP & B).
  destruct RQ as [r1 r2 [hv [r3 [r3' r3'']]] [tv [r4 r4']] r5 [u [r6 r6']] r7 r8 r9 r10 r11 r12 r13 r14 r15 r16 r17 [r18 r19]].
  destruct (value_unpack _ _ r4') as [ts [U N]]. pose proof (bt_time _ _ _ _ _ _ _ _ _ _ _ _ _ B) as UT.
  change n_time_header with (pname "time_header_coord") in UT. rewrite (dgetN_some _ _ _ r4), U in UT. inversion UT; subst th. clear UT.
  exists ts. split; auto. pose proof (names_len _ _ N) as LN.
  assert (TM : tmv = VBool true \/ tmv = VList [VBool true]).
  { pose proof (bt_tm _ _ _ _ _ _ _ _ _ _ _ _ _ B) as A. change n_time_multicolumn with (pname "time_multicolumn") in A.
    destruct r15 as [[_ [G|G]]|[[G|G] C]].
    - rewrite (dgetN_some _ _ _ G) in A. auto.
    - rewrite (dgetN_some _ _ _ G) in A. auto.
    - rewrite (not_given_falsy _ _ G) in A. cbn [truthy] in A. rewrite (CG ts (S m0)) in A; auto. left. congruence.
    - rewrite (dgetN_some _ _ _ G) in A. cbn [truthy] in A. rewrite (CG ts (S m0)) in A; auto. left. congruence. }
  assert (E8 : dgetN n_time_multicolumn d8 = tmv) by (rewrite (bt_d8 _ _ _ _ _ _ _ _ _ _ _ _ _ B); reflexivity).
  assert (K8 : In n_time_multicolumn (map fst d8)).
  { destruct r15 as [[_ [G|G]]|[[G|G] C]]; try (apply (b_in8 B); eapply dget_has; exact G).
    apply (bt_keys8 _ _ _ _ _ _ _ _ _ _ _ _ _ B). right. left. split; auto.
    change n_time_multicolumn with (pname "time_multicolumn"). rewrite (not_given_falsy _ _ G). auto. }
  split.
  - apply fixed_repeat. rewrite EP, params_of_get by (apply text_in_In; reflexivity).
    erewrite (b_gen B ND n_time_multicolumn); [|exact K8|discriminate|discriminate|reflexivity|left|]; rewrite E8, ?E;
      destruct TM as [-> | ->]; try discriminate; reflexivity.
  - apply fixed_repeat. rewrite EP, params_of_get by (apply text_in_In; reflexivity).
    assert (I8 : In n_time_header (map fst d8)) by (apply (b_in8 B); eapply dget_has; exact r4).
    destruct (built_d9 _ _ _ _ _ _ _ _ _ _ _ _ _ B ND) as [D _]. destruct (D _ I8) as [vv [V1 [V2 V3]]].
    assert (H8 : dgetN n_time_header d8 = VList (map VStr ts)).
    { rewrite (bt_d8 _ _ _ _ _ _ _ _ _ _ _ _ _ B), (bt_d6 _ _ _ _ _ _ _ _ _ _ _ _ _ B). reflexivity. }
    assert (T8 : dgetE n_time_multicolumn d8 = Ok tmv).
    { apply dgetE_ok. rewrite (dgetN_in _ _ K8). f_equal. exact E8. }
    rewrite H8 in V2.
    change (apply_to_all n_time_header (VList (map VStr ts)) (Some (S m0)) d8 vv)
      with (apply_to_all_time_header (VList (map VStr ts)) (Some (S m0)) d8 vv) in V2.
    unfold apply_to_all_time_header in V2. rewrite T8 in V2.
    assert (V4 : dgetN n_time_header d9 = VList (repeat (VList (map VStr ts)) (S m0))).
    { destruct ts as [|t ts]; [cbn in LN; lia|]. destruct TM as [-> | ->]; cbn [map py_index nth_error bind is_list truthy negb orb] in V2; inversion V2 as [X]; reflexivity. }
    rewrite (built_value _ _ _ _ _ _ _ _ _ _ _ _ _ B). change (text_in n_time_header OPTIONAL) with false. cbn beta iota. rewrite V4, E. reflexivity.
Qed.
Lemma headers_fixed : exists hs, names_cells hs cells /\ fixed p n n_headers_coord (fun i => VStr (nth i hs [])).
Proof.
  pose proof (cq_once _ _ _ _ _ _ _ RQ) as ND.
  destruct the_build as (b & f0 & th & tmv & alv & ctxv & comps & hs & d6 & d8 & d9 & m0 & E & EP & B).
  destruct RQ as [_ _ [hv [r3 [r3' r3'']]] _ _ _ _ _ _ _ _ _ _ _ _ _ _ _].
  destruct (value_unpack _ _ r3') as [ts [U N]]. pose proof (bt_headers _ _ _ _ _ _ _ _ _ _ _ _ _ B) as P.
  change n_headers_coord with (pname "headers_coord") in P. rewrite (dgetN_some _ _ _ r3) in P. unfold process_headers_coord in P. rewrite U in P. cbn [bind] in P.
  rewrite (separate_plain ts cells N) in P. inversion P; subst hs. exists ts. split; auto. pose proof (names_len _ _ N) as LN.
  assert (E8 : dgetN n_headers_coord d8 = VList (map VStr ts)).
  { rewrite (bt_d8 _ _ _ _ _ _ _ _ _ _ _ _ _ B), (bt_d6 _ _ _ _ _ _ _ _ _ _ _ _ _ B). reflexivity. }
  assert (EQ : dgetN n_headers_coord p = VList (map VStr ts)).
  { rewrite EP, params_of_get by (apply text_in_In; reflexivity).
    erewrite (b_gen B ND n_headers_coord); [| |discriminate|discriminate|reflexivity|left; congruence|].
    - rewrite E8. apply bcast_full. rewrite map_length. unfold n in E. lia.
    - apply (b_in8 B). eapply dget_has. exact r3.
    - rewrite E8. destruct ts; [|discriminate]. cbn in LN. unfold n in E. lia. }
  exists (map VStr ts). split; auto. split; [rewrite map_length; unfold n; lia|]. intros i I. rewrite nth_error_map.
  rewrite (nth_error_nth' ts [] (n := i)) by (unfold n in I; lia). reflexivity.
Qed.

Lemma request_ready : exists hs ts, names_cells hs cells /\ names_cells ts times /\
  forall k, In k PARAM_NAMES -> ready p n k (asked hs ts k).
Proof.
  pose proof (cq_once _ _ _ _ _ _ _ RQ) as ND. pose proof (request_count p H) as C. fold n in C.
  destruct headers_fixed as (hs & NC & HF). pose proof alignment_ready as AR. pose proof markers_ready as MR. pose proof aligned_ready as TR.
  destruct time_fixed as (ts & TN & MU & TF).
  pose proof flag_ready as FR. pose proof left_optional as LO. pose proof given_from as GF.
  assert (NM : ready p n n_series_names (asked hs [] n_series_names)).
  { left. change (asked hs [] n_series_names) with (fun i => match dgetN (pname "series_names") d with VList l => nth i l VNone | _ => VNone end).
    destruct NAMES as [G|(names & E & L)].
    - rewrite (not_given_falsy _ _ G). apply LO; auto. left; reflexivity.
    - rewrite (dgetN_some _ _ _ E). apply fixed_from; [discriminate|]. intros i I.
      destruct (c09_list json d p (pname "series_names") (map VStr names) n i) as (v & V1 & V2); auto; [apply text_in_In; reflexivity|rewrite map_length; auto|].
      rewrite (nth_error_nth _ _ VNone V1). auto. }
  destruct RQ as [r1 r2 [hv [r3 [r3' r3'']]] [tv [r4 r4']] r5 [u [r6 r6']] r7 r8 r9 r10 r11 r12 r13 r14 r15 r16 r17 r18].
  exists hs, ts. split; auto. split; auto.
  intros k K. unfold PARAM_NAMES in K.
  assert (EN : ready p n n_data_ends (asked hs [] n_data_ends)).
  { left. change (asked hs [] n_data_ends) with (fun _ : nat => if is_none (dgetN (pname "data_ends") d) then VNone else VInt m). destruct r7 as [G|G].
    - rewrite (not_given_falsy _ _ G). apply LO; auto. right; left; reflexivity.
    - replace (is_none (dgetN (pname "data_ends") d)) with false by (destruct G as [_ [G|G]]; rewrite (dgetN_some _ _ _ G); reflexivity).
      apply GF; auto; [apply text_in_In; reflexivity|discriminate]. }
  assert (KK : In k [n_alignment; n_series_names; n_headers_coord; n_composed; n_context; n_data_starts; n_data_ends; n_continuity; n_blank_rows; n_missings;
     n_missing_value; n_time_alignment; n_time_multicolumn; n_time_header; n_time_composed; n_frequency]).
  { repeat (destruct K as [<-|K]; [apply text_in_In; reflexivity|]). destruct K. }
  clear K. 
  destruct KK as [<-|KK]; [exact AR|].
  destruct KK as [<-|KK]; [exact NM|].
  destruct KK as [<-|KK]; [left; exact HF|].
  destruct KK as [<-|KK]; [left; apply (LO n_composed); auto; apply text_in_In; reflexivity|].
  destruct KK as [<-|KK]; [left; apply (LO n_context); auto; apply text_in_In; reflexivity|].
  destruct KK as [<-|KK]; [left; apply (GF n_data_starts (VInt z)); auto; [apply text_in_In; reflexivity|discriminate]|].
  destruct KK as [<-|KK]; [exact EN|].
  destruct KK as [<-|KK]; [apply (FR n_continuity); auto; apply text_in_In; reflexivity|].
  destruct KK as [<-|KK]; [apply (FR n_blank_rows); auto; apply text_in_In; reflexivity|].
  destruct KK as [<-|KK]; [apply (FR n_missings); auto; apply text_in_In; reflexivity|].
  destruct KK as [<-|KK]; [exact MR|].
  destruct KK as [<-|KK]; [exact TR|].
  destruct KK as [<-|KK]; [left; exact MU|].
  destruct KK as [<-|KK]; [left; exact TF|].
  destruct KK as [<-|KK]; [apply (FR n_time_composed); auto; apply text_in_In; reflexivity|].
  destruct KK as [<-|KK]; [|destruct KK].
  left. apply fixed_from; [discriminate|]. intros i I. change (asked hs ts n_frequency i) with (VStr (pname f)). rewrite <- r6'.
  apply (c08_value json d p u n i); auto.
Qed.
End Values.
End Request.
