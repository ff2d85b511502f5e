(** Proofs for C85: the call. *)
From Coq Require Import Sorted ZifyBool ZifyNat.
From Verif Require Import Base BaseFacts Cal Coord CoordFacts XlMethods Params ParamsFacts ParseTime TimeIndex GetData PeriodRange Attempts DataFrame Scrape Xlseries Session TimeFacts TimeProofs
  SpecCoord SpecCoordFacts SpecParams SpecFrames FrameProofs FrameProofs2 SpecScrape ScrapeFacts ScrapeProofs ScrapeProofs2 SpecEnd SpecReach ReachProofs ReachProofs2 ReachProofs3
  ScrapeProofs SpecSelect SelectProofs SelectProofs2 SelectProofs3 SelectProofs4 CycleClean SpecAgain AgainProofs.
Local Open Scope Z_scope.

(** ** Reading the values only looks at cells *)
Lemma into_same e w s fs : same_cells w (fst (series_into e w s fs)).
Proof.
  unfold series_into. destruct (find _ dcombos) as [k|]; [|apply FrameProofs2.same_refl]. destruct (get_data e w s) as [nvs|x]; [|apply FrameProofs2.same_refl]. destruct nvs as [|nv nvs]; [apply FrameProofs2.same_refl|].
  cbv zeta. match goal with |- context [match ?r with Ok _ => _ | Err _ => _ end] => destruct r as [y|x] end; [|apply touch_data_same].
  repeat match goal with |- context [let '(_, _) := ?y in _] => destruct y end.
  eapply FrameProofs2.same_trans; [apply touch_data_same|]. apply touch_prs_same.
Qed.
Lemma fill_same e p : forall n i w fs, same_cells w (fst (fill_frames e n i w p fs)).
Proof.
  induction n as [|n IH]; intros i w fs; cbn [fill_frames]; [apply FrameProofs2.same_refl|]. destruct (series_sp p i) as [s|x]; [|apply FrameProofs2.same_refl].
  pose proof (into_same e w s fs) as S1. destruct (series_into e w s fs) as [w1 r]. cbn [fst] in S1. destruct r as [f1|x]; [|exact S1]. eapply FrameProofs2.same_trans; [exact S1|apply IH].
Qed.
Lemma init_same e p : forall n i w fs, same_cells w (fst (init_frames e n i w p fs)).
Proof.
  induction n as [|n IH]; intros i w fs; cbn [init_frames]; [apply FrameProofs2.same_refl|]. destruct (pr_query p i) as [q|x]; [|apply FrameProofs2.same_refl].
  destruct (series_prs e w _ _ _ _ _ _) as [prs|x]; [|apply FrameProofs2.same_refl]. cbv zeta.
  destruct (foldM add_frame prs fs) as [f1|x]; [|apply touch_prs_same]. eapply FrameProofs2.same_trans; [apply touch_prs_same|apply IH].
Qed.
Lemma all_same e w p : same_cells w (fst (get_data_all e w p)).
Proof.
  unfold get_data_all. destruct (zip_len p) as [n|x]; [|apply FrameProofs2.same_refl]. pose proof (init_same e p n 0 w []) as S1. destruct (init_frames e n 0 w p []) as [w1 r1]. cbn [fst] in S1.
  destruct r1 as [fs|x]; [|exact S1]. destruct (py_len _) as [m|x]; [|exact S1]. pose proof (fill_same e p m 0 w1 fs) as S2. destruct (fill_frames e m 0 w1 p fs) as [w2 r2]. cbn [fst] in *.
  eapply FrameProofs2.same_trans; eauto.
Qed.

(** ** The time index *)
Lemma go e w s w1 z : clean_time_index e w s = (w1, Ok z) -> sp_starts s <= last_position s w /\ exists tl wl, time_lines (sp_al s) (sp_th s) (sp_multi s) = Ok tl /\ write_line (sp_al s) (sp_th s) = Ok wl /\
  clean_loop e s tl wl (zrange (sp_starts s) (last_position s w)) None (init_state w) = (w1, Ok z) /\
  forall v, sp_starts s <= last_position s v -> clean_time_index e v s = clean_loop e s tl wl (zrange (sp_starts s) (last_position s v)) None (init_state v).
Proof.
  intros H. destruct (clean_split _ _ _ _ _ H) as [[_ [x X]]|(L & tl & wl & TL & WL & C)]; [discriminate|]. split; auto. exists tl, wl. repeat (split; [auto; fail|]).
  intros v LV. unfold clean_time_index in *. destruct (find _ combos) as [k|]; [|discriminate]. destruct (k_multitable k); [discriminate|]. unfold clean_single_table.
  destruct (zrange (sp_starts s) (last_position s v)) as [|q l] eqn:Z; [rewrite zrange_cons in Z by lia; discriminate|]. rewrite TL, WL. reflexivity.
Qed.
Lemma lastp_zrange a b prev : a <= b -> lastp prev (zrange a b) = Some b.
Proof. intros L. rewrite zrange_snoc by lia. unfold lastp. rewrite fold_left_app. reflexivity. Qed.
Lemma first_read e s wl q l st w1 z : clean_loop e s (OneLine wl) wl (q :: l) None st = (w1, Ok z) -> sp_al s = Vert -> 1 <= q /\ 1 <= wl <= max_column.
Proof.
  intros H A. cbn [clean_loop time_value] in H. unfold axis_read, read in H. rewrite A in H. cbn [axis_row axis_col] in H. unfold cell_ok in H. destruct ((1 <=? q) && (1 <=? wl) && (wl <=? max_column)) eqn:E; [lia|].
  cbn [bind] in H. discriminate.
Qed.

Section Index.
Variables (e : env) (s : sp) (t : text) (w w1 w2 : worksheet) (z : Z).
Hypothesis TH : sp_th s = ThStr t.
Hypothesis MC : sp_multi s = false.
Hypothesis NC : sp_composed s = false.
Hypothesis MV : exists l, sp_mv s = VList l.
Hypothesis AL : sp_al s = Horiz -> sp_ends s <> None.
Hypothesis BW : bounded w.
Hypothesis SC : same_cells w1 w2.
Hypothesis CT : clean_time_index e w s = (w1, Ok z).
Hypothesis AD : all_dated (sp_al s) t (sp_starts s) (sp_ends s) w w2.

Lemma index_again : exists v, clean_time_index e w2 s = (v, Ok z) /\ same_cells w2 v.
Proof.
  destruct (go _ _ _ _ _ CT) as (L & tl & wl & TL & WL & C & GO).
  assert (LP : last_position s w = match sp_ends s with Some z0 => z0 | None => max_row w end).
  { unfold last_position. destruct (sp_ends s) eqn:EN; auto. destruct (sp_al s); auto. exfalso. apply AL; auto. }
  rewrite TH, MC in TL. rewrite TH in WL. cbn [time_lines write_line] in TL, WL. rewrite WL in TL. cbn [bind] in TL. injection TL as <-.
  assert (LG : (max_row w <= max_row w1 /\ max_col w <= max_col w1) /\ last_position s w <= last_position s w2).
  { assert (X : max_row w <= max_row w1 /\ max_col w <= max_col w1) by (pose proof (CycleClean.loop_larger _ _ _ _ _ _ _ _ _ C) as X; exact X).
    destruct SC as (_ & S1 & S2). split; [exact X|]. unfold last_position. destruct (sp_ends s); [lia|]. unfold axis_max. destruct (sp_al s); lia. }
  destruct LG as [LG LL]. rewrite (GO w2) by lia.
  assert (MV' : py_eq (sp_mv s) (str_ "Implicit") = false) by (destruct MV as (l & ->); reflexivity).
  set (last := last_position s w) in *.
  assert (OUT : forall q, last < q -> axis_val (sp_al s) w1 wl q = axis_val (sp_al s) w wl q).
  { intros q Q. rewrite (loop_val e s (OneLine wl) wl _ _ _ _ _ q C); [reflexivity|]. intros I. apply zrange_In in I. lia. }
  rewrite (zrange_app (sp_starts s) last (last_position s w2)) by lia.
  apply (loop_again e s wl NC MV' (last_position s w2) (zrange (sp_starts s) last) (zrange (last + 1) (last_position s w2)) None (init_state w) w1 z w2 None).
  - apply CoordFacts.zrange_sorted.
  - exact C.
  - intros q I. apply zrange_In in I. destruct (AD (axis_row (sp_al s) wl q) (axis_col (sp_al s) wl q) q) as [(d & D)|E].
    + apply (lies_at _ _ _ q WL).
    + rewrite <- LP. exact I.
    + left. exists d. unfold axis_val. rewrite (proj1 SC). exact D.
    + right. cbn [init_state cs_ws]. unfold axis_val. destruct E as [->|(u & -> & U)]; [reflexivity|]. unfold must_be_time. cbn [must_be_time_value]. rewrite U. reflexivity.
  - destruct (sp_ends s) as [en|] eqn:EN.
    + left. unfold last, last_position. rewrite EN. apply zrange_nil. lia.
    + right. assert (V : sp_al s = Vert) by (destruct (sp_al s); auto; exfalso; apply AL; auto). split; auto.
      rewrite zrange_cons in C by lia. destruct (first_read _ _ _ _ _ _ _ _ C V) as [F1 F2]. split; auto. split; auto. intros q Q. rewrite lastp_zrange in Q by lia. injection Q as <-. split; [lia|]. split; auto.
      intros p P. rewrite OUT by lia. unfold axis_val. rewrite V. cbn [axis_row axis_col]. destruct (cell w p wl) eqn:X; auto; exfalso; assert (Y : cell w p wl <> VNone) by congruence; apply BW in Y; cbn in LP; lia.
  - intros r c. symmetry. apply SC.
Qed.
End Index.

(** ** The attempt *)
Lemma many_sheet e t z : forall m i w w' p, (forall j, (i <= j < i + m)%nat -> py_index (dgetN n_time_header p) j = Ok (VStr t)) ->
  clean_many e m i [(t, z)] w' p = (w', snd (fst (clean_many e m i [(t, z)] w p)), snd (clean_many e m i [(t, z)] w p)) /\
  fst (fst (clean_many e m i [(t, z)] w p)) = w.
Proof.
  induction m as [|m IH]; intros i w w' p H; cbn [clean_many]; [split; reflexivity|].
  rewrite (H i) by lia. cbn [bind as_text find fst snd]. rewrite text_eqb_refl. destruct (py_index (dgetN n_data_ends p) i) as [de|x]; [|split; reflexivity].
  assert (K : forall j, (S i <= j < S i + m)%nat -> py_index (dgetN n_time_header (if truthy de then p else set_end p i (VInt z))) j = Ok (VStr t)).
  { intros j J. replace (dgetN n_time_header (if truthy de then p else set_end p i (VInt z))) with (dgetN n_time_header p); [apply H; lia|].
    destruct (truthy de); auto. unfold dgetN. rewrite ScrapeProofs.set_end_but by discriminate. reflexivity. }
  apply IH. exact K.
Qed.

Section Attempt.
Variables (e : env) (n : nat) (p : dict) (al : align) (t : text) (st0 : Z) (en : option Z) (w : worksheet).
Hypothesis N : (0 < n)%nat.
Hypothesis P1 : one_index n p.
Hypothesis PI : plain_index n p al t st0 en.
Hypothesis BW : bounded w.

Lemma p_core_ : core n p.
Proof. destruct P1 as (A & B & C & _). split; auto. Qed.
Lemma at_said k v i : (i < n)%nat -> says_all n p k v -> at_ p i (pname k) = v.
Proof.
  intros I D. unfold at_, says_all in *. rewrite (dgetN_of _ _ _ D). rewrite (nth_indep _ VNone v) by (rewrite repeat_length; auto). apply nth_repeat.
Qed.
Lemma series_plain s : series_sp p 0 = Ok s -> sp_al s = al /\ sp_th s = ThStr t /\ sp_multi s = false /\ sp_composed s = false /\ sp_starts s = st0 /\ sp_ends s = en /\ exists l, sp_mv s = VList l.
Proof.
  intros H. rewrite (sp_at n p 0 p_core_ N) in H. unfold body in H. destruct PI as [A1 A2 A3 A4 A5 A6 [ms A7] [A8 A9]].
  apply (at_said _ _ 0%nat N) in A1, A2, A3, A4, A5, A6, A7.
  change (pname "alignment") with n_alignment in A1. change (pname "time_header_coord") with n_time_header in A2. change (pname "time_multicolumn") with n_time_multicolumn in A3.
  change (pname "time_composed") with n_time_composed in A4. change (pname "data_starts") with n_data_starts in A5. change (pname "data_ends") with n_data_ends in A6. change (pname "missing_value") with n_missing_value in A7.
  assert (X : sp_of (map (fun k => (k, at_ p 0 k)) PARAM_NAMES) =
    do al' <- as_align (at_ p 0 n_alignment); do hc' <- as_text (at_ p 0 n_headers_coord); do ds' <- as_int (at_ p 0 n_data_starts);
    do de' <- (if truthy (at_ p 0 n_data_ends) then do z <- as_int (at_ p 0 n_data_ends); Ok (Some z) else Ok None);
    do ta' <- as_int (at_ p 0 n_time_alignment); do th' <- as_theader (at_ p 0 n_time_header); do fr' <- as_text (at_ p 0 n_frequency);
    Ok (mksp al' (at_ p 0 n_series_names) hc' (at_ p 0 n_composed) (at_ p 0 n_context) ds' de' (truthy (at_ p 0 n_continuity)) (truthy (at_ p 0 n_blank_rows)) (truthy (at_ p 0 n_missings)) (at_ p 0 n_missing_value) ta'
        (truthy (at_ p 0 n_time_multicolumn)) th' (truthy (at_ p 0 n_time_composed)) fr')) by reflexivity.
  rewrite X in H. clear X. rewrite A1, A2, A3, A4, A5, A6, A7 in H.
  assert (E1 : as_align (VStr (pname match al with Vert => "vertical" | Horiz => "horizontal" end)) = Ok al) by (destruct al; reflexivity). rewrite E1 in H.
  assert (E2 : (if truthy match en with Some z => VInt z | None => VNone end then do z <- as_int match en with Some z => VInt z | None => VNone end; Ok (Some z) else Ok None) = Ok en).
  { destruct en as [z0|]; [|reflexivity]. cbn [truthy]. destruct (z0 =? 0) eqn:Z0; [exfalso; apply A8; f_equal; lia|]. reflexivity. }
  rewrite E2 in H. cbn [bind as_int as_theader] in H.
  repeat match type of H with bind _ _ = Ok _ => apply bind_ok in H; destruct H as (? & _ & H) end. injection H as <-.
  cbn. repeat (split; [reflexivity|]). eauto.
Qed.

(** cleaning: the time index once, then the ends of all the series *)
Definition de : pyval := match en with Some z => VInt z | None => VNone end.
Lemma clean_ok w0 w1 q : clean_data e w0 p = (w1, q, Ok tt) ->
  exists s z, series_sp p 0 = Ok s /\ clean_time_index e w0 s = (w1, Ok z) /\ all_ends_given q /\
    forall w' w1', clean_time_index e w' s = (w1', Ok z) -> clean_data e w' p = (w1', q, Ok tt).
Proof.
  destruct PI as [A1 A2 A3 A4 A5 A6 [ms A7] [A8 A9]]. unfold says_all in *.
  change (pname "time_header_coord") with n_time_header in A2. change (pname "time_multicolumn") with n_time_multicolumn in A3. change (pname "data_ends") with n_data_ends in A6. fold de in A6.
  destruct n as [|m] eqn:NE; [lia|]. 
  assert (X : forall w', clean_data e w' p = clean_many e (S m) 0 [] w' p).
  { intros w'. unfold clean_data. rewrite (dgetN_of _ _ _ A3), (dgetN_of _ _ _ A2). cbn [repeat py_index nth_error truthy py_len List.length]. rewrite repeat_length. reflexivity. }
  rewrite X. cbn [clean_many]. rewrite (dgetN_of _ _ _ A2). cbn [py_index repeat nth_error bind as_text find].
  destruct (series_sp p 0) as [s|x] eqn:SS; [|discriminate]. destruct (clean_time_index e w0 s) as [w01 r] eqn:CT.
  destruct r as [z|x]; cbn [bind]; [|discriminate]. destruct (z =? 0) eqn:Z0; cbn [negb assert_ bind]; [discriminate|].
  rewrite (dgetN_of _ _ _ A6). cbn [py_index repeat nth_error]. set (p1 := if truthy de then p else set_end p 0 (VInt z)).
  assert (TH : forall j, (1 <= j < 1 + m)%nat -> py_index (dgetN n_time_header p1) j = Ok (VStr t)).
  { intros j J. replace (dgetN n_time_header p1) with (dgetN n_time_header p).
    - rewrite (dgetN_of _ _ _ A2). cbn [py_index]. rewrite (nth_error_nth' _ (VStr t)) by (rewrite repeat_length; lia). f_equal. apply nth_repeat.
    - unfold p1. destruct (truthy de); auto. unfold dgetN. rewrite ScrapeProofs.set_end_but by discriminate. reflexivity. }
  intros H. destruct (many_sheet e t z m 1 w01 w01 p1 TH) as [_ FW]. assert (w01 = w1) by (rewrite H in FW; cbn [fst] in FW; congruence). subst w01.
  exists s, z. split; auto. split; auto. split.
  - destruct (clean_rest e t z de m 1 w1 p1 (repeat (VStr t) (S m)) (set_nth 0 (if truthy de then de else VInt z) (repeat de (S m)))) as (q' & Q1 & Q2 & Q3).
    + unfold p1. destruct (truthy de); [apply (dgetN_of _ _ _ A2)|]. unfold dgetN. rewrite ScrapeProofs.set_end_but by discriminate. rewrite A2. reflexivity.
    + intros i I. rewrite (nth_error_nth' _ (VStr t)) by (rewrite repeat_length; lia). f_equal. apply nth_repeat.
    + unfold p1. destruct (truthy de); [rewrite (dgetN_of _ _ _ A6); reflexivity|]. unfold set_end. rewrite (dgetN_of _ _ _ A6). unfold dgetN. rewrite dget_dset_same. reflexivity.
    + rewrite set_nth_len, repeat_length. lia.
    + intros i I. rewrite set_nth_later by lia. rewrite (nth_error_nth' _ de) by (rewrite repeat_length; lia). f_equal. apply nth_repeat.
    + rewrite Q1 in H. injection H as <-. split.
      * intros i v (l & L & NV). change (pname "data_ends") with n_data_ends in L. rewrite Q3 in L. injection L as <-.
        assert (V : In v (repeat (if truthy de then de else VInt z) (S m))).
        { apply nth_error_In in NV. cbn [repeat set_nth firstn app] in NV. exact NV. }
        apply repeat_spec in V. subst v. unfold de in *. destruct en as [z0|]; cbn [truthy].
        -- destruct (z0 =? 0) eqn:Y; [exfalso; apply A8; f_equal; lia|]. cbn [negb]. exists z0. split; auto. lia.
        -- exists z. split; auto. lia.
      * intros i v (l & L & NV). change (pname "frequency") with n_frequency in L. destruct P1 as (_ & _ & _ & c & F). exists c.
        unfold dgetN in L. rewrite Q2 in L by discriminate. assert (F' : dget n_frequency p1 = Some (VList (repeat (VStr [c]) (S m)))).
        { unfold p1. destruct (truthy de); [exact F|]. rewrite ScrapeProofs.set_end_but by discriminate. exact F. }
        rewrite F' in L. injection L as <-. apply nth_error_In in NV. change (In v (repeat (VStr [c]) (S m))) in NV. apply repeat_spec in NV. auto.
  - intros w' w1' C'. rewrite X. cbn [clean_many]. rewrite (dgetN_of _ _ _ A2). cbn [py_index repeat nth_error bind as_text find]. rewrite SS, C'. cbn [bind]. rewrite Z0. cbn [negb assert_ bind].
    rewrite (dgetN_of _ _ _ A6). cbn [py_index repeat nth_error]. fold p1. destruct (many_sheet e t z m 1 w1 w1' p1 TH) as [E _]. rewrite E, H. reflexivity.
Qed.

Lemma full_again dfs w2 : attempt_full e w p = (w2, snd (fst (attempt_full e w p)), Ok dfs) -> all_dated al t st0 en w w2 ->
  snd (attempt_full e w2 p) = Ok dfs /\ same_cells w2 (fst (fst (attempt_full e w2 p))).
Proof.
  intros H AD. unfold attempt_full in H. destruct (clean_data e w p) as [[w1 q] r] eqn:CD. destruct r as [[]|x]; [|discriminate].
  destruct (get_data_all e w1 q) as [w2' r2] eqn:GA. cbn [fst snd] in H. injection H as -> ->.
  destruct (clean_ok w w1 q CD) as (s & z & SS & CT & AE & NEXT). destruct (series_plain s SS) as (S1 & S2 & S3 & S4 & S5 & S6 & S7).
  pose proof (all_same e w1 q) as SC. rewrite GA in SC. cbn [fst] in SC.
  destruct (index_again e s t w w1 w2 z) as (v & CV & SV); auto.
  - intros A. rewrite S6. destruct PI as [_ _ _ _ _ _ _ [_ A9]]. apply A9. congruence.
  - rewrite S1, S5, S6. exact AD.
  - unfold attempt_full. rewrite (NEXT w2 v CV).
    assert (AG : agree (counts q) False w1 v).
    { split; [tauto|]. intros r c _. rewrite (proj1 SC), (proj1 SV). reflexivity. }
    pose proof (all_agree q False e (or_intror AE) q w1 v (inside_refl q) AG) as E. rewrite GA in E. cbn [snd] in E.
    pose proof (all_same e v q) as SA. destruct (get_data_all e v q) as [w3 r3]. cbn [fst snd] in *. split; auto. eapply FrameProofs2.same_trans; eauto.
Qed.
End Attempt.

(** ** The call *)
Lemma call_sheet e uni json st wb q safe name i u p : wb_ok st wb -> resolves uni strip (names_of st wb) q name -> first_such (fun i => title (sheet st i) = name) wb i ->
  in_store st u -> object_of json st u p -> is_complete p = Ok true ->
  sheet (fst (get_data_frames e uni json st wb u q safe false)) i = fst (fst (attempt_full e (sheet st i) p)).
Proof.
  intros WB R FS IS O C. rewrite gdf_unfold by auto. cbv zeta.
  destruct (name_chosen_spec uni (names_of st wb) q) as [[m [E R2]]|[NR _]]; [|exfalso; eapply NR; eauto].
  assert (m = name) by (eapply resolves_det; eauto). subst m. rewrite E. change (fst (start st wb false)) with st. change (snd (start st wb false)) with wb.
  destruct (by_name_first st wb name (resolves_In _ _ _ _ _ R)) as (si & Es & Fs). rewrite Es. assert (si = i) by (eapply first_such_det; eauto). subst si.
  assert (LI : (i < List.length (st_sheets st))%nat). { apply sheet_by_name_in in Es as [Is _]. unfold wb_ok in WB. rewrite Forall_forall in WB. auto. }
  assert (G : forall st2 pid, st_sheets st2 = st_sheets st -> (pid < List.length (st_params st2))%nat -> params st2 pid = p ->
    sheet (fst (scrape e safe st2 i pid)) i = fst (fst (attempt_full e (sheet st i) p))).
  { intros st2 pid S1 S2 S3. unfold scrape, attempt_objects. rewrite S3, C. rewrite run_full by (rewrite ?S1; auto). rewrite S3. replace (sheet st2 i) with (sheet st i) by (unfold sheet; rewrite S1; auto).
    destruct (attempt_full e (sheet st i) p) as [[w' p'] r]. cbn [fst]. unfold sheet. cbn [st_sheets]. apply nth_set_same. rewrite S1. auto. }
  destruct O as [inp p M|pid]; cbn [params_obj].
  - rewrite M. cbn [new_params]. match goal with |- context [scrape e safe ?a i ?b] => specialize (G a b) end.
    destruct (scrape e safe _ i _) as [s3 r3]. apply G; cbn [st_sheets st_params]; auto; [rewrite app_length; cbn; lia|]. unfold params. cbn. rewrite app_nth2, Nat.sub_diag by lia. auto.
  - specialize (G st pid). destruct (scrape e safe st i pid) as [s3 r3]. apply G; auto.
Qed.

Lemma c85 e uni json st wb q safe name i u p n al t st0 en x st' wb' q' safe' name' i' u' :
  wb_ok st wb -> resolves uni strip (names_of st wb) q name -> first_such (fun i => title (sheet st i) = name) wb i -> in_store st u -> object_of json st u p ->
  wb_ok st' wb' -> resolves uni strip (names_of st' wb') q' name' -> first_such (fun i => title (sheet st' i) = name') wb' i' -> in_store st' u' -> object_of json st' u' p ->
  (0 < n)%nat -> sixteen p -> one_index n p -> plain_index n p al t st0 en -> bounded (sheet st i) ->
  answered (snd (get_data_frames e uni json st wb u q safe false)) = Ok x ->
  sheet st' i' = sheet (fst (get_data_frames e uni json st wb u q safe false)) i ->
  all_dated al t st0 en (sheet st i) (sheet st' i') ->
  answered (snd (get_data_frames e uni json st' wb' u' q' safe' false)) = Ok x /\
  forall r c, cell (sheet (fst (get_data_frames e uni json st' wb' u' q' safe' false)) i') r c = cell (sheet st' i') r c.
Proof.
  intros WB RES FS IS OB WB' RES' FS' IS' OB' N P16 P1 PI BW H SH AD.
  assert (CO : is_complete p = Ok true) by (apply (complete n); auto; apply core_lists; destruct P1 as (A & B & C & _); split; auto).
  rewrite (call_full e uni json st wb q safe false name i WB RES FS u p IS OB CO) in H.
  rewrite (call_full e uni json st' wb' q' safe' false name' i' WB' RES' FS' u' p IS' OB' CO).
  rewrite (call_sheet e uni json st' wb' q' safe' name' i' u' p) by auto.
  rewrite (call_sheet e uni json st wb q safe name i u p) in SH by auto.
  apply bind_ok in H as (dfs & A & H). injection H as <-.
  destruct (full_again e n p al t st0 en (sheet st i) N P1 PI BW dfs (sheet st' i')) as [B1 B2].
  - rewrite SH. destruct (attempt_full e (sheet st i) p) as [[w2 p2] r]. cbn [fst snd] in *. rewrite A. reflexivity.
  - exact AD.
  - rewrite B1. split; [reflexivity|]. intros r c. symmetry. apply B2.
Qed.
