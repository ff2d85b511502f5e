(** One attempt on a table whose index is in several columns (C73). *)
From Coq Require Import Sorted ZifyBool ZifyNat.
From Verif Require Import Base BaseFacts Cal Coord CoordFacts XlMethods Params ParseTime TimeIndex GetData PeriodRange Attempts DataFrame Scrape
  SpecCal CalFacts CalProofs SpecCoord SpecCoordFacts SpecParams BuildFacts BuildInv ParamsFacts ParamsProofs AttemptsFacts AttemptsProofs
  TimeFacts SpecTime SpecData DataFacts SpecFrames SpecScrape ScrapeFacts TextProofs FrameProofs FrameProofs2 DataProofs ScrapeProofs2 TimeProofs TimeProofs2 SpecEnd RangeExact TimeEnd EndFacts EndProofs EndAttempt.
Local Open Scope Z_scope.

(** ** Reading the values, the time header being one cell or the first of several *)
Section Values.
Variables (e : env) (w : worksheet) (p : dict) (n : nat) (f t : text) (al : align) (z m line : Z) (pr : prange)
  (h : text * datetime * datetime).
Hypothesis lists : all_lists p n.
Hypothesis prs : forall w', same_values w w' -> series_prs e w' f z line m 0 al = Ok [pr].
Hypothesis hash : pr_hash pr = Ok h.
Hypothesis the_line : coord_line al t = Ok line.
Definition regular (s : sp) : Prop :=
  sp_al s = al /\ th_single (sp_multi s) (sp_th s) = Ok t /\ sp_starts s = z /\ sp_ends s = Some m /\ sp_ta s = 0 /\ sp_freq s = f.
Hypothesis series : forall i, (i < n)%nat -> exists s, series_sp p i = Ok s /\ regular s.

Hypothesis query_ok : forall i, (i < n)%nat -> pr_query p i = Ok (mkprq f z line m 0 al).

Lemma init_rest : forall k i w' , (i + k = n)%nat -> same_values w w' ->
  exists w'', init_frames e k i w' p [(h, mkframe pr [] [])] = (w'', Ok [(h, mkframe pr [] [])]) /\ same_values w w''.
Proof.
  induction k as [|k IH]; intros i w' I S; [exists w'; auto|]. cbn [init_frames].
  rewrite query_ok by lia. cbn [q_freq q_starts q_line q_ends q_ta q_al]. rewrite prs by auto.
  cbn [foldM]. unfold add_frame. rewrite hash. cbn [bind frame_has existsb fst].
  rewrite (proj2 (hash_eqb_eq h h) eq_refl). cbn [orb bind].
  apply IH; [lia|]. eapply same_values_trans; [exact S|]. apply same_cells_values. apply touch_prs_same.
Qed.
Lemma init_all : (0 < n)%nat -> exists w'', init_frames e n 0 w p [] = (w'', Ok [(h, mkframe pr [] [])]) /\ same_values w w''.
Proof.
  intros N. assert (S0 : same_values w w) by (intros r c; auto).
  assert (EN : exists k, n = S k) by (exists (n - 1)%nat; lia). destruct EN as [k EN]. rewrite EN. cbn [init_frames].
  rewrite query_ok by lia. cbn [q_freq q_starts q_line q_ends q_ta q_al]. rewrite prs by auto.
  cbn [foldM]. unfold add_frame at 1. rewrite hash. cbn [bind frame_has existsb fst app].
  apply (init_rest k 1%nat); [lia|].
  apply same_cells_values. apply touch_prs_same.
Qed.

Lemma fill_all : forall names data i w' ns cols dat, (i + List.length names = n)%nat -> List.length data = List.length names ->
  same_values w w' -> column_names ns cols ->
  (forall j name vs s, nth_error names j = Some name -> nth_error data j = Some vs -> series_sp p (i + j) = Ok s ->
     find (fun k => dcombo_accepts k s) dcombos <> None /\ forall w2, same_values w w2 -> get_data e w2 s = Ok [(name, vs)]) ->
  exists w'' cols', fill_frames e (List.length names) i w' p [(h, mkframe pr cols dat)] =
    (w'', Ok [(h, mkframe pr cols' (dat ++ data))]) /\ column_names (ns ++ names) cols'.
Proof.
  induction names as [|name names IH]; intros [|vs data] i w' ns cols dat I L SV C G; try discriminate.
  - exists w', cols. rewrite !app_nil_r. auto.
  - cbn [List.length] in *. cbn [fill_frames].
    destruct (series i ltac:(lia)) as (s & S0 & O1 & O2 & O3 & O4 & O5 & O6). rewrite S0.
    destruct (G 0%nat name vs s eq_refl eq_refl ltac:(rewrite Nat.add_0_r; auto)) as [F D].
    unfold series_into. destruct (find _ dcombos) eqn:FE; [|congruence].
    rewrite D by auto. rewrite O2, O1, O3, O4, O5, O6. cbn [bind]. rewrite the_line. cbn [bind].
    set (w1 := touch_data w' s).
    assert (S1 : same_values w w1) by (eapply same_values_trans; [exact SV|apply same_cells_values, touch_data_same]).
    rewrite prs by auto. cbn [bind combine foldM fst snd]. rewrite hash. cbn [bind put_values].
    rewrite (proj2 (hash_eqb_eq h h) eq_refl). cbn [bind f_pr f_cols f_data].
    destruct (add_name_next name cols) as (col & AN & NX). rewrite AN.
    destruct (IH data (S i) (touch_prs w1 f z line m 0 al) (ns ++ [name]) (cols ++ [col]) (dat ++ [vs])) as (w'' & cols' & R & CN); auto; try lia.
    + eapply same_values_trans; [exact S1|apply same_cells_values, touch_prs_same].
    + constructor; auto.
    + intros j nm v s' N1 N2 S2. apply (G (S j)); auto. replace (i + S j)%nat with (S i + j)%nat by lia. auto.
    + exists w'', cols'. rewrite <- app_assoc in R. cbn [app] in R. rewrite <- app_assoc in CN. cbn [app] in CN. split; auto.
Qed.

Lemma zip_all : zip_len p = Ok n.
Proof using lists t.
  clear prs series query_ok.
  unfold zip_len. assert (G : forall k, In k PARAM_NAMES -> py_len (dgetN k p) = Ok n).
  { intros k K. destruct (lists k K) as [l [E L]]. rewrite E. cbn [py_len]. congruence. }
  cbn [mapM]. rewrite !G by (cbn; tauto). cbn [bind hd fold_right]. f_equal. lia.
Qed.

Lemma read_all names data : (0 < n)%nat -> List.length names = n -> List.length data = n ->
  (forall j name vs s, nth_error names j = Some name -> nth_error data j = Some vs -> series_sp p j = Ok s ->
     find (fun k => dcombo_accepts k s) dcombos <> None /\ forall w2, same_values w w2 -> get_data e w2 s = Ok [(name, vs)]) ->
  Forall (fun vs => List.length vs = List.length (pr_dates pr)) data ->
  exists w' cols, get_data_all e w p = (w', Ok [mkdf pr cols data]) /\ column_names names cols.
Proof.
  intros N L1 L2 G F. unfold get_data_all. rewrite zip_all.
  destruct (init_all N) as (w1 & I & S1). rewrite I.
  destruct (lists n_headers_coord) as [l [E L]]; [cbn; tauto|]. rewrite E. cbn [py_len]. rewrite L.
  destruct (fill_all names data 0 w1 [] [] []) as (w2 & cols & FF & CN); auto; try lia; [constructor|].
  rewrite L1 in FF. rewrite FF. cbn [app] in *. exists w2, cols. split; auto. f_equal. cbn [bind mapM snd f_pr f_cols f_data].
  assert (M : make_df pr cols data = Ok (mkdf pr cols data)).
  { unfold make_df. pose proof (column_names_length _ _ CN) as CL.
    replace (negb (Nat.eqb (List.length cols) 0)) with true by lia.
    replace (Nat.eqb (List.length cols) (List.length data)) with true by lia.
    rewrite (proj2 (forallb_forall _ _)); auto. rewrite Forall_forall in F. intros x Hx. apply Nat.eqb_eq. auto. }
  unfold build_df. rewrite M. destruct (text_eqb (pr_freq pr) (T "D")); reflexivity.
Qed.
End Values.

(** ** Cleaning *)
Lemma clean_columns e w p n m s w' : (0 < n)%nat -> m <> 0 -> all_lists p n -> series_count p n ->
  (forall j, (j < n)%nat -> exists v, series_value p n_data_ends j v /\ (truthy v = true /\ as_int v = Ok m)) \/
  (exists v, series_value p n_data_ends 0 v /\ truthy v = false) ->
  (exists v, series_value p n_time_multicolumn 0 v /\ truthy v = true) ->
  series_sp p 0 = Ok s -> clean_time_index e w s = (w', Ok m) ->
  exists p', clean_data e w p = (w', p', Ok tt) /\ ends_set p p' n n m.
Proof.
  intros N NZ A C G (tm & TM & TT) S0 CT. unfold clean_data.
  rewrite (value_index p n_time_multicolumn 0 tm TM), TT, S0, CT. destruct G as [G|(v & V & F)].
  - destruct (G 0%nat N) as (v & V & T & _). rewrite (value_index _ _ _ _ V), T. exists p. split; auto.
    split; auto.
  - rewrite (value_index _ _ _ _ V), F. apply num_count in C.
    assert (E : set_item p n_data_ends (VInt m) = (dset n_data_ends (VList (repeat (VInt m) n)) p, Ok tt)).
    { unfold set_item. change (text_eqb n_data_ends n_context) with false. change (text_eqb n_data_ends n_headers_coord) with false. cbn [andb].
      unfold set_general. rewrite C. destruct n; [lia|]. reflexivity. }
    rewrite E. eexists. split; [reflexivity|]. split; [|split].
    + intros k K. rewrite dgetN_dset. destruct (text_eqb n_data_ends k) eqn:TE; [|auto].
      eexists. split; [reflexivity|]. apply repeat_length.
    + intros k K. rewrite dgetN_dset. rewrite (proj2 (text_eqb_neq n_data_ends k)) by auto. auto.
    + intros j J. exists (VInt m). split; [|split; [cbn; lia|reflexivity]]. eexists. rewrite dgetN_dset, text_eqb_refl. split; [reflexivity|].
      apply nth_repeat_some; auto.
Qed.

(** what the series of such a table have in common *)
Definition columns_series (al : align) (ts : list text) (f : text) (z m : Z) (s : sp) : Prop :=
  sp_al s = al /\ sp_th s = ThList ts /\ sp_starts s = z /\ (sp_ends s = None \/ sp_ends s = Some m) /\ sp_ta s = 0 /\
  sp_freq s = f /\ sp_multi s = true /\ not_implicit s.

Section Attempt.
Variables (e : env) (w0 w : worksheet) (p : dict) (n : nat) (al : align) (f : string) (t : text) (ts : list text) (r c z : Z)
  (ds : list datetime) (names : list text) (data : list (list spec_float)).
Let m := z + Z.of_nat (List.length ds) - 1.
Hypothesis freq : periodic f.
Hypothesis cons : consecutive f ds.
Hypothesis real : Forall real_date ds.
Hypothesis start : exists d, hd_error ds = Some d /\ period_start f d.
Hypothesis years : Forall (fun d => 1678 <= dt_y d <= 2261) ds.
Hypothesis two : (2 <= List.length ds)%nat.
Hypothesis named : cell_named t r c.
Hypothesis low : 1 <= z.
Hypothesis high : al = Horiz -> m < 18278.
Hypothesis lists : all_lists p n.
Hypothesis counted : series_count p n.
Hypothesis some : (0 < n)%nat.
Hypothesis closed : (forall i s, (i < n)%nat -> series_sp p i = Ok s -> sp_ends s = None) \/ (forall i s, (i < n)%nat -> series_sp p i = Ok s -> sp_ends s = Some m).
Hypothesis series : forall i, (i < n)%nat -> exists s, series_sp p i = Ok s /\ columns_series al (t :: ts) (T f) z m s.
Hypothesis index : forall s, columns_series al (t :: ts) (T f) z m s -> forall k d, nth_error ds k = Some d -> holds s w (z + Z.of_nat k) (VDate d).
(* the index is cleaned, and the cells left are those of [w] *)
Hypothesis cleans : forall s, series_sp p 0 = Ok s -> exists w', clean_time_index e w0 s = (w', Ok m) /\ same_values w w'.
Hypothesis names_n : List.length names = n.
Hypothesis data_n : List.length data = n.
Hypothesis lengths : Forall (fun vs => List.length vs = List.length ds) data.
Hypothesis values : forall i s name vs, series_sp p i = Ok s -> nth_error names i = Some name -> nth_error data i = Some vs ->
  series_name e w s name /\ (exists hr hc, cell_named (sp_hc s) hr hc) /\ values_read (with_ends s m) w vs.

Lemma m_large : z < m. Proof. unfold m. arith. Qed.

Lemma prs_exact : exists pn, pandas_name f pn /\ forall w' line, coord_line al t = Ok line -> same_values w w' ->
  series_prs e w' (T f) z line m 0 al = Ok [mkpr (T pn) ds].
Proof.
  destruct start as [a [H0 P0]].
  destruct (range_whole f ds a freq cons real H0 P0) as (pn & PN & DR). exists pn. split; [exact PN|]. intros w' line LN S.
  destruct (series 0%nat some) as (s & S0 & O). pose proof O as (O1 & O2 & O3 & _).
  assert (WL : write_line (sp_al s) (sp_th s) = Ok line) by (rewrite O1, O2; exact LN).
  assert (RD : forall q, z <= q <= m -> axis_read al w' line q = Ok (axis_val al w' line q)).
  { intros q Q. destruct (read_in_sheet al t w' line q LN) as [v RV].
    - split; [arith|]. intros A. specialize (high A). arith.
    - rewrite RV. f_equal. symmetry. eapply axis_read_val; eauto. }
  assert (AT : forall k d, nth_error ds k = Some d -> axis_val al w' line (z + Z.of_nat k) = VDate d).
  { intros k d K. pose proof (index s O k d K) as HO. apply (holds_iff _ _ _ _ _ WL) in HO. rewrite <- HO. rewrite O1. unfold axis_val. apply S. }
  assert (TB : forall d, In d ds -> ts_in_bounds d = true).
  { intros d D. rewrite Forall_forall in years. specialize (years d D). cbn beta in years. unfold ts_in_bounds. apply andb_true_iff. split; apply leb_spec; right; unfold earlier; cbn [dt_y dt_m dt_d dt_s]; arith. }
  unfold series_prs.
  assert (FQ : accepts_freq true (T f) = false /\ accepts_freq false (T f) = true).
  { destruct freq as [<-|[<-|[<-|[<-|[<-|[]]]]]]; split; reflexivity. }
  destruct FQ as [-> ->]. unfold single_prs. rewrite !Z.add_0_r.
  pose proof m_large as ML. rewrite !RD by arith. cbn [bind].
  assert (A0 := AT 0%nat a ltac:(destruct ds; auto)). rewrite Z.add_0_r in A0. rewrite A0.
  assert (AM := AT _ _ (last_whole ds a H0)). replace (z + Z.of_nat (List.length ds - 1)) with m in AM by (unfold m; arith).
  rewrite AM. unfold range_of. cbn [to_timestamp]. rewrite TB by (apply (nth_error_In ds 0); destruct ds; auto). cbn [bind].
  rewrite TB by (eapply nth_error_In; apply (last_whole ds a H0)). cbn [bind]. rewrite DR. reflexivity.
Qed.

Lemma series_open i s : (i < n)%nat -> series_sp p i = Ok s -> columns_series al (t :: ts) (T f) z m s.
Proof. intros I E. destruct (series i I) as (s' & E' & O). rewrite E in E'. inversion E'; subst; auto. Qed.

Lemma attempt_cleaned : exists pn cols, pandas_name f pn /\ column_names names cols /\ alone e w0 p = Ok [mkdf (mkpr (T pn) ds) cols data].
Proof.
  destruct prs_exact as (pn & PN & PRS). pose proof m_large as ML.
  destruct (series 0%nat some) as (s0 & S0 & O0). pose proof O0 as (O1 & O2 & O3 & O4 & O5 & O6 & O7 & O9).
  assert (IX := index s0 O0). rewrite <- O3 in IX.
  assert (LINE : exists line, coord_line al t = Ok line).
  { unfold coord_line. pose proof (proj1 (cell_named_iff _ _ _) named) as NM. rewrite NM. cbn [bind]. eexists; reflexivity. }
  destruct LINE as [line LN].
  (* cleaning *)
  destruct (cleans s0 S0) as (w1 & CT & SV1).
  assert (EN : forall j s, (j < n)%nat -> series_sp p j = Ok s -> exists v, series_value p n_data_ends j v /\
    (if truthy v then do z <- as_int v; Ok (Some z) else Ok None) = Ok (sp_ends s)).
  { intros j s J SE. apply (fields_sp p n j s lists J) in SE. destruct SE as [_ _ _ _ _ _ G _ _ _ _ _ _ _ _ _]. exact G. }
  assert (TH : (forall j, (j < n)%nat -> exists v, series_value p n_data_ends j v /\ (truthy v = true /\ as_int v = Ok m)) \/
    (exists v, series_value p n_data_ends 0 v /\ truthy v = false)).
  { destruct closed as [K|K].
    - right. destruct (EN 0%nat s0 some S0) as (v & V1 & V2). exists v. split; auto. rewrite (K 0%nat s0 some S0) in V2.
      destruct (truthy v); auto. destruct (as_int v); discriminate.
    - left. intros j J. destruct (series j J) as (s & SE & _). destruct (EN j s J SE) as (v & V1 & V2). exists v. split; auto. rewrite (K j s J SE) in V2.
      destruct (truthy v); [|discriminate]. split; auto. destruct (as_int v); [|discriminate]. cbn in V2. congruence. }
  assert (TM : exists v, series_value p n_time_multicolumn 0 v /\ truthy v = true).
  { pose proof S0 as F0. apply (fields_sp p n 0 s0 lists some) in F0. destruct F0 as [_ _ _ _ _ _ _ _ _ _ _ _ [v [v1 v2]] _ _ _]. exists v. rewrite O7 in v2. auto. }
  destruct (clean_columns e w0 p n m s0 w1 some ltac:(arith) lists counted TH TM S0 CT) as (p1 & CD & ES).
  (* reading *)
  assert (SE1 : forall i s, (i < n)%nat -> series_sp p i = Ok s -> series_sp p1 i = Ok (with_ends s m)).
  { intros i s I E. eapply fields_ends; eauto. }
  assert (L1 : all_lists p1 n) by apply ES.
  assert (HASH : exists h, pr_hash (mkpr (T pn) ds) = Ok h).
  { destruct start as [a [H0 _]]. apply (hash_known (T pn) ds a H0). }
  destruct HASH as [h HASH].
  assert (MT : truthy (dgetN n_time_multicolumn p1) = true).
  { destruct (L1 n_time_multicolumn) as (l & E & L); [cbn; tauto|]. rewrite E. destruct l; [cbn in L; arith|reflexivity]. }
  assert (QY : forall i, (i < n)%nat -> pr_query p1 i = Ok (mkprq (T f) z line m 0 al)).
  { intros i I. destruct (series i I) as (s & SE & Q1 & Q2 & Q3 & Q4 & Q5 & Q6 & Q7 & Q9). apply (SE1 i s I) in SE.
    apply (fields_sp p1 n i _ L1 I) in SE. unfold with_ends in SE.
    destruct SE as [[a [a1 a2]] _ _ _ _ [f0 [f1 f2]] [g [g1 g2]] _ _ _ _ [m0 [m1 m2]] _ [q [q1 q2]] _ [t0 [t1 t2]]].
    cbn [sp_al sp_starts sp_ends sp_ta sp_th sp_freq] in *. rewrite Q1, Q2, Q3, Q5, Q6 in *. unfold pr_query.
    rewrite (value_index _ _ _ _ t1). cbn [bind]. rewrite t2. cbn [bind].
    rewrite (value_index _ _ _ _ f1). cbn [bind]. rewrite f2. cbn [bind].
    rewrite (value_index _ _ _ _ q1). cbn [bind]. rewrite q2. cbn [bind].
    rewrite (value_index _ _ _ _ g1). cbn [bind].
    destruct (truthy g) eqn:TG; [|discriminate]. cbn [assert_ bind].
    destruct (as_int g) as [g'|]; [|discriminate]. cbn [bind] in *. inversion g2; subst g'.
    rewrite (value_index _ _ _ _ m1). cbn [bind]. rewrite m2. cbn [bind].
    rewrite (value_index _ _ _ _ a1). cbn [bind]. rewrite a2. cbn [bind].
    replace (z <? m) with true by arith. cbn [assert_ bind]. rewrite MT. cbn [th_single bind]. rewrite LN. reflexivity. }
  destruct (read_all e w1 p1 n (T f) t al z m line (mkpr (T pn) ds) h L1) with (names := names) (data := data) as (w2 & cols & GD & CN); auto.
  - intros w' S. apply PRS; auto. eapply same_values_trans; eauto.
  - intros i I. destruct (series i I) as (s & SE & Q). exists (with_ends s m). split; [apply SE1; auto|].
    destruct Q as (Q1 & Q2 & Q3 & Q4 & Q5 & Q6 & Q7 & Q9). repeat split; auto.
    cbn [with_ends sp_multi sp_th]. rewrite Q2, Q7. reflexivity.
  - intros j name vs s N1 N2 SE.
    assert (J : (j < n)%nat) by (rewrite <- names_n; apply nth_error_Some; congruence).
    destruct (series j J) as (s' & SE' & Q). pose proof (SE1 j s' J SE') as SE2. rewrite SE in SE2. inversion SE2; subst s. clear SE2.
    destruct (values j s' name vs SE' N1 N2) as (NM & HC & VR). pose proof Q as (Q1 & Q2 & Q3 & Q4 & Q5 & Q6 & Q7 & Q9).
    assert (LEN : List.length vs = List.length ds) by (eapply (Forall_nth_error _ _ lengths); eauto).
    split.
    + unfold dcombo_accepts, dcombos. cbn [find dk_multifreq dk_cont with_ends sp_freq sp_cont]. rewrite Q6.
      destruct freq as [<-|[<-|[<-|[<-|[<-|[]]]]]]; destruct (sp_cont s'); discriminate.
    + intros w' S. assert (SW : same_values w w') by (eapply same_values_trans; eauto).
      rewrite <- (c53_same_values e w w' (with_ends s' m)).
      * apply c32_accepts; [| | | | |exact VR|].
        -- unfold single_frequency; cbn [with_ends sp_freq]. rewrite Q6. destruct freq as [<-|[<-|[<-|[<-|[<-|[]]]]]]; reflexivity.
        -- exact Q9.
        -- apply name_ends; exact NM.
        -- split; [exact HC|]. cbn [with_ends sp_ends sp_starts sp_al]. intros en q E R. inversion E; subst en. rewrite Q1, Q3 in *. split; [arith|]. intros A. specialize (high A). arith.
        -- intros _. split.
           ++ exists t, r, c. split; auto. right. exists ts. auto.
           ++ cbn [with_ends sp_ends sp_starts sp_al sp_ta]. intros en q E R. inversion E; subst en. rewrite Q1, Q3, Q5 in *. split; [arith|]. intros A. specialize (high A). arith.
        -- intros ->. cbn in LEN. arith.
      * intros MS. destruct (Q9 MS) as (ms & MV & _). exists ms. exact MV.
      * apply stored_same; auto.
  - exists pn, cols. split; auto. split; auto. unfold alone, run_attempt. cbn [sheet params st_sheets st_params nth].
    rewrite CD. rewrite GD. reflexivity.
Qed.
End Attempt.

