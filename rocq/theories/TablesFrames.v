(** Proofs of C72: the frames of the series. *)
From Coq Require Import Sorted ZifyBool ZifyNat.
From Verif Require Import Base BaseFacts Cal Coord CoordFacts XlMethods Params ParseTime TimeIndex GetData PeriodRange Attempts DataFrame Scrape Xlseries
  SpecCal CalFacts CalProofs SpecCoord SpecCoordFacts SpecParams BuildFacts BuildInv ParamsFacts ParamsProofs
  TimeFacts SpecTime SpecData DataFacts SpecFrames SpecScrape ScrapeFacts TextProofs FrameProofs FrameProofs2 DataProofs ScrapeProofs2 TimeProofs TimeProofs2
  SpecEnd RangeExact TimeEnd EndFacts EndProofs EndAttempt SpecTables TablesProofs.
Local Open Scope Z_scope.

Definition key : Type := (text * datetime * datetime)%type.
(** ** The frames of a list of pieces *)
Definition hash_of (pr : prange) : key := match pr_hash pr with Ok h => h | Err _ => (pr_freq pr, mkdt 0 0 0 0, mkdt 0 0 0 0) end.
Definition same_key (a b : prange) : bool := hash_eqb (hash_of a) (hash_of b).
Lemma same_key_iff a b : same_key a b = true <-> hash_of a = hash_of b.
Proof. apply hash_eqb_eq. Qed.
Lemma same_key_no a b : same_key a b = false <-> hash_of a <> hash_of b.
Proof. rewrite <- same_key_iff. destruct (same_key a b); intuition congruence. Qed.

Definition of_range (pr : prange) (ps : list piece) : list piece := filter (fun pc => same_key pr (fst pc)) ps.
Definition cols_of (ps : list piece) : list text := fold_left (fun cols (pc : piece) => add_name (fst (snd pc)) cols) ps [].
Definition frame_for (ps : list piece) (pr : prange) : frame := mkframe pr (cols_of (of_range pr ps)) (map (fun pc : piece => snd (snd pc)) (of_range pr ps)).
Definition add_range (l : list prange) (pc : piece) : list prange := if existsb (fun pr => same_key (fst pc) pr) l then l else l ++ [fst pc].
Definition ranges (ps : list piece) : list prange := fold_left add_range ps [].

Lemma ranges_snoc ps pc : ranges (ps ++ [pc]) = add_range (ranges ps) pc.
Proof. unfold ranges. rewrite fold_left_app. reflexivity. Qed.
Lemma in_ranges pr l : existsb (fun x => same_key pr x) l = true <-> In (hash_of pr) (map hash_of l).
Proof.
  rewrite existsb_exists, in_map_iff. split.
  - intros (x & I & K). exists x. split; auto. symmetry. apply same_key_iff. auto.
  - intros (x & K & I). exists x. split; auto. apply same_key_iff. auto.
Qed.
Lemma ranges_nodup ps : NoDup (map hash_of (ranges ps)).
Proof.
  induction ps as [|pc ps IH] using rev_ind; [constructor|]. rewrite ranges_snoc. unfold add_range. destruct (existsb _ _) eqn:E; auto.
  assert (N : ~ In (hash_of (fst pc)) (map hash_of (ranges ps))) by (rewrite <- in_ranges; congruence).
  rewrite map_app. cbn [map]. clear - IH N. induction (ranges ps) as [|x l IHl]; cbn in *; [repeat constructor; auto|].
  inversion IH; subst. constructor; [|apply IHl; auto]. rewrite in_app_iff. cbn. intuition.
Qed.
Lemma ranges_all ps pc : In pc ps -> In (hash_of (fst pc)) (map hash_of (ranges ps)).
Proof.
  induction ps as [|x ps IH] using rev_ind; intros I; [destruct I|]. rewrite ranges_snoc. unfold add_range.
  apply in_app_iff in I as [I|[<-|[]]].
  - destruct (existsb _ _); auto. rewrite map_app, in_app_iff. auto.
  - destruct (existsb _ _) eqn:E; [apply in_ranges; auto|]. rewrite map_app, in_app_iff. cbn. auto.
Qed.
Lemma ranges_from ps pr : In pr (ranges ps) -> exists pc, In pc ps /\ fst pc = pr.
Proof.
  induction ps as [|x ps IH] using rev_ind; intros I; [destruct I|]. rewrite ranges_snoc in I. unfold add_range in I.
  assert (G : In pr (ranges ps) -> exists pc, In pc (ps ++ [x]) /\ fst pc = pr).
  { intros J. destruct (IH J) as (pc & J1 & J2). exists pc. rewrite in_app_iff. auto. }
  destruct (existsb _ _); auto. apply in_app_iff in I as [I|[<-|[]]]; auto. exists x. rewrite in_app_iff. cbn. auto.
Qed.
Lemma of_range_snoc pr ps pc : of_range pr (ps ++ [pc]) = if same_key pr (fst pc) then of_range pr ps ++ [pc] else of_range pr ps.
Proof. unfold of_range. rewrite filter_app. cbn [filter]. destruct (same_key pr (fst pc)); auto using app_nil_r. Qed.
Lemma cols_snoc ps pc : cols_of (ps ++ [pc]) = add_name (fst (snd pc)) (cols_of ps).
Proof. unfold cols_of. rewrite fold_left_app. reflexivity. Qed.
Lemma cols_length ps : List.length (cols_of ps) = List.length ps.
Proof.
  induction ps as [|x ps IH] using rev_ind; auto. rewrite cols_snoc. destruct (add_name_next (fst (snd x)) (cols_of ps)) as (col & -> & _).
  rewrite !app_length. cbn. lia.
Qed.

(** ** Putting the values into the frames *)
Definition keyed (ps : list piece) (prs : list prange) : frames_t := map (fun pr => (hash_of pr, frame_for ps pr)) prs.
Lemma cons_both {A} (x y : A) l l' : x = y -> l = l' -> x :: l = y :: l'.
Proof. congruence. Qed.
Lemma put_piece pc ps : forall prs, NoDup (map hash_of prs) -> In (hash_of (fst pc)) (map hash_of prs) ->
  put_values (hash_of (fst pc)) (fst (snd pc)) (snd (snd pc)) (keyed ps prs) = Ok (keyed (ps ++ [pc]) prs).
Proof.
  induction prs as [|pr prs IH]; intros ND I; [destruct I|]. cbn [keyed map put_values]. inversion ND; subst.
  change (hash_eqb (hash_of (fst pc)) (hash_of pr)) with (same_key (fst pc) pr). destruct (same_key (fst pc) pr) eqn:K.
  - apply same_key_iff in K. f_equal. change (keyed (ps ++ [pc]) (pr :: prs)) with ((hash_of pr, frame_for (ps ++ [pc]) pr) :: keyed (ps ++ [pc]) prs). apply cons_both.
    + f_equal. unfold frame_for. rewrite of_range_snoc. rewrite (proj2 (same_key_iff pr (fst pc))) by auto.
      cbn [f_pr f_cols f_data]. rewrite cols_snoc, map_app. reflexivity.
    + apply map_ext_in. intros x X. f_equal. unfold frame_for. rewrite of_range_snoc.
      rewrite (proj2 (same_key_no x (fst pc))); auto. intros E. match goal with H : ~ In _ _ |- _ => apply H end. rewrite <- K, <- E. apply in_map. auto.
  - destruct I as [I|I]; [apply same_key_no in K; congruence|]. fold (keyed ps prs). rewrite IH by auto. cbn [bind]. f_equal.
    change (keyed (ps ++ [pc]) (pr :: prs)) with ((hash_of pr, frame_for (ps ++ [pc]) pr) :: keyed (ps ++ [pc]) prs). apply cons_both; auto. f_equal.
    unfold frame_for. rewrite of_range_snoc. rewrite (proj2 (same_key_no pr (fst pc))); auto. apply same_key_no in K. congruence.
Qed.

Section Frames.
Variables (e : env) (w : worksheet) (p : dict) (pieces : list piece) (ser : nat -> sp) (line : nat -> Z) (en : nat -> Z).
Let n := List.length pieces.
Hypothesis lists : all_lists p n.
Hypothesis series : forall i, (i < n)%nat -> series_sp p i = Ok (ser i).
Hypothesis header : forall i, (i < n)%nat -> exists t, sp_th (ser i) = ThStr t /\ coord_line (sp_al (ser i)) t = Ok (line i).
Hypothesis ends : forall i, (i < n)%nat -> sp_ends (ser i) = Some (en i) /\ sp_starts (ser i) < en i /\ sp_multi (ser i) = false.
Hypothesis combo : forall i, (i < n)%nat -> find (fun k => dcombo_accepts k (ser i)) dcombos <> None.
Hypothesis prs : forall i pc w', nth_error pieces i = Some pc -> same_values w w' ->
  series_prs e w' (sp_freq (ser i)) (sp_starts (ser i)) (line i) (en i) (sp_ta (ser i)) (sp_al (ser i)) = Ok [fst pc].
Hypothesis reads : forall i pc w', nth_error pieces i = Some pc -> same_values w w' -> get_data e w' (ser i) = Ok [snd pc].
Hypothesis hashes : forall pc, In pc pieces -> exists h, pr_hash (fst pc) = Ok h.
Hypothesis fit : forall pc, In pc pieces -> List.length (snd (snd pc)) = List.length (pr_dates (fst pc)).
Hypothesis exact_ : forall a b, In a pieces -> In b pieces -> hash_of (fst a) = hash_of (fst b) -> fst a = fst b.

Lemma hash_known_of pc : In pc pieces -> pr_hash (fst pc) = Ok (hash_of (fst pc)).
Proof. intros I. destruct (hashes pc I) as [h H]. unfold hash_of. rewrite H. reflexivity. Qed.

Lemma query_one i : (i < n)%nat -> pr_query p i = Ok (mkprq (sp_freq (ser i)) (sp_starts (ser i)) (line i) (en i) (sp_ta (ser i)) (sp_al (ser i))).
Proof.
  intros I. pose proof (series i I) as S0. destruct (header i I) as (t & O2 & LN). destruct (ends i I) as (O4 & ZM & O7).
  clear prs reads hashes fit exact_ combo.
  apply (fields_sp p n i _ lists I) in S0.
  destruct S0 as [[a [a1 a2]] _ _ _ _ [f0 [f1 f2]] [g [g1 g2]] _ _ _ _ [m0 [m1 m2]] _ [q [q1 q2]] _ [t0 [t1 t2]]].
  rewrite O2, O4 in *. unfold pr_query.
  rewrite (value_index _ _ _ _ t1). cbn [bind]. rewrite t2. cbn [bind].
  rewrite (value_index _ _ _ _ f1). cbn [bind]. rewrite f2. cbn [bind].
  rewrite (value_index _ _ _ _ q1). cbn [bind]. rewrite q2. cbn [bind].
  rewrite (value_index _ _ _ _ g1). cbn [bind].
  destruct (truthy g) eqn:TG; [|discriminate]. cbn [assert_ bind].
  destruct (as_int g) as [g'|]; [|discriminate]. cbn [bind] in *. inversion g2; subst g'.
  rewrite (value_index _ _ _ _ m1). cbn [bind]. rewrite m2. cbn [bind].
  rewrite (value_index _ _ _ _ a1). cbn [bind]. rewrite a2. cbn [bind].
  replace (sp_starts (ser i) <? en i) with true by lia. cbn [assert_ bind th_single]. rewrite LN. reflexivity.
Qed.

Definition empty_frames (l : list prange) : frames_t := map (fun pr => (hash_of pr, mkframe pr [] [])) l.
Lemma empty_has h l : frame_has h (empty_frames l) = existsb (fun pr => hash_eqb h (hash_of pr)) l.
Proof. unfold frame_has, empty_frames. induction l as [|x l IH]; cbn; auto. rewrite IH. auto. Qed.
Lemma frames_init : forall k done rest w', pieces = done ++ rest -> List.length rest = k -> same_values w w' ->
  exists w'', init_frames e k (List.length done) w' p (empty_frames (ranges done)) = (w'', Ok (empty_frames (ranges pieces))) /\ same_values w w''.
Proof.
  induction k as [|k IH]; intros done rest w' E L S.
  - destruct rest; [|discriminate]. rewrite app_nil_r in E. rewrite <- E. exists w'. auto.
  - destruct rest as [|pc rest]; [discriminate|]. cbn [init_frames]. cbn in L.
    assert (NT : nth_error pieces (List.length done) = Some pc) by (rewrite E, nth_error_app2, Nat.sub_diag by lia; reflexivity).
    assert (IN : In pc pieces) by (eapply nth_error_In; eauto).
    rewrite query_one by (apply nth_error_Some; congruence). cbn [q_freq q_starts q_line q_ends q_ta q_al].
    rewrite (prs _ pc) by auto. cbn [foldM]. unfold add_frame. rewrite hash_known_of by auto. cbn [bind]. rewrite empty_has.
    match goal with |- context[if ?b then ?x else ?y] => replace (if b then x else y) with (empty_frames (ranges (done ++ [pc]))) end.
    2:{ rewrite ranges_snoc. unfold add_range. change (fun pr => same_key (fst pc) pr) with (fun pr => hash_eqb (hash_of (fst pc)) (hash_of pr)).
        destruct (existsb _ _); auto. unfold empty_frames. rewrite map_app. reflexivity. }
    replace (Datatypes.S (List.length done)) with (List.length (done ++ [pc])) by (rewrite app_length; cbn; lia).
    apply (IH (done ++ [pc]) rest); [rewrite <- app_assoc; auto|lia|]. eapply same_values_trans; [exact S|]. apply same_cells_values, touch_prs_same.
Qed.
Lemma keyed_none l : keyed [] l = empty_frames l.
Proof. reflexivity. Qed.
Lemma frames_fill : forall k done rest w', pieces = done ++ rest -> List.length rest = k -> same_values w w' ->
  exists w'', fill_frames e k (List.length done) w' p (keyed done (ranges pieces)) = (w'', Ok (keyed pieces (ranges pieces))).
Proof.
  induction k as [|k IH]; intros done rest w' E L S.
  - destruct rest; [|discriminate]. rewrite app_nil_r in E. rewrite <- E. exists w'. auto.
  - destruct rest as [|pc rest]; [discriminate|]. cbn [fill_frames]. cbn in L.
    assert (NT : nth_error pieces (List.length done) = Some pc) by (rewrite E, nth_error_app2, Nat.sub_diag by lia; reflexivity).
    assert (IN : In pc pieces) by (eapply nth_error_In; eauto).
    assert (I : (List.length done < n)%nat) by (apply nth_error_Some; congruence).
    rewrite series by auto. unfold series_into. pose proof (combo _ I) as CB. destruct (find _ dcombos); [|congruence].
    rewrite (reads _ pc) by auto. set (s := ser (List.length done)).
    destruct (header _ I) as (t & O2 & LN). destruct (ends _ I) as (O4 & ZM & O7). fold s in O2, LN, O4, O7. rewrite O2, O7. cbn [th_single bind]. rewrite LN, O4. cbn [bind].
    set (w1 := touch_data w' s).
    assert (S1 : same_values w w1) by (eapply same_values_trans; [exact S|apply same_cells_values, touch_data_same]).
    unfold s. rewrite (prs _ pc) by auto. cbn [bind combine foldM fst snd]. rewrite hash_known_of by auto. cbn [bind].
    rewrite put_piece; [|apply ranges_nodup|apply ranges_all; auto]. cbn [bind].
    replace (Datatypes.S (List.length done)) with (List.length (done ++ [pc])) by (rewrite app_length; cbn; lia).
    apply (IH (done ++ [pc]) rest); [rewrite <- app_assoc; auto|lia|]. eapply same_values_trans; [exact S1|apply same_cells_values, touch_prs_same].
Qed.

Definition df_for (ps : list piece) (pr : prange) : df := mkdf pr (cols_of (of_range pr ps)) (map (fun pc : piece => snd (snd pc)) (of_range pr ps)).
Lemma build_for pr : In pr (ranges pieces) -> build_df pr (cols_of (of_range pr pieces)) (map (fun pc : piece => snd (snd pc)) (of_range pr pieces)) = Ok (df_for pieces pr).
Proof.
  intros I. destruct (ranges_from _ _ I) as (pc & IN & <-).
  assert (NE : of_range (fst pc) pieces <> []).
  { intros E. assert (X : In pc (of_range (fst pc) pieces)) by (apply filter_In; split; auto; apply same_key_iff; auto). rewrite E in X. destruct X. }
  assert (M : make_df (fst pc) (cols_of (of_range (fst pc) pieces)) (map (fun pc : piece => snd (snd pc)) (of_range (fst pc) pieces)) = Ok (df_for pieces (fst pc))).
  { unfold make_df. rewrite cols_length, map_length. replace (negb (Nat.eqb (List.length (of_range (fst pc) pieces)) 0)) with true by (destruct (of_range (fst pc) pieces); [congruence|reflexivity]).
    rewrite Nat.eqb_refl. rewrite (proj2 (forallb_forall _ _)); auto. intros x X. apply in_map_iff in X as (y & <- & Y). apply filter_In in Y as [Y K]. apply same_key_iff in K.
    apply Nat.eqb_eq. rewrite (fit y Y). rewrite (exact_ pc y IN Y K). reflexivity. }
  unfold build_df. rewrite M. destruct (text_eqb (pr_freq (fst pc)) (T "D")); reflexivity.
Qed.
Lemma mapM_all {A B} (f : A -> res B) (g : A -> B) l : (forall x, In x l -> f x = Ok (g x)) -> mapM f l = Ok (map g l).
Proof.
  induction l as [|x l IH]; intros H; cbn [mapM map]; auto. rewrite (H x) by (left; auto). cbn [bind]. rewrite IH; [reflexivity|]. intros y Y. apply H. right. auto.
Qed.
Lemma all_read : (0 < n)%nat -> exists w', get_data_all e w p = (w', Ok (map (df_for pieces) (ranges pieces))).
Proof.
  intros N. unfold get_data_all.
  assert (ZL : zip_len p = Ok n).
  { unfold zip_len. assert (G : forall k, In k PARAM_NAMES -> py_len (dgetN k p) = Ok n).
    { intros k K. destruct (lists k K) as [l [E L]]. rewrite E. cbn [py_len]. congruence. }
    cbn [mapM]. rewrite !G by (cbn; tauto). cbn [bind hd fold_right]. f_equal. clear. lia. }
  rewrite ZL. destruct (frames_init n [] pieces w eq_refl eq_refl) as (w1 & I & S1); [intros r c; auto|].
  cbn [List.length] in I. change (empty_frames (ranges [])) with (@nil ((text * datetime * datetime) * frame)) in I. rewrite I.
  destruct (lists n_headers_coord) as [l [E L]]; [cbn; tauto|]. rewrite E. cbn [py_len]. rewrite L.
  destruct (frames_fill n [] pieces w1 eq_refl eq_refl S1) as (w2 & F). rewrite keyed_none in F. cbn [List.length] in F. rewrite F.
  exists w2. cbn [bind]. f_equal. unfold keyed.
  erewrite (mapM_all _ (fun kf => df_for pieces (f_pr (snd kf)))); [rewrite map_map; reflexivity|].
  intros kf K. apply in_map_iff in K as (pr & <- & PR). cbn [snd]. unfold frame_for. cbn [f_pr f_cols f_data]. apply build_for. auto.
Qed.
End Frames.

(** ** The frames are those expected *)
Section Collected.
Variable pn_of : table -> string.
Definition piece_of (tb : table) : piece := (dates_of (pn_of tb) tb, (tb_name tb, tb_values tb)).
Lemma frames_collected : forall tbs, (forall tb, In tb tbs -> pandas_name (tb_freq tb) (pn_of tb)) ->
  (forall a b, In a tbs -> In b tbs -> hash_of (fst (piece_of a)) = hash_of (fst (piece_of b)) -> fst (piece_of a) = fst (piece_of b)) ->
  collected tbs (map (df_for (map piece_of tbs)) (ranges (map piece_of tbs))).
Proof.
  induction tbs as [|tb tbs IH] using rev_ind; intros PN EX; [constructor|]. rewrite map_app. cbn [map]. set (done := map piece_of tbs) in *. set (pc := piece_of tb).
  assert (IH' : collected tbs (map (df_for done) (ranges done))).
  { apply IH; [intros; apply PN|intros; apply EX]; auto; rewrite in_app_iff; auto. }
  assert (DF : forall pr, hash_of pr <> hash_of (fst pc) -> df_for (done ++ [pc]) pr = df_for done pr).
  { intros pr N. unfold df_for. rewrite of_range_snoc. rewrite (proj2 (same_key_no pr (fst pc))); auto. }
  assert (PN' : pandas_name (tb_freq tb) (pn_of tb)) by (apply PN; rewrite in_app_iff; cbn; auto).
  rewrite ranges_snoc. unfold add_range. destruct (existsb _ _) eqn:X.
  - apply in_ranges in X. apply in_map_iff in X as (pr & HP & IP). apply in_split in IP as (l & l' & SP).
    destruct (ranges_from done pr) as (pc' & I1 & I2); [rewrite SP; apply in_elt|]. apply in_map_iff in I1 as (tb' & <- & I1).
    assert (E : pr = dates_of (pn_of tb) tb).
    { rewrite <- I2. apply (EX tb' tb); [rewrite in_app_iff; auto|rewrite in_app_iff; cbn; auto|]. rewrite I2. exact HP. }
    pose proof (ranges_nodup done) as ND. rewrite SP, map_app in ND. cbn [map] in ND. apply NoDup_remove_2 in ND. rewrite in_app_iff in ND.
    rewrite SP, map_app. cbn [map]. rewrite SP, map_app in IH'. cbn [map] in IH'.
    rewrite (map_ext_in (df_for (done ++ [pc])) (df_for done) l).
    2:{ intros x Hx. apply DF. intros Y. apply ND. left. rewrite HP, <- Y. apply in_map. auto. }
    rewrite (map_ext_in (df_for (done ++ [pc])) (df_for done) l').
    2:{ intros x Hx. apply DF. intros Y. apply ND. right. rewrite HP, <- Y. apply in_map. auto. }
    unfold df_for at 2. rewrite of_range_snoc. rewrite (proj2 (same_key_iff pr (fst pc))) by auto. rewrite cols_snoc, map_app. cbn [map].
    destruct (add_name_next (fst (snd pc)) (cols_of (of_range pr done))) as (col & -> & NX). rewrite E. apply cl_more; auto; rewrite <- E; auto.
  - rewrite map_app. cbn [map]. assert (N : ~ In (hash_of (fst pc)) (map hash_of (ranges done))) by (rewrite <- in_ranges; congruence).
    rewrite (map_ext_in (df_for (done ++ [pc])) (df_for done) (ranges done)).
    2:{ intros x Hx. apply DF. intros Y. apply N. rewrite <- Y. apply in_map. auto. }
    assert (O : of_range (fst pc) done = []).
    { destruct (of_range (fst pc) done) as [|y l] eqn:O; auto. exfalso. apply N. assert (Y : In y (of_range (fst pc) done)) by (rewrite O; left; auto).
      apply filter_In in Y as [Y1 Y2]. apply same_key_iff in Y2. rewrite Y2. apply ranges_all. auto. }
    assert (D : df_for (done ++ [pc]) (fst pc) = mkdf (dates_of (pn_of tb) tb) [tb_name tb] [tb_values tb]).
    { unfold df_for. rewrite of_range_snoc, O. rewrite (proj2 (same_key_iff (fst pc) (fst pc))) by auto. cbn [app map]. unfold cols_of. cbn [fold_left].
      destruct (add_name_next (fst (snd pc)) []) as (col & E & (i & I1 & I2 & I3 & I4)). rewrite E. cbn [app].
      assert (i = 1). { destruct (Z.eq_dec i 1) as [|NE]; auto. destruct (I4 1); lia. }
      subst i. rewrite I2. reflexivity. }
    rewrite D. apply cl_new; auto. intros d I. apply in_map_iff in I as (pr & <- & I). cbn [df_for df_index]. intros E. apply N. apply in_map_iff. exists pr. split; auto. rewrite E. reflexivity.
Qed.
End Collected.
