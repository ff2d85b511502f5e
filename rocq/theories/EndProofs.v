(** One attempt on a clean sheet (C38). *)
From Coq Require Import Sorted ZifyBool ZifyNat.
From Verif Require Import Base BaseFacts Cal Coord CoordFacts XlMethods Params ParseTime TimeIndex GetData PeriodRange Attempts DataFrame Scrape
  SpecCal CalFacts CalProofs SpecCoord SpecCoordFacts SpecParams BuildFacts BuildInv ParamsFacts ParamsProofs
  TimeFacts SpecTime SpecData SpecFrames SpecScrape ScrapeFacts TextProofs FrameProofs FrameProofs2 DataProofs ScrapeProofs2 TimeProofs TimeProofs2 SpecEnd RangeExact TimeEnd EndFacts.
Local Open Scope Z_scope.

Lemma nth_error_set_same {A} i (x : A) l : (i < List.length l)%nat -> nth_error (set_nth i x l) i = Some x.
Proof. revert i. induction l as [|y l IH]; intros [|i] H; cbn in *; try lia; auto. apply IH. lia. Qed.
Lemma nth_error_set_other {A} i j (x : A) l : i <> j -> nth_error (set_nth i x l) j = nth_error l j.
Proof. revert i j. induction l as [|y l IH]; intros [|i] [|j] H; cbn; try congruence; auto. Qed.

(** the ends of the first [i] series are known, the others as they were *)
Definition ends_until (p0 p : dict) (n i : nat) (m : Z) : Prop :=
  ends_set p0 p n i m /\ forall j v, (i <= j)%nat -> series_value p0 n_data_ends j v -> series_value p n_data_ends j v.

Lemma end_known p0 p n i m v : ends_until p0 p n i m -> (i < n)%nat -> series_value p0 n_data_ends i v ->
  truthy v = true -> as_int v = Ok m -> ends_until p0 p n (S i) m.
Proof.
  intros [(A & O & E) R] I V T Z. split; [split; [auto|split; auto]|].
  - intros j J. destruct (Nat.eq_dec j i) as [->|N]; [|apply E; lia]. exists v. auto.
  - intros j u J. apply R. lia.
Qed.
Lemma end_new p0 p n i m : ends_until p0 p n i m -> (i < n)%nat -> m <> 0 -> ends_until p0 (set_end p i (VInt m)) n (S i) m.
Proof.
  intros [(A & O & E) R] I NZ. unfold set_end. destruct (A n_data_ends) as [l [L LN]]; [cbn; tauto|]. rewrite L.
  split; [split; [|split]|].
  - intros k K. rewrite dgetN_dset. destruct (text_eqb n_data_ends k) eqn:TE; [|auto].
    eexists. split; [reflexivity|]. rewrite set_nth_length. auto.
  - intros k K. rewrite dgetN_dset. rewrite (proj2 (text_eqb_neq n_data_ends k)) by auto. auto.
  - intros j J. destruct (Nat.eq_dec i j) as [->|N].
    + exists (VInt m). split; [|split; [cbn; lia|reflexivity]]. eexists. rewrite dgetN_dset, text_eqb_refl. split; [reflexivity|].
      apply nth_error_set_same. lia.
    + destruct (E j) as (v & (l' & L' & V1) & V2); [lia|]. exists v. split; auto. rewrite L in L'. inversion L'; subst l'.
      eexists. rewrite dgetN_dset, text_eqb_refl. split; [reflexivity|]. rewrite nth_error_set_other; auto.
  - intros j v J V. destruct (R j v) as (l' & L' & V1); [lia|auto|]. rewrite L in L'. inversion L'; subst l'.
    eexists. rewrite dgetN_dset, text_eqb_refl. split; [reflexivity|]. rewrite nth_error_set_other; auto. lia.
Qed.

(** the end is nothing yet, or [m] *)
Definition open_end (m : Z) (v : pyval) : Prop := truthy v = false \/ truthy v = true /\ as_int v = Ok m.

Lemma clean_rest e w p0 n t m : m <> 0 ->
  (forall j, (j < n)%nat -> series_value p0 n_time_header j (VStr t) /\ exists v, series_value p0 n_data_ends j v /\ open_end m v) ->
  forall k i p, (i + k = n)%nat -> ends_until p0 p n i m ->
  exists p', clean_many e k i [(t, m)] w p = (w, p', Ok tt) /\ ends_until p0 p' n n m.
Proof.
  intros NZ G. induction k as [|k IH]; intros i p I EU.
  - exists p. replace n with i at 2 by lia. auto.
  - cbn [clean_many]. destruct (G i ltac:(lia)) as (TH & v & V & OE).
    pose proof EU as [(A & O & E) R].
    rewrite (value_index p n_time_header i (VStr t)) by (eapply value_other; [|exact TH]; apply O; discriminate).
    cbn [bind as_text find fst]. rewrite text_eqb_refl. cbn [snd].
    rewrite (value_index p n_data_ends i v) by auto. cbn [fst].
    destruct OE as [F|[T Z]].
    + rewrite F. apply IH; [lia|]. apply end_new; auto. lia.
    + rewrite T. apply IH; [lia|]. eapply end_known; eauto. lia.
Qed.

Lemma clean_all e w p n t m s : (0 < n)%nat -> m <> 0 -> all_lists p n ->
  (forall j, (j < n)%nat -> series_value p n_time_header j (VStr t) /\ exists v, series_value p n_data_ends j v /\ open_end m v) ->
  (exists v, series_value p n_time_multicolumn 0 v /\ truthy v = false) ->
  series_sp p 0 = Ok s -> forall w', clean_time_index e w s = (w', Ok m) ->
  exists p', clean_data e w p = (w', p', Ok tt) /\ ends_set p p' n n m.
Proof.
  intros N NZ A G (tm & TM & TF) S0 w' CT. unfold clean_data.
  rewrite (value_index p n_time_multicolumn 0 tm TM), TF.
  destruct (A n_time_header) as [l [L LN]]; [cbn; tauto|]. rewrite L. cbn [py_len]. rewrite LN.
  destruct n as [|n]; [lia|]. cbn [clean_many].
  destruct (G 0%nat ltac:(lia)) as (TH & v & V & OE).
  rewrite (value_index p n_time_header 0 _ TH). cbn [bind as_text find]. rewrite S0, CT. cbn [bind].
  replace (negb (m =? 0)) with true by lia. cbn [assert_ bind]. rewrite (value_index _ _ _ _ V).
  assert (EU : ends_until p p (S n) 0 m). { split; [split; [auto|split; auto; lia]|auto]. }
  destruct OE as [F|[T Z]].
  - rewrite F. destruct (clean_rest e w' p (S n) t m NZ G n 1%nat (set_end p 0 (VInt m))) as (p' & C & E); auto.
    { apply end_new; auto. }
    exists p'. split; auto. apply E.
  - rewrite T. destruct (clean_rest e w' p (S n) t m NZ G n 1%nat p) as (p' & C & E); auto.
    { eapply end_known; eauto. }
    exists p'. split; auto. apply E.
Qed.

(** ** Reading the values *)
Definition same_values (w w' : worksheet) : Prop := forall r c, cell w' r c = cell w r c.
Lemma same_cells_values w w' : same_cells w w' -> same_values w w'.
Proof. intros [H _] r c. symmetry. auto. Qed.
Lemma same_values_trans a b c : same_values a b -> same_values b c -> same_values a c.
Proof. intros A B r k. rewrite B. apply A. Qed.

Lemma stored_same p w w' : same_values w w' -> text_stored p w w'.
Proof.
  intros S. split; [|split].
  - intros. rewrite S. constructor.
  - intros. rewrite S. auto.
  - intros q v. unfold holds. split; intros (r & c & A & B); exists r, c; split; auto; rewrite S in *; auto.
Qed.

Section Values.
Variables (e : env) (w : worksheet) (p : dict) (n : nat) (f t : text) (al : align) (z m line : Z) (pr : prange)
  (h : text * datetime * datetime).
Hypothesis lists : all_lists p n.
Hypothesis prs : forall w', same_values w w' -> series_prs e w' f z line m 0 al = Ok [pr].
Hypothesis hash : pr_hash pr = Ok h.
Hypothesis the_line : coord_line al t = Ok line.
Hypothesis zm : z < m.
Definition ordinary (s : sp) : Prop :=
  sp_al s = al /\ sp_th s = ThStr t /\ sp_starts s = z /\ sp_ends s = Some m /\ sp_ta s = 0 /\ sp_freq s = f /\ sp_multi s = false.
Hypothesis series : forall i, (i < n)%nat -> exists s, series_sp p i = Ok s /\ ordinary s.

Lemma query_ok i : (i < n)%nat -> pr_query p i = Ok (mkprq f z line m 0 al).
Proof using lists the_line zm series.
  clear prs. intros I. destruct (series i I) as (s & S0 & O1 & O2 & O3 & O4 & O5 & O6 & O7).
  apply (fields_sp p n i s lists I) in S0.
  destruct S0 as [[a [a1 a2]] _ _ _ _ [f0 [f1 f2]] [g [g1 g2]] _ _ _ _ [m0 [m1 m2]] _ [q [q1 q2]] _ [t0 [t1 t2]]].
  rewrite O1, O2, O3, O4, O5, O6 in *. unfold pr_query.
  rewrite (value_index _ _ _ _ t1). cbn [bind]. rewrite t2. cbn [bind].
  rewrite (value_index _ _ _ _ f1). cbn [bind]. rewrite f2. cbn [bind].
  rewrite (value_index _ _ _ _ q1). cbn [bind]. rewrite q2. cbn [bind].
  rewrite (value_index _ _ _ _ g1). cbn [bind].
  destruct (truthy g) eqn:TG; [|discriminate]. cbn [assert_ bind].
  destruct (as_int g) as [g'|]; [|discriminate]. cbn [bind] in *. inversion g2; subst g'.
  rewrite (value_index _ _ _ _ m1). cbn [bind]. rewrite m2. cbn [bind].
  rewrite (value_index _ _ _ _ a1). cbn [bind]. rewrite a2. cbn [bind].
  replace (z <? m) with true by lia. cbn [assert_ bind th_single]. rewrite the_line. reflexivity.
Qed.

Lemma init_rest : forall k i w' , (i + k = n)%nat -> same_values w w' ->
  exists w'', init_frames e k i w' p [(h, mkframe pr [] [])] = (w'', Ok [(h, mkframe pr [] [])]) /\ same_values w w''.
Proof.
  induction k as [|k IH]; intros i w' I S; [exists w'; auto|]. cbn [init_frames].
  rewrite query_ok by lia. cbn [q_freq q_starts q_line q_ends q_ta q_al]. rewrite prs by auto.
  cbn [foldM]. unfold add_frame. rewrite hash. cbn [bind frame_has existsb fst].
  rewrite (proj2 (hash_eqb_eq h h) eq_refl). cbn [orb bind].
  apply IH; [lia|]. eapply same_values_trans; [exact S|]. apply same_cells_values. apply touch_prs_same.
Qed.
Lemma init_all : (0 < n)%nat -> exists w'', init_frames e n 0 w p [] = (w'', Ok [(h, mkframe pr [] [])]) /\ same_values w w''.
Proof.
  intros N. assert (S0 : same_values w w) by (intros r c; auto).
  assert (EN : exists k, n = S k) by (exists (n - 1)%nat; lia). destruct EN as [k EN]. rewrite EN. cbn [init_frames].
  rewrite query_ok by lia. cbn [q_freq q_starts q_line q_ends q_ta q_al]. rewrite prs by auto.
  cbn [foldM]. unfold add_frame at 1. rewrite hash. cbn [bind frame_has existsb fst app].
  apply (init_rest k 1%nat); [lia|].
  apply same_cells_values. apply touch_prs_same.
Qed.

Lemma fill_all : forall names data i w' ns cols dat, (i + List.length names = n)%nat -> List.length data = List.length names ->
  same_values w w' -> column_names ns cols ->
  (forall j name vs s, nth_error names j = Some name -> nth_error data j = Some vs -> series_sp p (i + j) = Ok s ->
     find (fun k => dcombo_accepts k s) dcombos <> None /\ forall w2, same_values w w2 -> get_data e w2 s = Ok [(name, vs)]) ->
  exists w'' cols', fill_frames e (List.length names) i w' p [(h, mkframe pr cols dat)] =
    (w'', Ok [(h, mkframe pr cols' (dat ++ data))]) /\ column_names (ns ++ names) cols'.
Proof.
  induction names as [|name names IH]; intros [|vs data] i w' ns cols dat I L SV C G; try discriminate.
  - exists w', cols. rewrite !app_nil_r. auto.
  - cbn [List.length] in *. cbn [fill_frames].
    destruct (series i ltac:(lia)) as (s & S0 & O1 & O2 & O3 & O4 & O5 & O6 & O7). rewrite S0.
    destruct (G 0%nat name vs s eq_refl eq_refl ltac:(rewrite Nat.add_0_r; auto)) as [F D].
    unfold series_into. destruct (find _ dcombos) eqn:FE; [|congruence].
    rewrite D by auto. rewrite O1, O2, O3, O4, O5, O6, O7. cbn [th_single bind]. rewrite the_line. cbn [bind].
    set (w1 := touch_data w' s).
    assert (S1 : same_values w w1) by (eapply same_values_trans; [exact SV|apply same_cells_values, touch_data_same]).
    rewrite prs by auto. cbn [bind combine foldM fst snd]. rewrite hash. cbn [bind put_values].
    rewrite (proj2 (hash_eqb_eq h h) eq_refl). cbn [bind f_pr f_cols f_data].
    destruct (add_name_next name cols) as (col & AN & NX). rewrite AN.
    destruct (IH data (S i) (touch_prs w1 f z line m 0 al) (ns ++ [name]) (cols ++ [col]) (dat ++ [vs])) as (w'' & cols' & R & CN); auto; try lia.
    + eapply same_values_trans; [exact S1|apply same_cells_values, touch_prs_same].
    + constructor; auto.
    + intros j nm v s' N1 N2 S2. apply (G (S j)); auto. replace (i + S j)%nat with (S i + j)%nat by lia. auto.
    + exists w'', cols'. rewrite <- app_assoc in R. cbn [app] in R. rewrite <- app_assoc in CN. cbn [app] in CN. split; auto.
Qed.

Lemma zip_all : zip_len p = Ok n.
Proof using lists t.
  clear prs series.
  unfold zip_len. assert (G : forall k, In k PARAM_NAMES -> py_len (dgetN k p) = Ok n).
  { intros k K. destruct (lists k K) as [l [E L]]. rewrite E. cbn [py_len]. congruence. }
  cbn [mapM]. rewrite !G by (cbn; tauto). cbn [bind hd fold_right]. f_equal. lia.
Qed.

Lemma read_all names data : (0 < n)%nat -> List.length names = n -> List.length data = n ->
  (forall j name vs s, nth_error names j = Some name -> nth_error data j = Some vs -> series_sp p j = Ok s ->
     find (fun k => dcombo_accepts k s) dcombos <> None /\ forall w2, same_values w w2 -> get_data e w2 s = Ok [(name, vs)]) ->
  Forall (fun vs => List.length vs = List.length (pr_dates pr)) data ->
  exists w' cols, get_data_all e w p = (w', Ok [mkdf pr cols data]) /\ column_names names cols.
Proof.
  intros N L1 L2 G F. unfold get_data_all. rewrite zip_all.
  destruct (init_all N) as (w1 & I & S1). rewrite I.
  destruct (lists n_headers_coord) as [l [E L]]; [cbn; tauto|]. rewrite E. cbn [py_len]. rewrite L.
  destruct (fill_all names data 0 w1 [] [] []) as (w2 & cols & FF & CN); auto; try lia; [constructor|].
  rewrite L1 in FF. rewrite FF. cbn [app] in *. exists w2, cols. split; auto. f_equal. cbn [bind mapM snd f_pr f_cols f_data].
  assert (M : make_df pr cols data = Ok (mkdf pr cols data)).
  { unfold make_df. pose proof (column_names_length _ _ CN) as CL.
    replace (negb (Nat.eqb (List.length cols) 0)) with true by lia.
    replace (Nat.eqb (List.length cols) (List.length data)) with true by lia.
    rewrite (proj2 (forallb_forall _ _)); auto. rewrite Forall_forall in F. intros x Hx. apply Nat.eqb_eq. auto. }
  unfold build_df. rewrite M. destruct (text_eqb (pr_freq pr) (T "D")); reflexivity.
Qed.
End Values.
