(** Proofs of C72 and C73: several tables on one sheet. *)
From Coq Require Import Sorted ZifyBool ZifyNat.
From Verif Require Import Base BaseFacts Cal Coord CoordFacts XlMethods Params ParseTime TimeIndex GetData PeriodRange Attempts DataFrame Scrape Xlseries
  SpecCal CalFacts CalProofs SpecCoord SpecCoordFacts SpecParams BuildFacts BuildInv ParamsFacts ParamsProofs
  TimeFacts SpecTime SpecData DataFacts SpecFrames SpecScrape ScrapeFacts TextProofs FrameProofs FrameProofs2 DataProofs ScrapeProofs2 TimeProofs TimeProofs2
  SpecEnd RangeExact TimeEnd EndFacts EndProofs EndAttempt SpecGaps GapFacts GapCall SpecTables.
Local Open Scope Z_scope.

(** ** Cleaning only adds cells *)
Definition wider (w w' : worksheet) : Prop := max_row w <= max_row w' /\ max_col w <= max_col w'.
Lemma wider_refl w : wider w w. Proof. unfold wider; lia. Qed.
Lemma wider_trans a b c : wider a b -> wider b c -> wider a c. Proof. unfold wider; lia. Qed.
Lemma touch_wider al l q w : wider w (axis_touch al l q w).
Proof. unfold wider, axis_touch, touch; cbn; lia. Qed.
Lemma write_wider al l q v w : wider w (axis_write al l q v w).
Proof. unfold wider, axis_write, write; cbn; lia. Qed.
Lemma time_wider al tl q w : wider w (touch_time al tl q w).
Proof.
  destruct tl as [l|ls]; cbn [touch_time]; [apply touch_wider|]. revert w. induction ls as [|l ls IH]; intros w; cbn [fold_left]; [apply wider_refl|].
  eapply wider_trans; [apply touch_wider|apply IH].
Qed.
Lemma loop_wider e p tl wl : forall l prev st, wider (cs_ws st) (fst (clean_loop e p tl wl l prev st)).
Proof.
  induction l as [|pos rest IH]; intros prev st; cbn [clean_loop].
  - destruct prev; cbn [fst]; apply wider_refl.
  - destruct (do c <- _; _) as [[curr next]|x]; [|apply wider_refl].
    set (w1 := axis_touch _ _ _ _).
    assert (W : wider (cs_ws st) w1) by (unfold w1; eapply wider_trans; [apply time_wider|eapply wider_trans; [apply time_wider|apply touch_wider]]).
    destruct (must_be_time _ curr).
    + destruct (process_value _ _ _ _ _) as [sticky [[[d lasts] lf]|x]].
      * eapply wider_trans; [exact W|]. eapply wider_trans; [apply (write_wider (sp_al p) wl pos (VDate d))|]. apply (IH (Some pos) (mkcs _ _ _ _ _ _)).
      * destruct (_ || _).
        -- eapply wider_trans; [exact W|]. eapply wider_trans; [apply (write_wider (sp_al p) wl pos VNone)|]. apply (IH (Some pos) (mkcs _ _ _ _ _ _)).
        -- destruct (_ && _); exact W.
    + destruct (_ && _); [|exact W]. eapply wider_trans; [exact W|]. apply (IH (Some pos) (mkcs _ _ _ _ _ _)).
Qed.
Lemma clean_wider e w s : wider w (fst (clean_time_index e w s)).
Proof.
  unfold clean_time_index. destruct (find _ combos) as [k|]; [|apply wider_refl]. destruct (k_multitable k); [apply wider_refl|].
  unfold clean_single_table. destruct (zrange _ _) as [|q l]; [apply wider_refl|].
  destruct (time_lines _ _ _) as [tl|x]; [|apply wider_refl]. destruct (write_line _ _) as [wl|x]; [|apply wider_refl].
  apply (loop_wider e s tl wl (q :: l) None (init_state w)).
Qed.

(** ** The index of one table *)
Lemma same_cells_trans a b c : same_cells a b -> same_cells b c -> same_cells a c.
Proof. intros (A1 & A2 & A3) (B1 & B2 & B3). split; [intros; rewrite A1; auto|lia]. Qed.
Lemma same_cells_refl a : same_cells a a. Proof. split; [auto|lia]. Qed.

Section Same.
Variables w w' : worksheet.
Hypothesis C : forall r c, cell w r c = cell w' r c.
Lemma holds_cells p q v : holds p w q v <-> holds p w' q v.
Proof. split; intros (r & c & I & E); exists r, c; split; auto; [rewrite <- C|rewrite C]; auto. Qed.
Lemma date_cells p q : holds_date p w q <-> holds_date p w' q.
Proof. split; intros (d & H); exists d; apply holds_cells; auto. Qed.
Lemma blank_cells p q : blank_at p w q <-> blank_at p w' q.
Proof. split; intros (v & H & N); exists v; split; auto; apply holds_cells; auto. Qed.
Lemma dated_cells p a b : dated p w a b -> dated p w' a b.
Proof.
  intros [A B]. split.
  - intros q Q. destruct (A q Q); [left; apply blank_cells|right; apply date_cells]; auto.
  - intros i j x y I L J X Y. apply (B i j); auto; apply holds_cells; auto.
Qed.
Lemma typos_cells p f a b : no_typos p f w a b -> no_typos p f w' a b.
Proof.
  intros [H|[H S]]; [left; auto|right; split; auto]. intros i j x y I L J X Y N. apply (S i j); auto; try (apply holds_cells; auto).
  intros k K D. apply (N k K). apply date_cells. auto.
Qed.
Lemma runs_cells p a b : short_runs p w a b -> short_runs p w' a b.
Proof.
  intros [[T H]|H]; [left; split; auto|right; intros; apply date_cells; auto].
  intros q A B. destruct (H q A B) as (k & K & D). exists k. split; auto. apply date_cells. auto.
Qed.
Lemma years_cells p a b : before_9999 p w a b -> before_9999 p w' a b.
Proof. intros H q d Q D. apply (H q d Q). apply holds_cells. auto. Qed.
End Same.

Lemma settled_ends s w w' m : same_cells w w' -> settled s w m -> index_ends s w' m.
Proof.
  intros (C & MR & MC) [last E [->|(V & L & B)]|E V L B T|E V L B].
  - exists last. split; [constructor; auto|left; auto].
  - exists last. split; [constructor; auto|right]. split; auto. split; auto. right. intros q Q. apply (blank_cells w w' C). auto.
  - exists (max_row w'). split; [apply lo_rows; auto|]. destruct (Z.eq_dec m (max_row w')) as [|N]; [left; auto|right]. split; auto. split; [lia|].
    left. split; auto. apply (blank_cells w w' C). auto.
  - exists (max_row w'). split; [apply lo_rows; auto|]. destruct (Z.eq_dec m (max_row w')) as [|N]; [left; auto|right]. split; auto. split; [lia|].
    right. intros q Q. apply (blank_cells w w' C). apply B. lia.
Qed.

Lemma orderly_cleaned e s w w' f m : real_dates w -> sp_freq s = T f -> periodic f -> orderly s w f m -> same_cells w w' ->
  exists w'', clean_time_index e w' s = (w'', Ok (m - sp_ta s)) /\ same_cells w w''.
Proof.
  intros R FQ PF [o1 o2 o3 o4 o5 o6 o7 o8 o9 o10] SC. pose proof SC as (C & MR & MC). destruct o1 as (OL & t & r & c & TH & CN). destruct o9 as [L1 L2].
  destruct (accepted_spaced e w' s f t r c m) as (w'' & CT & SV); auto.
  - intros i j d E. apply (R i j). rewrite C. auto.
  - unfold periodic, frequency_letter in *; cbn in *; tauto.
  - apply (date_cells w w' C). auto.
  - apply (runs_cells w w' C). auto.
  - apply (dated_cells w w' C). auto.
  - apply (typos_cells w w' C). auto.
  - apply (years_cells w w' C). auto.
  - eapply settled_ends; eauto.
  - exists w''. split; auto. split; [intros i j; rewrite SV; auto|]. pose proof (clean_wider e w' s) as W. rewrite CT in W. cbn [fst] in W. unfold wider in W. lia.
Qed.

(** ** All the indexes *)
(** the ends of the first [i] series are known, the others as they were *)
Definition ends_known (p0 p : dict) (n i : nat) (en : nat -> Z) : Prop :=
  all_lists p n /\ (forall k, k <> n_data_ends -> dgetN k p = dgetN k p0) /\
  (forall j, (j < i)%nat -> exists v, series_value p n_data_ends j v /\ truthy v = true /\ as_int v = Ok (en j)) /\
  forall j v, (i <= j)%nat -> series_value p0 n_data_ends j v -> series_value p n_data_ends j v.
Lemma known_given p0 p n i en v : ends_known p0 p n i en -> (i < n)%nat -> series_value p0 n_data_ends i v ->
  truthy v = true -> as_int v = Ok (en i) -> ends_known p0 p n (S i) en.
Proof.
  intros (A & O & E & R) I V T Z. split; [auto|split; [auto|split]].
  - intros j J. destruct (Nat.eq_dec j i) as [->|N]; [|apply E; lia]. exists v. auto.
  - intros j u J. apply R. lia.
Qed.
Lemma known_new p0 p n i en : ends_known p0 p n i en -> (i < n)%nat -> en i <> 0 -> ends_known p0 (set_end p i (VInt (en i))) n (S i) en.
Proof.
  intros (A & O & E & R) I NZ. unfold set_end. destruct (A n_data_ends) as [l [L LN]]; [cbn; tauto|]. rewrite L.
  split; [|split; [|split]].
  - intros k K. rewrite dgetN_dset. destruct (text_eqb n_data_ends k) eqn:TE; [|auto].
    eexists. split; [reflexivity|]. rewrite set_nth_length. auto.
  - intros k K. rewrite dgetN_dset. rewrite (proj2 (text_eqb_neq n_data_ends k)) by auto. auto.
  - intros j J. destruct (Nat.eq_dec i j) as [->|N].
    + exists (VInt (en j)). split; [|split; [cbn; lia|reflexivity]]. eexists. rewrite dgetN_dset, text_eqb_refl. split; [reflexivity|].
      apply nth_error_set_same. lia.
    + destruct (E j) as (v & (l' & L' & V1) & V2); [lia|]. exists v. split; auto. rewrite L in L'. inversion L'; subst l'.
      eexists. rewrite dgetN_dset, text_eqb_refl. split; [reflexivity|]. rewrite nth_error_set_other; auto.
  - intros j v J V. destruct (R j v) as (l' & L' & V1); [lia|auto|]. rewrite L in L'. inversion L'; subst l'.
    eexists. rewrite dgetN_dset, text_eqb_refl. split; [reflexivity|]. rewrite nth_error_set_other; auto. lia.
Qed.
Lemma fields_known p p' n i s en : all_lists p n -> (i < n)%nat -> ends_known p p' n n en -> series_sp p i = Ok s ->
  series_sp p' i = Ok (with_ends s (en i)).
Proof.
  intros A I (A' & O & E & _) H. apply (fields_sp p n i s A I) in H. apply (fields_sp p' n i _ A' I).
  assert (G : forall k v, k <> n_data_ends -> series_value p k i v -> series_value p' k i v).
  { intros k v K. apply value_other. auto. }
  destruct H as [[? []] ? [? []] ? ? [? []] ? [? []] [? []] [? []] ? [? []] [? []] [? []] [? []] [? []]].
  constructor; cbn [with_ends sp_al sp_name sp_hc sp_comp sp_ctx sp_starts sp_ends sp_cont sp_blank sp_missings sp_mv sp_ta sp_multi sp_th sp_composed sp_freq];
   try (apply G; [discriminate|assumption]); try (eexists; split; [apply G; [discriminate|eassumption]|assumption]).
  destruct (E i I) as [v [E1 [E2 E3]]]. exists v. split; auto. rewrite E2, E3. reflexivity.
Qed.
(** nothing cleaned so far says anything of series [i] *)
Lemma fields_later p p' n i s k en : all_lists p n -> (i < n)%nat -> (k <= i)%nat -> ends_known p p' n k en -> series_sp p i = Ok s -> series_sp p' i = Ok s.
Proof.
  intros A I K (A' & O & _ & E) H. apply (fields_sp p n i s A I) in H. apply (fields_sp p' n i _ A' I).
  assert (G : forall x v, x <> n_data_ends -> series_value p x i v -> series_value p' x i v).
  { intros x v X. apply value_other. auto. }
  destruct H as [[? []] ? [? []] ? ? [? []] [? []] [? []] [? []] [? []] ? [? []] [? []] [? []] [? []] [? []]].
  constructor; try (apply G; [discriminate|assumption]); try (eexists; split; [apply G; [discriminate|eassumption]|assumption]).
  eexists. split; [apply E; [auto|eassumption]|assumption].
Qed.

Section Clean.
Variables (e : env) (w : worksheet) (p0 : dict) (n : nat) (ser : nat -> sp) (th : nat -> text) (en reach : nat -> Z).
Hypothesis lists : all_lists p0 n.
Hypothesis series : forall i, (i < n)%nat -> series_sp p0 i = Ok (ser i).
Hypothesis headers : forall i, (i < n)%nat -> sp_th (ser i) = ThStr (th i).
Hypothesis plain : forall i, (i < n)%nat -> sp_multi (ser i) = false.
Hypothesis cleans : forall i w', (i < n)%nat -> same_cells w w' -> exists w'', clean_time_index e w' (ser i) = (w'', Ok (reach i)) /\ same_cells w w''.
Hypothesis nonzero : forall i, (i < n)%nat -> reach i <> 0 /\ en i <> 0.
Hypothesis ends : forall i, (i < n)%nat -> sp_ends (ser i) = Some (en i) \/ sp_ends (ser i) = None /\ forall j, (j < n)%nat -> th j = th i -> reach j = en i.

Lemma header_value i : (i < n)%nat -> series_value p0 n_time_header i (VStr (th i)).
Proof.
  intros I. pose proof (series i I) as S0. apply (fields_sp p0 n i _ lists I) in S0.
  destruct S0 as [_ _ _ _ _ _ _ _ _ _ _ _ _ [q [q1 q2]] _ _]. rewrite (headers i I) in q2.
  destruct q; cbn in q2; try discriminate; [inversion q2; subst; auto|]. destruct (mapM as_text l); discriminate.
Qed.
Lemma end_value i : (i < n)%nat -> exists v, series_value p0 n_data_ends i v /\
  (truthy v = true /\ as_int v = Ok (en i) \/ truthy v = false /\ forall j, (j < n)%nat -> th j = th i -> reach j = en i).
Proof.
  intros I. pose proof (series i I) as S0. apply (fields_sp p0 n i _ lists I) in S0.
  destruct S0 as [_ _ _ _ _ _ [g [g1 g2]] _ _ _ _ _ _ _ _ _]. exists g. split; auto.
  destruct (truthy g).
  - left. split; auto. destruct (as_int g) as [g'|]; [|discriminate]. cbn in g2. inversion g2 as [E]. destruct (ends i I) as [H|[H _]]; rewrite <- E in H; congruence.
  - right. split; auto. inversion g2 as [E]. destruct (ends i I) as [H|[_ H]]; auto. rewrite <- E in H. discriminate.
Qed.

Definition seen (i : nat) (l : list (text * Z)) : Prop := forall t z, In (t, z) l -> exists j, (j < i)%nat /\ t = th j /\ z = reach j.
Lemma many_cleaned : forall k i l w' p, (i + k = n)%nat -> same_cells w w' -> ends_known p0 p n i en -> seen i l ->
  exists w'' p', clean_many e k i l w' p = (w'', p', Ok tt) /\ same_cells w w'' /\ ends_known p0 p' n n en.
Proof.
  induction k as [|k IH]; intros i l w' p I SC EK SE.
  - exists w', p. replace n with i at 2 by lia. auto.
  - cbn [clean_many]. assert (IN : (i < n)%nat) by lia.
    pose proof EK as (A & O & E & R).
    rewrite (value_index p n_time_header i (VStr (th i))) by (eapply value_other; [|apply header_value; auto]; apply O; discriminate).
    cbn [bind as_text]. destruct (end_value i IN) as (v & V & OE).
    destruct (find (fun kv => text_eqb (th i) (fst kv)) l) as [[t z]|] eqn:FD.
    + apply find_some in FD as [F1 F2]. cbn [fst] in F2. apply text_eqb_eq in F2. subst t. destruct (SE _ _ F1) as (j & J1 & J2 & ->). cbn [snd].
      rewrite (value_index p n_data_ends i v) by auto.
      assert (SE' : seen (S i) l) by (intros t z T; destruct (SE t z T) as (j' & J' & X); exists j'; split; [lia|auto]).
      destruct OE as [[T Z]|[T Z]]; rewrite T.
      * apply IH; auto; [lia|]. eapply known_given; eauto.
      * rewrite (Z j ltac:(lia) ltac:(auto)). apply IH; auto; [lia|]. apply known_new; auto. apply nonzero; auto.
    + rewrite (fields_later p0 p n i (ser i) i en); auto. destruct (cleans i w' IN SC) as (w1 & CT & SC1). rewrite CT. cbn [bind].
      destruct (nonzero i IN) as [N1 N2]. replace (negb (reach i =? 0)) with true by lia. cbn [assert_ bind].
      rewrite (value_index p n_data_ends i v) by auto.
      assert (SE' : seen (S i) ((th i, reach i) :: l)).
      { intros t z [T|T]; [inversion T; exists i; auto|]. destruct (SE t z T) as (j' & J' & X); exists j'; split; [lia|auto]. }
      destruct OE as [[T Z]|[T Z]]; rewrite T.
      * apply IH; auto; [lia|]. eapply known_given; eauto.
      * rewrite (Z i IN eq_refl). rewrite (Z i IN eq_refl) in SE'. apply IH; auto; [lia|]. apply known_new; auto.
Qed.
Lemma data_cleaned : (0 < n)%nat -> exists w' p', clean_data e w p0 = (w', p', Ok tt) /\ same_cells w w' /\ ends_known p0 p' n n en.
Proof.
  intros N. unfold clean_data.
  assert (TM : exists v, series_value p0 n_time_multicolumn 0 v /\ truthy v = false).
  { pose proof (series 0%nat N) as F0. apply (fields_sp p0 n 0 _ lists N) in F0. destruct F0 as [_ _ _ _ _ _ _ _ _ _ _ _ [v [v1 v2]] _ _ _]. exists v. rewrite (plain 0%nat N) in v2. auto. }
  destruct TM as (tm & TM & TF). rewrite (value_index p0 n_time_multicolumn 0 tm TM), TF.
  destruct (lists n_time_header) as [l [L LN]]; [cbn; tauto|]. rewrite L. cbn [py_len]. rewrite LN.
  apply many_cleaned; auto; [apply same_cells_refl| |intros t z []].
  split; [auto|split; [auto|split; [lia|auto]]].
Qed.
End Clean.
