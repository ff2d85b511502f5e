(** Time indexes with a note right below them (C65). *)
From Coq Require Import ZifyBool ZifyNat ZifyN.
From Verif Require Import Base BaseFacts CoordFacts Coord Params Cal CalFacts CalProofs Peg ParseTime TimeIndex SpecCal SpecCoord SpecCoordFacts SpecTime SpecData SpecParse TimeFacts TimeProofs
  TimeProofs2 NumberFacts DataFacts TextProofs ParseFacts ParseFacts2 QuarterProofs MonthProofs YearProofs PoolProofs IndexWalk IndexTexts ComposedProofs TypoProofs SpecColumns ColumnProofs SpecNotes NoteFacts NoteProofs.
Local Open Scope Z_scope.

Lemma noted_lines e w p tl wl s d v m : sp_freq p <> [] ->
  time_lines (sp_al p) (sp_th p) (sp_multi p) = Ok tl -> write_line (sp_al p) (sp_th p) = Ok wl ->
  sp_al p = Vert -> sp_ends p = None -> m < max_row w ->
  (forall q, sp_starts p <= q <= m + 2 -> time_value e (sp_al p) w tl q = Ok (v q)) ->
  (forall q, sp_starts p <= q <= m + 1 -> cell_ok (axis_row (sp_al p) wl q) (axis_col (sp_al p) wl q) = true) ->
  (forall q, sp_starts p <= q <= m -> ~ no_time p (v q) /\
     forall st, cs_last st = before p q (d (q - 1)) -> cs_parser st = before p q s ->
       process_value e p st (v q) (v (q + 1)) = (Some s, Ok (d q, cs_lasts st, cs_lf st))) ->
  ~ no_time p (v (m + 1)) -> is_date (v (m + 1)) = false ->
  (forall st, cs_last st = Some (d m) -> cs_parser st = Some s ->
     exists s' x, process_value e p st (v (m + 1)) (v (m + 2)) = (s', Err x) /\ ends_index x = true) ->
  1 <= sp_starts p <= m -> sp_starts p < m - sp_ta p ->
  exists w', clean_time_index e w p = (w', Ok (m - sp_ta p)) /\
    (forall q, sp_starts p <= q <= m -> holds p w' q (VDate (d q))) /\
    (forall i j, (forall q, sp_starts p <= q <= m -> ~ index_cell p q i j) -> cell w' i j = cell w i j).
Proof.
  intros FN TL WL AL EN MX READS OK READ NTM NDM NOTE S1 L2.
  assert (LP : last_position p w = max_row w) by (unfold last_position; rewrite EN, AL; reflexivity).
  destruct (dates_walk e p tl wl s m (m + 1) w d v) with (n := Z.to_nat (m + 1 - sp_starts p)) (pos := sp_starts p) (prev := @None Z) (st := init_state w)
    as (st & (C0 & C1) & W & D1 & D2); auto; try lia.
  { intros q Q. apply READS. lia. }
  { intros q I. destruct (READ q I) as [NT _]. destruct (must_be_time _ (v q)) eqn:M; auto. apply no_time_iff in M. contradiction. }
  { intros q st I. apply (READ q I). }
  { unfold before. rewrite Z.eqb_refl. auto. }
  { unfold before. rewrite Z.eqb_refl. auto. }
  cbn [cs_ws init_state] in *.
  assert (RDB : readable e p tl wl (cs_ws st) (m + 1) (v (m + 1)) (v (m + 2))).
  { replace (m + 2) with (m + 1 + 1) by lia. apply (here_readable e p tl wl (m + 1) w d v) with (st := st); try lia; auto.
    - intros q Q. apply READS. lia.
    - intros line q Q. apply D2. lia. }
  destruct (NOTE (mkcs (touched p tl wl (cs_ws st) (m + 1)) (cs_parser st) (cs_last st) (cs_count st) (cs_lasts st) (cs_lf st)) C0 C1) as (s' & x & P & X).
  apply (walk_conclude e w p tl wl d m (touched p tl wl (cs_ws st) (m + 1)) (m + 1)); auto; try rewrite LP; try lia.
  - rewrite (zrange_app (sp_starts p) m (max_row w)) by lia. apply W. rewrite zrange_cons by lia.
    eapply wk_note; [exact RDB| |exact P|exact X|auto]. destruct (must_be_time _ (v (m + 1))) eqn:M; auto. apply no_time_iff in M. contradiction.
  - intros q Q. unfold axis_val. rewrite cell_touched. apply D1. auto.
  - intros line q Q. unfold axis_val. rewrite cell_touched. apply D2. lia.
  - intros q Q. replace q with (m + 1) by lia. destruct (is_date (axis_val (sp_al p) w wl (m + 1))) eqn:D; auto. apply is_date_ex in D as [y D].
    assert (TV : time_value e (sp_al p) w tl (m + 1) = Ok (v (m + 1))) by (apply READS; lia).
    assert (RL : reads_line tl wl) by (eapply lines_agree; eauto).
    rewrite (time_value_date _ _ _ _ _ _ _ _ RL TV D) in NDM. discriminate.
Qed.

(** ** What a note gives *)
Definition suits (f : string) (s : strat) : Prop := s <> SSimple /\ text_eqb (T f) (strat_freq s) = true.
Lemma note_ends e p st f v l s n : sp_freq p = T f -> sp_composed p = true -> note_cell e f v ->
  cs_last st = Some l -> real_date l -> dt_y l < 9999 -> (f = "M"%string -> day_one l) -> cs_parser st = Some s -> suits f s ->
  exists s' x, process_value e p st v n = (s', Err x) /\ ends_index x = true.
Proof.
  intros FQ CO (t & u & -> & TR & NT) L RL Y D1 PS [S1 S2].
  assert (ROMAN : forall u, begins letter u -> exists c r, u = c :: r /\ is_letter c = true).
  { intros x (c & r & -> & LC). exists c, r. split; auto. apply letter_iff. auto. }
  assert (SS : forall s', cs_parser st = Some s' -> s' <> SSimple /\ text_eqb (T f) (strat_freq s') = true) by (intros s' Q; rewrite PS in Q; injection Q as <-; auto).
  pose proof TR as TE. apply stripped_iff in TE. cbn in TE. injection TE as TE.
  inversion NT as [u' B F E1 E2|u' B F E1 E2|u' NE ND NM E1 E2|u' NE ND E1 E2]; subst f u'.
  - exists (cs_parser st), EParseImpl. split; [|reflexivity]. apply (unread_ends e p st "Q"%string); auto. intros s' N E. rewrite <- TE.
    destruct (ROMAN u B) as (c & r & EU & LC).
    destruct s'; try discriminate; [eapply quarter1_unread|eapply quarter2_unread|eapply quarter3_unread|eapply quarter4_unread]; eauto.
  - exists (cs_parser st), EParseImpl. split; [|reflexivity]. apply (unread_ends e p st "S"%string); auto. intros s' N E. rewrite <- TE.
    destruct (ROMAN u B) as (c & r & EU & LC). destruct s'; try discriminate; eapply semester_unread; eauto.
  - apply (month_note_ends e p st t u l s); auto. destruct s; try discriminate; auto.
  - exists (cs_parser st), EParseImpl. split; [|reflexivity]. apply (unread_ends e p st "A"%string); auto. intros s' N E. rewrite <- TE.
    apply year_unread; [apply nodigit_iff; auto|]. destruct s'; try discriminate; auto.
Qed.
Lemma note_text_full e f u : note_text e f u -> u <> [].
Proof. intros [t B _|t B _|t N _ _|t N _]; auto; destruct B as (c & r & -> & _); discriminate. Qed.
Lemma trimmed_time p t u : trimmed t u -> u <> [] -> ~ no_time p (VStr t).
Proof. intros TR NE NT. inversion NT as [|t' W E|]; subst. apply stripped_iff in TR. cbn in TR. injection TR as ->. apply strip_blank in W. destruct (strip t); [congruence|discriminate]. Qed.
Lemma note_plain p e f v : note_cell e f v -> ~ no_time p v /\ is_date v = false.
Proof. intros (t & u & -> & TR & NT). split; auto. eapply trimmed_time; eauto. eapply note_text_full; eauto. Qed.

(** ** The styles *)
Lemma style_reads e f R : composed_style e f R -> frequency_letter f /\ exists s, suits f s /\
  forall v l d, R v l d -> (f = "M"%string -> day_one d) /\ (real_last l -> forall n, reads e f s v l n d).
Proof.
  intros [st|st|st|]; (split; [cbn; tauto|]).
  - exists (quarter_strat st). split; [destruct st; split; (discriminate || reflexivity)|]. intros v l d C. split; [discriminate|]. intros RL n. apply quarter_reads; auto.
  - exists (month_strat st). split; [destruct st; split; (discriminate || reflexivity)|]. intros v l d C. split; [|intros RL n; apply month_reads; auto].
    intros _. destruct C as (u & y & m & _ & _ & MO). destruct MO; split; reflexivity.
  - exists (year_strat st). split; [destruct st; split; (discriminate || reflexivity)|]. intros v l d C. split; [discriminate|]. intros RL n. apply year_reads; auto.
  - exists SSemester. split; [split; (discriminate || reflexivity)|]. intros v l d C. split; [discriminate|]. intros RL n. apply semester_reads; auto.
Qed.

(** ** The index *)
Lemma letter_full f : frequency_letter f -> T f <> [].
Proof. intros [<-|[<-|[<-|[<-|[<-|[<-|[]]]]]]]; discriminate. Qed.
Lemma sequence_steps p f d m : sequence p f d m ->
  (forall q, sp_starts p <= q <= m -> real_date (d q) /\ dt_y (d q) < 9999) /\ (forall q, sp_starts p < q <= m -> earlier (d (q - 1)) (d q)) /\
  (sp_missings p = true /\ implicit p = false \/ sp_missings p = false /\ forall q, sp_starts p < q <= m -> increment_time (d (q - 1)) 1 (T f) = Ok (d q)).
Proof.
  intros [RD SQ]. split; auto. assert (PS : forall q, sp_starts p < q <= m -> one_period f (d (q - 1)) (d q) -> increment_time (d (q - 1)) 1 (T f) = Ok (d q)).
  { intros q Q O. apply period_step; auto; apply RD; lia. }
  split.
  - destruct SQ as [(_ & _ & E)|(_ & E)]; auto. intros q Q. apply (increment_earlier (d (q - 1)) 1 (T f)); try lia; [apply RD; lia|auto].
  - destruct SQ as [(E1 & E2 & _)|(E1 & E2)]; [left; split; auto; apply explicit_ok; auto|right; auto].
Qed.
Lemma noted_index e w p f s tl wl d v m : column_above p w f m -> frequency_letter f ->
  time_lines (sp_al p) (sp_th p) (sp_multi p) = Ok tl -> write_line (sp_al p) (sp_th p) = Ok wl ->
  (forall q, sp_starts p <= q <= m + 2 -> time_value e (sp_al p) w tl q = Ok (v q)) ->
  (forall q, sp_starts p <= q <= m + 1 -> cell_ok (axis_row (sp_al p) wl q) (axis_col (sp_al p) wl q) = true) ->
  sequence p f d m ->
  (forall q, sp_starts p <= q <= m -> ~ no_time p (v q) /\
     (real_last (previous p d q) -> parse_with_pool e (mktp (sp_composed p) (T f)) (before p q s) (v q) (previous p d q) (v (q + 1)) = (Some s, Ok (d q)))) ->
  ~ no_time p (v (m + 1)) -> is_date (v (m + 1)) = false ->
  (forall st, cs_last st = Some (d m) -> cs_parser st = Some s ->
     exists s' x, process_value e p st (v (m + 1)) (v (m + 2)) = (s', Err x) /\ ends_index x = true) ->
  cleaned e w p d m.
Proof.
  intros (AL & EN & FQ & S1 & MX & L2) FL TL WL TV OK SQ READ N1 N2 NOTE. destruct (sequence_steps p f d m SQ) as (RD & LT & ST).
  unfold cleaned. apply (noted_lines e w p tl wl s d v m); auto; [rewrite FQ; apply letter_full; auto|].
  intros q Q. destruct (READ q Q) as (NT & _). split; auto. intros st C1 C2. apply (read_step e p f s m v d); auto.
  intros q' Q'. destruct (READ q' Q') as (_ & R). unfold before, previous in *. destruct (q' =? sp_starts p) eqn:B; apply R; intros l E; [discriminate|].
  injection E as <-. apply RD. lia.
Qed.
Lemma one_column_lines e w p m : one_column p -> sp_al p = Vert -> 1 <= sp_starts p -> exists wl, write_line (sp_al p) (sp_th p) = Ok wl /\
  time_lines (sp_al p) (sp_th p) (sp_multi p) = Ok (OneLine wl) /\
  (forall q, sp_starts p <= q <= m + 2 -> time_value e (sp_al p) w (OneLine wl) q = Ok (axis_val (sp_al p) w wl q)) /\
  (forall q, sp_starts p <= q <= m + 1 -> cell_ok (axis_row (sp_al p) wl q) (axis_col (sp_al p) wl q) = true).
Proof.
  intros (OL & t & r & c & TH & CN) A S1. rewrite TH, A. exists c. cbn [write_line]. unfold coord_line. apply cell_named_iff in CN. pose proof (parse_range _ _ _ CN). rewrite CN. cbn [bind fst snd].
  unfold one_line in OL. rewrite OL. cbn [time_lines]. unfold coord_line. rewrite CN. cbn [bind fst snd]. repeat split; auto.
  - intros q Q. cbn [time_value]. unfold axis_read, read, cell_ok, max_column, axis_row, axis_col. replace ((1 <=? q) && ((1 <=? c) && (c <=? 18278))) with true by lia.
    match goal with |- (if ?b then _ else _) = _ => replace b with true by lia end. reflexivity.
  - intros q Q. unfold cell_ok, max_column, axis_row, axis_col. lia.
Qed.
Lemma composed_noted e w p f R d m note : one_column p -> column_above p w f m -> composed_style e f R -> sp_composed p = true -> sequence p f d m ->
  (forall q, sp_starts p <= q <= m -> exists v, holds p w q v /\ ~ no_time p v /\ R v (previous p d q) (d q)) ->
  holds p w (m + 1) note -> note_cell e f note -> cleaned e w p d m.
Proof.
  intros OC CA CS CO SQ H HN NC. pose proof CA as (AL & _ & FQ & S1 & _). destruct (one_column_lines e w p m OC AL ltac:(lia)) as (wl & WL & TL & TV & OK).
  destruct (style_reads e f R CS) as (FL & s & SU & RR). destruct (note_plain p e f note NC) as [N1 N2].
  apply (holds_iff _ _ _ _ _ WL) in HN. pose proof SQ as [RD _].
  apply (noted_index e w p f s (OneLine wl) wl d (axis_val (sp_al p) w wl) m); auto; try congruence.
  - intros q Q. destruct (H q Q) as (v & HV & NT & C). apply (holds_iff _ _ _ _ _ WL) in HV. rewrite HV. split; auto. intros RL. rewrite CO.
    apply (RR v _ _ C); auto. unfold before. destruct (q =? sp_starts p); auto.
  - intros st C1 C2. rewrite HN. destruct (RD m ltac:(lia)). apply (note_ends e p st f note (d m) s); auto.
    intros FM. destruct (H m ltac:(lia)) as (v & _ & _ & C). apply (RR v _ _ C). auto.
Qed.
Lemma columns_noted e w p f R d m note : many_columns p -> column_above p w f m -> composed_style e f R -> sp_composed p = true -> sequence p f d m ->
  (forall q, sp_starts p <= q <= m -> exists v, lines_say p w q v /\ ~ no_time p v /\ R v (previous p d q) (d q)) ->
  lines_say p w (m + 1) note -> note_cell e f note -> no_dates_at p w (m + 2) -> cleaned e w p d m.
Proof.
  intros (MU & h & hs & TH & NM) CA CS CO SQ H HN NC ND. pose proof CA as (AL & _ & FQ & S1 & _).
  destruct (columns_reading e w p h hs MU TH NM) as (ls & wl & TL & WL & OKW & SAYS & PLAIN).
  destruct (style_reads e f R CS) as (FL & s & SU & RR). destruct (note_plain p e f note NC) as [N1 N2]. pose proof SQ as [RD _].
  set (v := fun q => match many_value e (sp_al p) w ls q with Ok x => x | Err _ => VNone end).
  assert (VQ : forall q x, lines_say p w q x -> 1 <= q -> many_value e (sp_al p) w ls q = Ok (v q) /\ v q = x).
  { intros q x L Q. assert (M : many_value e (sp_al p) w ls q = Ok x) by (apply SAYS; auto; congruence). unfold v. rewrite M. auto. }
  destruct (VQ (m + 1) note HN ltac:(lia)) as [VM1 VM2].
  apply (noted_index e w p f s (ManyLines ls) wl d v m); auto; try congruence.
  - intros q Q. cbn [time_value]. destruct (Z_le_gt_dec q m) as [LE|GT].
    + destruct (H q ltac:(lia)) as (x & LX & _). apply (VQ q x); auto. lia.
    + destruct (Z.eq_dec q (m + 1)) as [->|NE]; auto. replace q with (m + 2) by lia. destruct (PLAIN (m + 2) ND ltac:(lia) ltac:(congruence)) as [x X]. unfold v. rewrite X. auto.
  - intros q Q. apply OKW; [lia|congruence].
  - intros q Q. destruct (H q Q) as (x & HV & NT & C). destruct (VQ q x HV ltac:(lia)) as [_ ->]. split; auto. intros RL. rewrite CO.
    apply (RR x _ _ C); auto. unfold before. destruct (q =? sp_starts p); auto.
  - intros st C1 C2. rewrite VM2. destruct (RD m ltac:(lia)). apply (note_ends e p st f note (d m) s); auto.
    intros FM. destruct (H m ltac:(lia)) as (x & _ & _ & C). apply (RR x _ _ C). auto.
Qed.
Lemma dates_noted e w p f d m note : one_column p -> column_above p w f m -> frequency_letter f -> sp_composed p = false -> sequence p f d m ->
  (forall q, sp_starts p <= q <= m -> holds p w q (VDate (d q))) -> dt_d (d m) = 1 -> dt_s (d m) = 0 ->
  holds p w (m + 1) note -> note_below_dates e note -> cleaned e w p d m.
Proof.
  intros OC CA FL CO SQ H D1 D2 HN NC. pose proof CA as (AL & _ & FQ & S1 & _). destruct (one_column_lines e w p m OC AL ltac:(lia)) as (wl & WL & TL & TV & OK).
  apply (holds_iff _ _ _ _ _ WL) in HN. pose proof SQ as [RD _].
  apply (noted_index e w p f SMonth1 (OneLine wl) wl d (axis_val (sp_al p) w wl) m); auto.
  - intros q Q. pose proof (H q Q) as HV. apply (holds_iff _ _ _ _ _ WL) in HV. rewrite HV. split; [intros N; inversion N|]. intros RL. apply simple_pool; auto.
    unfold before. destruct (q =? sp_starts p); auto.
  - rewrite HN. destruct NC as (t & u & -> & TR & _ & (a & b & c & r & E & _) & _). apply (trimmed_time p t u TR). subst u. discriminate.
  - rewrite HN. destruct NC as (t & u & -> & _). reflexivity.
  - intros st C1 C2. rewrite HN. destruct (RD m ltac:(lia)). apply (below_dates_ends e p st f note (d m)); auto. split; auto.
Qed.
