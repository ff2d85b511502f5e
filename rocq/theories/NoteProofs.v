(** A note right below the last date ends the index (C65). *)
From Coq Require Import ZifyBool ZifyNat ZifyN.
From Verif Require Import Base BaseFacts CoordFacts Coord Params Cal CalFacts CalProofs Peg ParseTime TimeIndex SpecCal SpecCoord SpecCoordFacts SpecTime SpecData SpecParse TimeFacts TimeProofs
  TimeProofs2 NumberFacts DataFacts TextProofs ParseFacts ParseFacts2 QuarterProofs MonthProofs YearProofs PoolProofs IndexWalk IndexTexts ComposedProofs SpecColumns ColumnProofs SpecNotes NoteFacts.
Local Open Scope Z_scope.

(** ** What reading a note gives *)
Lemma unread_accepts e f s t : unread e s (strip t) -> s <> SSimple -> accepts e (mktp true (T f)) s (VStr t) = Ok false.
Proof.
  intros (x & R & _) N. cbn [accepts]. f_equal. unfold accepts_text. destruct s; try congruence; rewrite R; cbn [is_ok]; rewrite andb_false_r; reflexivity.
Qed.
Lemma other_accepts e f s t : text_eqb (T f) (strat_freq s) = false -> s <> SSimple -> accepts e (mktp true (T f)) s (VStr t) = Ok false.
Proof. intros E N. cbn [accepts]. f_equal. unfold accepts_text. destruct s; try congruence; cbn [tp_composed tp_freq]; rewrite E; reflexivity. Qed.
Lemma unread_pool e f t c l n : (forall s, s <> SSimple -> text_eqb (T f) (strat_freq s) = true -> unread e s (strip t)) ->
  (forall s, c = Some s -> s <> SSimple /\ text_eqb (T f) (strat_freq s) = true) ->
  parse_with_pool e (mktp true (T f)) c (VStr t) l n = (c, Err EParseImpl).
Proof.
  intros U S.
  assert (A : forall s, accepts e (mktp true (T f)) s (VStr t) = Ok false).
  { intros s. destruct (text_eqb (T f) (strat_freq s)) eqn:E.
    - destruct s; try (apply unread_accepts; [apply U; [discriminate|auto]|discriminate]). reflexivity.
    - destruct s; try (apply other_accepts; [auto|discriminate]). reflexivity. }
  assert (PL : forall pool, pool_loop e (mktp true (T f)) pool c (VStr t) l n = (c, Err EParseImpl)).
  { induction pool as [|s pool IH]; cbn [pool_loop]; auto. rewrite A. auto. }
  unfold parse_with_pool. rewrite PL. destruct c as [s|]; auto. destruct (S s eq_refl) as [N E]. destruct (U s N E) as (x & R & X1 & X2).
  assert (P : parse_time e (mktp true (T f)) s (VStr t) l n = Err x).
  { destruct s; try congruence; cbn [parse_time parse_value]; unfold peg_parse; rewrite R; reflexivity. }
  rewrite P. destruct x; auto; congruence.
Qed.
(** the last date again *)
Lemma again_ends p st f l (s : option strat) : sp_freq p = T f -> frequency_letter f -> cs_last st = Some l -> real_date l -> dt_y l < 9999 ->
  (s, do d <- Ok l; do x <- correct_state p st d; if same_as_last (fst (fst x)) (cs_last st) && Nat.eqb (List.length (sp_freq p)) 1 then Err ESame else Ok x)
  = (s, Err ESame).
Proof.
  intros FQ FL L R Y. f_equal. cbn [bind]. unfold correct_state. rewrite (letter_single p f FQ FL), L, FQ.
  assert (C : correct_progression (Some l) l (T f) (sp_missings p) (sp_mv p) = Ok l).
  { assert (LL : dt_ltb l l = false). { destruct (dt_ltb l l) eqn:E; auto. apply ltb_earlier in E. destruct (earlier_irrefl l). auto. }
    cbn [correct_progression]. destruct (increment_ok l 1 f) as [x X]; auto; try lia.
    { destruct FL as [<-|[<-|[<-|[<-|[<-|[<-|[]]]]]]]; vm_compute; discriminate. }
    rewrite X. cbn [bind]. rewrite LL. cbn [andb]. assert (E1 : dt_eqb x l = false).
    { destruct (dt_eqb x l) eqn:E; auto. apply dt_eqb_eq in E. subst x. apply increment_earlier in X; auto; try lia. destruct (earlier_irrefl l). auto. }
    rewrite E1. destruct (increment_ok l (max_forth_units (T f)) f) as [y IY]; auto; try lia.
    { destruct FL as [<-|[<-|[<-|[<-|[<-|[<-|[]]]]]]]; vm_compute; discriminate. }
    rewrite IY. cbn [bind]. assert (E2 : dt_ltb y l = false).
    { destruct (dt_ltb y l) eqn:E; auto. apply ltb_earlier in E. apply increment_earlier in IY; auto; [|destruct FL as [<-|[<-|[<-|[<-|[<-|[<-|[]]]]]]]; vm_compute; reflexivity].
      destruct (earlier_irrefl l). eapply earlier_trans; eauto. }
    rewrite E2. reflexivity. }
  rewrite C. cbn [bind fst same_as_last]. replace (dt_eqb l l) with true by (symmetry; apply dt_eqb_eq; auto).
  replace (Nat.eqb (List.length (T f)) 1) with true by (rewrite <- FQ; symmetry; exact (letter_single p f FQ FL)). reflexivity.
Qed.
Lemma unread_ends e p st f t n : sp_freq p = T f -> sp_composed p = true ->
  (forall s, s <> SSimple -> text_eqb (T f) (strat_freq s) = true -> unread e s (strip t)) ->
  (forall s, cs_parser st = Some s -> s <> SSimple /\ text_eqb (T f) (strat_freq s) = true) ->
  process_value e p st (VStr t) n = (cs_parser st, Err EParseImpl).
Proof. intros FQ CO U S. unfold process_value. cbn zeta. rewrite FQ, CO, unread_pool by auto. reflexivity. Qed.
Definition day_one (l : datetime) : Prop := dt_d l = 1 /\ dt_s l = 0.
(** a first word that is no month is read as the last date *)
Lemma word_again e t l : run_grammar (grammar e SMonth1) (strip t) = Ok (None, None) -> real_date l -> day_one l ->
  forall tp n, parse_time e tp SMonth1 (VStr t) (Some l) n = Ok l.
Proof.
  intros R RL [D1 D2] tp n. cbn [parse_time parse_value]. unfold peg_parse. rewrite R. cbn [bind fill_holes or_else].
  destruct l as [y m dd s]. cbn in D1, D2 |- *. subst dd s. pose proof RL as RL'. apply valid_real in RL'. destruct RL as (Y & _ & ln & ML & DB). cbn in *.
  assert (1 <= m <= 12) by (inversion ML; subst; cbn in *; lia). replace ((1 <=? m) && (m <=? 12)) with true by lia. unfold make_date. unfold valid_dt in RL'. cbn in RL'. destruct (valid_ymd y m 1); [reflexivity|discriminate].
Qed.
Lemma month_note_ends e p st t u l s n : sp_freq p = T "M" -> sp_composed p = true -> trimmed t u -> note_text e "M" u ->
  cs_last st = Some l -> real_date l -> dt_y l < 9999 -> day_one l -> cs_parser st = Some s -> s = SMonth1 \/ s = SMonth2 ->
  exists s' x, process_value e p st (VStr t) n = (s', Err x) /\ ends_index x = true.
Proof.
  intros FQ CO TR NT L RL Y D1 PS S. apply stripped_iff in TR. cbn in TR. injection TR as TR; symmetry in TR. inversion NT as [| |u' NE ND NM|]; subst u'.
  assert (FR : free u) by (apply nodigit_iff; auto).
  assert (SS : stops is_space u = true). { rewrite <- TR. destruct (strip_split t) as (a & b & _ & _ & _ & H & _). destruct (strip t); cbn in *; [auto|rewrite H; auto]. }
  destruct (month1_word e u FR SS NM) as [(U & _)|U].
  - exists (cs_parser st), EParseImpl. split; [|reflexivity]. apply (unread_ends e p st "M"); auto.
    + intros s' N E. rewrite TR. destruct s'; try discriminate; [auto|]. apply month2_unread. auto.
    + intros s' Q. rewrite PS in Q. injection Q as <-. destruct S as [-> | ->]; split; try discriminate; reflexivity.
  - exists (Some SMonth1), ESame. split; [|reflexivity]. unfold process_value. cbn zeta.
    assert (W : forall tp n, parse_time e tp SMonth1 (VStr t) (Some l) n = Ok l) by (apply word_again; auto; rewrite TR; auto).
    assert (PP : parse_with_pool e (mktp (sp_composed p) (sp_freq p)) (cs_parser st) (VStr t) (cs_last st) n = (Some SMonth1, Ok l)).
    { rewrite PS, L, FQ, CO. unfold parse_with_pool. destruct S as [-> | ->]; [rewrite W; auto|].
      destruct (month2_unread e u FR) as (x & R & X1 & X2).
      assert (P : parse_time e (mktp true (T "M")) SMonth2 (VStr t) (Some l) n = Err x).
      { cbn [parse_time parse_value]. unfold peg_parse. rewrite TR, R. reflexivity. }
      rewrite P. assert (PL : pool_loop e (mktp true (T "M")) strategies (Some SMonth2) (VStr t) (Some l) n = (Some SMonth1, Ok l)).
      { unfold strategies. cbn [pool_loop accepts accepts_text tp_composed tp_freq strat_freq]. rewrite TR, U. cbn [is_ok andb]. rewrite W. reflexivity. }
      rewrite PL. destruct x; auto; congruence. }
    rewrite PP. apply (again_ends p st "M" l); auto. cbn. tauto.
Qed.
Lemma below_dates_ends e p st f v l n : sp_freq p = T f -> frequency_letter f -> sp_composed p = false -> note_below_dates e v ->
  cs_last st = Some l -> real_date l -> dt_y l < 9999 -> day_one l -> cs_parser st = Some SMonth1 ->
  exists s' x, process_value e p st v n = (s', Err x) /\ ends_index x = true.
Proof.
  intros FQ FL CO (t & u & -> & TR & ND & BW & NM) L RL Y D1 PS. apply stripped_iff in TR. cbn in TR. injection TR as TR; symmetry in TR.
  assert (FR : free u) by (apply nodigit_iff; auto).
  assert (SS : stops is_space u = true). { rewrite <- TR. destruct (strip_split t) as (a & b & _ & _ & _ & H & _). destruct (strip t); cbn in *; [auto|rewrite H; auto]. }
  destruct (month1_word e u FR SS NM) as [(_ & U)|U]; [contradiction|].
  exists (Some SMonth1), ESame. split; [|reflexivity]. unfold process_value. cbn zeta.
  rewrite PS, L. unfold parse_with_pool. rewrite (word_again e t l) by (auto; rewrite TR; auto). rewrite <- L. apply (again_ends p st f l); auto.
Qed.
