(** A whole time index whose cells are read, one after the other, as the dates
    they denote (C40 - C45). *)
From Coq Require Import Sorted.
From Verif Require Import Base BaseFacts Cal Coord CoordFacts Params ParseTime TimeIndex SpecCal CalFacts CalProofs SpecCoord SpecCoordFacts
  TimeFacts SpecTime ScrapeProofs2 TimeProofs TimeProofs2 IndexWalk.
Local Open Scope Z_scope.

Lemma walk_index_inv (Inv : Z -> option strat -> (ascii -> option datetime) -> text -> Prop) e w p t r c d m : one_line p -> sp_th p = ThStr t -> cell_named t r c -> sp_freq p <> [] ->
  index_ends p w m -> within_sheet p (sp_starts p) m ->
  Inv (sp_starts p) None (fun _ => None) [] ->
  (forall q, sp_starts p <= q <= m -> exists v n, holds p w q v /\ ~ no_time p v /\ holds p w (q + 1) n /\
     forall st, cs_last st = before p q (d (q - 1)) -> Inv q (cs_parser st) (cs_lasts st) (cs_lf st) ->
       exists k lasts lf, process_value e p st v n = (k, Ok (d q, lasts, lf)) /\ Inv (q + 1) k lasts lf) ->
  sp_starts p <= m -> sp_starts p < m - sp_ta p ->
  exists w', clean_time_index e w p = (w', Ok (m - sp_ta p)) /\
    (forall q, sp_starts p <= q <= m -> holds p w' q (VDate (d q))) /\
    (forall i j, (forall q, sp_starts p <= q <= m -> ~ index_cell p q i j) -> cell w' i j = cell w i j).
Proof.
  intros OL TH CN FN (last & LO & EN) WS I0 READ L1 L2. pose proof LO as LO'. apply last_one_iff in LO'. subst last.
  set (last := last_position p w) in *.
  assert (ML : m <= last) by (destruct EN as [->|(_ & Q & _)]; lia).
  assert (WL : exists wl, write_line (sp_al p) (sp_th p) = Ok wl /\ (sp_al p = Vert -> 1 <= wl <= 18278) /\ (sp_al p = Horiz -> 1 <= wl)).
  { rewrite TH. cbn [write_line]. unfold coord_line. apply cell_named_iff in CN. pose proof (parse_range _ _ _ CN). rewrite CN. cbn [bind fst snd].
    eexists. split; [reflexivity|]. destruct (sp_al p); split; intros; try discriminate; lia. }
  destruct WL as (wl & WL & WV & WH).
  assert (TL : time_lines (sp_al p) (sp_th p) (sp_multi p) = Ok (OneLine wl)).
  { unfold one_line in OL. rewrite OL, TH in *. cbn [time_lines write_line] in *. rewrite WL. reflexivity. }
  assert (BL : forall q, blank_at p w q -> no_time p (axis_val (sp_al p) w wl q)).
  { intros q (v & HV & N). apply (holds_iff _ _ _ _ _ WL) in HV. congruence. }
  assert (OK : forall q, sp_starts p <= q <= last + 1 -> cell_ok (axis_row (sp_al p) wl q) (axis_col (sp_al p) wl q) = true).
  { intros q I. destruct WS as [WS1 WS2]. unfold cell_ok, max_column, axis_row, axis_col. destruct (sp_al p).
    - specialize (WV eq_refl). lia.
    - specialize (WH eq_refl). assert (m = last) by (destruct EN as [|(Q & _)]; [auto|discriminate]). subst m. lia. }
  assert (RE : exists reach, (reach = last \/ reach = m + 1 /\ m + 1 <= last /\ tolerant p = false) /\ m <= reach <= last /\
    forall q, m < q <= reach -> no_time p (axis_val (sp_al p) w wl q)).
  { destruct EN as [E|(_ & L & [[B NTO]|B])].
    - exists last. split; auto. split; [lia|]. intros q Q. lia.
    - exists (m + 1). split.
      + right. split; [auto|]. split; [lia|]. unfold tolerant, tolerates_blanks in *. destruct (sp_cont p), (sp_blank p); auto; exfalso; apply NTO; auto.
      + split; [lia|]. intros q Q. replace q with (m + 1) by lia. apply BL. auto.
    - exists last. split; auto. split; [lia|]. intros q Q. apply BL. auto. }
  destruct RE as (reach & R1 & R2 & R3).
  apply (walk_lines_inv Inv e w p (OneLine wl) wl d (fun q => axis_val (sp_al p) w wl q) m reach); auto.
  - fold last. destruct EN as [|(Q & _)]; auto.
  - intros q Q. cbn [time_value]. unfold axis_read, read. rewrite OK by lia. reflexivity.
  - intros q Q. apply OK. lia.
  - intros q Q. destruct (READ q Q) as (v & n & HV & NT & HN & P). apply (holds_iff _ _ _ _ _ WL) in HV, HN. rewrite HV, HN. auto.
  - destruct WS. auto.
  - lia.
Qed.
Lemma walk_index e w p t r c s d m : one_line p -> sp_th p = ThStr t -> cell_named t r c -> sp_freq p <> [] ->
  index_ends p w m -> within_sheet p (sp_starts p) m ->
  (forall q, sp_starts p <= q <= m -> exists v n, holds p w q v /\ ~ no_time p v /\ holds p w (q + 1) n /\
     forall st, cs_last st = before p q (d (q - 1)) -> cs_parser st = before p q s ->
       process_value e p st v n = (Some s, Ok (d q, cs_lasts st, cs_lf st))) ->
  sp_starts p <= m -> sp_starts p < m - sp_ta p ->
  exists w', clean_time_index e w p = (w', Ok (m - sp_ta p)) /\
    (forall q, sp_starts p <= q <= m -> holds p w' q (VDate (d q))) /\
    (forall i j, (forall q, sp_starts p <= q <= m -> ~ index_cell p q i j) -> cell w' i j = cell w i j).
Proof.
  intros OL TH CN FN IE WS READ L1 L2.
  apply (walk_index_inv (fun q k _ _ => k = before p q s) e w p t r c d m); auto.
  - unfold before. rewrite Z.eqb_refl. reflexivity.
  - intros q Q. destruct (READ q Q) as (v & n & HV & NT & HN & P). exists v, n. repeat (split; auto). intros st A C.
    exists (Some s), (cs_lasts st), (cs_lf st). split; [auto|]. unfold before. replace (q + 1 =? sp_starts p) with false by lia. reflexivity.
Qed.

Section Read.
Variables (e : env) (p : sp) (f : string) (s : strat) (last : Z) (v : Z -> pyval) (d : Z -> datetime).
Hypothesis FQ : sp_freq p = T f.
Hypothesis FL : frequency_letter f.
Hypothesis RD : forall q, sp_starts p <= q <= last -> real_date (d q) /\ dt_y (d q) < 9999.
Hypothesis READ : forall q, sp_starts p <= q <= last ->
  parse_with_pool e (mktp (sp_composed p) (T f)) (before p q s) (v q) (before p q (d (q - 1))) (v (q + 1)) = (Some s, Ok (d q)).
Hypothesis LATER : forall q, sp_starts p < q <= last -> earlier (d (q - 1)) (d q).
Hypothesis STEP : sp_missings p = true /\ implicit p = false \/
  sp_missings p = false /\ forall q, sp_starts p < q <= last -> increment_time (d (q - 1)) 1 (T f) = Ok (d q).

Lemma read_step pos st : sp_starts p <= pos <= last -> cs_last st = before p pos (d (pos - 1)) -> cs_parser st = before p pos s ->
  process_value e p st (v pos) (v (pos + 1)) = (Some s, Ok (d pos, cs_lasts st, cs_lf st)).
Proof.
  intros I L1 L2. unfold process_value. cbn zeta. rewrite FQ, L1, L2, READ by auto. cbn [bind].
  unfold correct_state. rewrite (letter_single p f FQ FL).
  assert (LL : forall x, cs_last st = Some x -> pos > sp_starts p /\ x = d (pos - 1)).
  { rewrite L1. unfold before. destruct (pos =? sp_starts p) eqn:B; intros x Q; inversion Q. split; [lia|auto]. }
  rewrite FQ. destruct (keeps_date (cs_last st) (d pos) (T f) (sp_missings p) (sp_mv p)) as [C|(x & C & _ & l & n & C2 & C3 & C4)].
  - apply RD; auto.
  - intros x Q. destruct (LL x Q) as [G ->]. split; [apply RD; lia|apply LATER; lia].
  - destruct STEP as [[_ E]|[E _]]; auto.
  - destruct STEP as [[E _]|[_ E]]; auto. right. intros x Q. destruct (LL x Q) as [G ->]. apply E. lia.
  - rewrite C. cbn [bind fst]. replace (Nat.eqb (List.length (T f)) 1) with true by (rewrite <- FQ; symmetry; exact (letter_single p f FQ FL)).
    rewrite andb_true_r. unfold same_as_last. rewrite L1 in LL. unfold before in LL |- *. destruct (pos =? sp_starts p) eqn:B; auto.
    destruct (dt_eqb (d pos) (d (pos - 1))) eqn:EQ; auto. apply dt_eqb_eq in EQ. assert (EE := LATER pos). rewrite EQ in EE.
    destruct (earlier_irrefl (d (pos - 1))). apply EE. lia.
  - destruct (LL _ C2) as [G ->]. destruct (increment_ok (d (pos - 1)) n f) as [t' T']; try lia; auto; try (apply RD; lia). congruence.
Qed.

End Read.

Lemma read_index e w p f t r c s d last : one_line p -> sp_th p = ThStr t -> cell_named t r c ->
  sp_freq p = T f -> frequency_letter f ->
  index_ends p w last -> within_sheet p (sp_starts p) last ->
  (forall q, sp_starts p <= q <= last -> real_date (d q) /\ dt_y (d q) < 9999) ->
  (forall q, sp_starts p <= q <= last -> exists v n, holds p w q v /\ ~ no_time p v /\ holds p w (q + 1) n /\
     parse_with_pool e (mktp (sp_composed p) (T f)) (before p q s) v (before p q (d (q - 1))) n = (Some s, Ok (d q))) ->
  (forall q, sp_starts p < q <= last -> earlier (d (q - 1)) (d q)) ->
  (sp_missings p = true /\ explicit_marker p \/
   sp_missings p = false /\ forall q, sp_starts p < q <= last -> one_period f (d (q - 1)) (d q)) ->
  sp_starts p <= last -> sp_starts p < last - sp_ta p ->
  exists w', clean_time_index e w p = (w', Ok (last - sp_ta p)) /\
    (forall q, sp_starts p <= q <= last -> holds p w' q (VDate (d q))) /\
    (forall i j, (forall q, sp_starts p <= q <= last -> ~ index_cell p q i j) -> cell w' i j = cell w i j).
Proof.
  intros OL TH CN FQ FL LO WS RD READ LT STEP L1 L2.
  assert (WL : exists wl, write_line (sp_al p) (sp_th p) = Ok wl).
  { rewrite TH. cbn [write_line]. unfold coord_line. apply cell_named_iff in CN. rewrite CN. cbn [bind]. eauto. }
  destruct WL as (wl & WL).
  assert (FN : sp_freq p <> []). { rewrite FQ. destruct FL as [<-|[<-|[<-|[<-|[<-|[<-|[]]]]]]]; discriminate. }
  apply (walk_index e w p t r c s d last); auto.
  intros q I. destruct (READ q I) as (v & n & HV & NT & HN & P). exists v, n. repeat (split; [auto|]). intros st S1 S2.
  pose proof HV as HV'. pose proof HN as HN'. apply (holds_iff _ _ _ _ _ WL) in HV', HN'. rewrite <- HV', <- HN'.
  apply (read_step e p f s last (fun q => axis_val (sp_al p) w wl q) d); auto.
  - intros q' I'. destruct (READ q' I') as (v' & n' & H1 & _ & H2 & P'). apply (holds_iff _ _ _ _ _ WL) in H1, H2. rewrite H1, H2. auto.
  - destruct STEP as [[E1 E2]|[E1 E2]]; [left; split; auto; apply explicit_ok; auto|right; split; auto].
    intros q' I'. apply period_step; [apply RD; lia|apply RD; lia|auto].
Qed.
