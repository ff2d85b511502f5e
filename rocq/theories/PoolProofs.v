(** Choosing the grammar of a text (C40 - C44). *)
From Coq Require Import ZifyBool ZifyNat ZifyN.
From Verif Require Import Base BaseFacts CoordFacts Cal Peg ParseTime TimeIndex SpecCal SpecTime SpecData SpecParse TimeProofs NumberFacts DataFacts TextProofs ParseFacts ParseFacts2 QuarterProofs MonthProofs YearProofs.
Local Open Scope Z_scope.

Lemma pool_skip e tp s pool st t last next : accepts_text e tp s (strip t) = false ->
  pool_loop e tp (s :: pool) st (VStr t) last next = pool_loop e tp pool st (VStr t) last next.
Proof. intros H. cbn [pool_loop accepts]. rewrite H. auto. Qed.
Lemma other_freq e f s t : s <> SSimple -> text_eqb (T f) (strat_freq s) = false -> accepts_text e (mktp true (T f)) s t = false.
Proof. intros N H. unfold accepts_text. cbn [tp_composed tp_freq]. rewrite H. destruct s; auto; congruence. Qed.
Lemma other_form e f s t x : s <> SSimple -> run_grammar (grammar e s) t = Err x -> accepts_text e (mktp true (T f)) s t = false.
Proof. intros N H. unfold accepts_text. cbn [tp_composed tp_freq]. rewrite H. destruct s; try (cbn; apply andb_false_r); congruence. Qed.
Lemma simple_no e f t : accepts_text e (mktp true (T f)) SSimple t = false.
Proof. reflexivity. Qed.
Lemma chosen_form e f s t g : s <> SSimple -> text_eqb (T f) (strat_freq s) = true -> run_grammar (grammar e s) t = Ok g -> accepts_text e (mktp true (T f)) s t = true.
Proof. intros N H G. unfold accepts_text. cbn [tp_composed tp_freq]. rewrite H, G. destruct s; auto; congruence. Qed.
Lemma pool_hit e f s pool st t last next g d : s <> SSimple -> text_eqb (T f) (strat_freq s) = true -> run_grammar (grammar e s) (strip t) = Ok g ->
  peg_parse e s (strip t) last = Ok d -> pool_loop e (mktp true (T f)) (s :: pool) st (VStr t) last next = (Some s, Ok d).
Proof.
  intros N H G P. cbn [pool_loop accepts]. rewrite (chosen_form e f s (strip t) g) by auto. unfold parse_time. rewrite <- P. destruct s; auto; congruence.
Qed.
Lemma sticky_hit e f s t last next d : s <> SSimple -> peg_parse e s (strip t) last = Ok d -> parse_with_pool e (mktp true (T f)) (Some s) (VStr t) last next = (Some s, Ok d).
Proof.
  intros N P. unfold parse_with_pool. replace (parse_time e (mktp true (T f)) s (VStr t) last next) with (Ok d); auto. rewrite <- P. destruct s; auto; congruence.
Qed.
(** the grammars before are for other frequencies or do not match *)
Lemma reads_by e f s pre post t u last next d g : strategies = pre ++ s :: post -> s <> SSimple -> text_eqb (T f) (strat_freq s) = true ->
  trimmed t u -> Forall (fun x => x <> SSimple /\ (text_eqb (T f) (strat_freq x) = false \/ run_grammar (grammar e x) u = Err EParse)) pre ->
  grammar e s u = POk g [] -> peg_parse e s u last = Ok d -> reads e f s (VStr t) last next d.
Proof.
  intros ST N H TR PR G P chosen C. apply stripped_iff in TR. cbn in TR. injection TR as ->.
  destruct C as [-> | ->]; [|apply sticky_hit; auto]. unfold parse_with_pool. rewrite ST. clear ST. induction PR as [|x pre [NX HX] PR IH]; cbn [app].
  - apply (pool_hit e f s post None t last next g d); auto. unfold run_grammar. rewrite G. auto.
  - rewrite pool_skip; auto. destruct HX as [HX|HX]; [apply other_freq; auto|apply (other_form _ _ _ _ EParse); auto].
Qed.

Definition quarter_strat (st : quarter_style) : strat :=
  match st with QPlain => SQuarter1 | QDotted => SQuarter2 | QWord => SQuarter3 | QShort => SQuarter4 end.
Lemma real_year d : real_date d -> 1 <= dt_y d <= 9999.
Proof. unfold real_date. intuition. Qed.
Lemma quarter_years st u y q : quarter_text st u y q -> 1 <= q <= 4 /\ forall z, y = Some z -> 1 <= z <= 9999.
Proof.
  intros H.
  inversion H as [a k s q' A K N|a yt b k s y' q' A Y B K N|a k s yt b y' q' A K SP Y TL|a s k u' s1 v s2 yt b y' q' A AW AS SS K U S1 W S2 C1 C2 C3 Y TL|a k s yt b y' q' A K SP Y TL NB]; subst.
  - destruct (sign_class k q K) as (_ & _ & B). split; [auto|congruence].
  - destruct (sign_class k q K) as (_ & _ & B1). destruct (year4_facts yt y' Y) as (_ & _ & _ & B2 & _). split; [auto|intros z E; injection E as <-; auto].
  - destruct (roman_facts k q K) as (_ & _ & _ & _ & _ & B1). destruct (year4_facts yt y' Y) as (_ & _ & _ & B2 & _). split; [auto|intros z E; injection E as <-; auto].
  - destruct (number4_facts k q K) as (c & _ & _ & _ & _ & _ & B1). destruct (year2_facts yt y' Y) as (_ & _ & _ & B2 & _). split; [auto|intros z E; injection E as <-; lia].
  - destruct (roman_facts k q K) as (_ & _ & _ & _ & _ & B1). destruct (year2_facts yt y' Y) as (_ & _ & _ & B2 & _). split; [auto|intros z E; injection E as <-; lia].
Qed.
Lemma c40_text e st t u y q m last next d : trimmed t u -> quarter_text st u y q -> quarter_month q m -> real_last last -> month_of y m last d ->
  reads e "Q" (quarter_strat st) (VStr t) last next d.
Proof.
  intros TR Q M RL MO. unfold quarter_month in M. subst m. destruct (quarter_years st u y q Q) as (QB & YB).
  assert (LB : forall l, last = Some l -> 1 <= dt_y l <= 9999) by (intros l E; apply real_year; auto).
  assert (OK : forall s, s <> SQuarterYear1 -> grammar e s u = POk (y, Some (3 * q - 2)) [] -> peg_parse e s u last = Ok d).
  { intros s NS G. apply (peg_read e s u y (3 * q - 2)); auto. lia. }
  destruct st; cbn [quarter_strat].
  - pose proof (quarter1 u y q Q) as G. apply (reads_by e "Q" SQuarter1 [SMonth1; SMonth2] [SQuarter2; SQuarter3; SQuarter4; SQuarterYear1; SSemester; SYear1; SYear2; SYearQuarter1; SSimple] t u last next d (y, Some (3 * q - 2))); auto; try discriminate.
    + repeat (apply Forall_cons; [split; [discriminate|first [left; reflexivity|right; assumption]]|]); apply Forall_nil.
    + apply OK; auto; discriminate.
  - destruct (quarter2 u y q Q) as (F1 & G). apply (reads_by e "Q" SQuarter2 [SMonth1; SMonth2; SQuarter1] [SQuarter3; SQuarter4; SQuarterYear1; SSemester; SYear1; SYear2; SYearQuarter1; SSimple] t u last next d (y, Some (3 * q - 2))); auto; try discriminate.
    + repeat (apply Forall_cons; [split; [discriminate|first [left; reflexivity|right; assumption]]|]); apply Forall_nil.
    + apply OK; auto; discriminate.
  - destruct (quarter3 u y q Q) as (F1 & F2 & G). apply (reads_by e "Q" SQuarter3 [SMonth1; SMonth2; SQuarter1; SQuarter2] [SQuarter4; SQuarterYear1; SSemester; SYear1; SYear2; SYearQuarter1; SSimple] t u last next d (y, Some (3 * q - 2))); auto; try discriminate.
    + repeat (apply Forall_cons; [split; [discriminate|first [left; reflexivity|right; assumption]]|]); apply Forall_nil.
    + apply OK; auto; discriminate.
  - destruct (quarter4 u y q Q) as (F1 & F2 & F3 & G). apply (reads_by e "Q" SQuarter4 [SMonth1; SMonth2; SQuarter1; SQuarter2; SQuarter3] [SQuarterYear1; SSemester; SYear1; SYear2; SYearQuarter1; SSimple] t u last next d (y, Some (3 * q - 2))); auto; try discriminate.
    + repeat (apply Forall_cons; [split; [discriminate|first [left; reflexivity|right; assumption]]|]); apply Forall_nil.
    + apply OK; auto; discriminate.
Qed.

Definition month_strat (st : month_style) : strat := match st with MName => SMonth1 | MNumber => SMonth2 end.
Lemma month_years e st u y m : month_text e st u y m -> 1 <= m <= 12 /\ forall z, y = Some z -> 1 <= z <= 9999.
Proof.
  intros H. inversion H as [yt j n r y' m' Y J N R|n d j yt r y' m' N D J Y|n r m' N R1 R2|n d b nt r m' N D B NT R|yt s n r y' m' Y SY N R|n s yt r y' m' N SY SN Y|n r m' N SY]; subst;
    try (destruct (name_facts e n m N) as (_ & _ & _ & _ & MB)); try (destruct (number_facts n m N) as (_ & _ & _ & _ & MB)); (split; [exact MB|intros z E]); inversion E; subst.
  - destruct (year_any yt z Y) as (_ & _ & _ & _ & B). auto.
  - assert (Y' : year4 yt z \/ year2 yt z) by tauto. destruct (year_any yt z Y') as (_ & _ & _ & _ & B). auto.
  - destruct (year4_facts yt z Y) as (_ & _ & _ & B & _). auto.
  - destruct (year4_facts yt z Y) as (_ & _ & _ & B & _). auto.
Qed.
Lemma c41_text e st t u y m last next d : trimmed t u -> month_text e st u y m -> real_last last -> month_of y m last d ->
  reads e "M" (month_strat st) (VStr t) last next d.
Proof.
  intros TR Q RL MO. destruct (month_years e st u y m Q) as (QB & YB).
  assert (LB : forall l, last = Some l -> 1 <= dt_y l <= 9999) by (intros l E; apply real_year; auto).
  assert (OK : forall s, s <> SQuarterYear1 -> grammar e s u = POk (y, Some m) [] -> peg_parse e s u last = Ok d).
  { intros s NS G. apply (peg_read e s u y m); auto. }
  destruct st; cbn [month_strat].
  - pose proof (month1 e u y m Q) as G. apply (reads_by e "M" SMonth1 [] [SMonth2; SQuarter1; SQuarter2; SQuarter3; SQuarter4; SQuarterYear1; SSemester; SYear1; SYear2; SYearQuarter1; SSimple] t u last next d (y, Some m)); auto; try discriminate.
    apply OK; auto; discriminate.
  - destruct (month2 e u y m Q) as (F & G). apply (reads_by e "M" SMonth2 [SMonth1] [SQuarter1; SQuarter2; SQuarter3; SQuarter4; SQuarterYear1; SSemester; SYear1; SYear2; SYearQuarter1; SSimple] t u last next d (y, Some m)); auto; try discriminate.
    + repeat (apply Forall_cons; [split; [discriminate|first [left; reflexivity|right; assumption]]|]); apply Forall_nil.
    + apply OK; auto; discriminate.
Qed.

Definition year_strat (st : year_style) : strat := match st with YOne => SYear1 | YRange => SYear2 end.
Lemma year_years st u y : year_text st u y -> 1 <= y <= 9999.
Proof. intros [a yt b z A Y B|a yt c d b z A Y C D B]; destruct (year4_facts yt z Y) as (_ & _ & _ & YB & _); auto. Qed.
Lemma c42_text e st t u y last next : trimmed t u -> year_text st u y -> real_last last -> reads e "A" (year_strat st) (VStr t) last next (mkdt y 1 1 0).
Proof.
  intros TR Q RL. pose proof (year_years st u y Q) as QB.
  assert (LB : forall l, last = Some l -> 1 <= dt_y l <= 9999) by (intros l E; apply real_year; auto).
  assert (OK : forall s, s <> SQuarterYear1 -> grammar e s u = POk (Some y, Some 1) [] -> peg_parse e s u last = Ok (mkdt y 1 1 0)).
  { intros s NS G. apply (peg_read e s u (Some y) 1); auto; try lia; [intros z E; injection E as <-; auto|constructor]. }
  destruct st; cbn [year_strat].
  - pose proof (year1 u y Q) as G. apply (reads_by e "A" SYear1 [SMonth1; SMonth2; SQuarter1; SQuarter2; SQuarter3; SQuarter4; SQuarterYear1; SSemester] [SYear2; SYearQuarter1; SSimple] t u last next _ (Some y, Some 1)); auto; try discriminate.
    + repeat (apply Forall_cons; [split; [discriminate|first [left; reflexivity|right; assumption]]|]); apply Forall_nil.
    + apply OK; auto; discriminate.
  - destruct (year2_read u y Q) as (F & G). apply (reads_by e "A" SYear2 [SMonth1; SMonth2; SQuarter1; SQuarter2; SQuarter3; SQuarter4; SQuarterYear1; SSemester; SYear1] [SYearQuarter1; SSimple] t u last next _ (Some y, Some 1)); auto; try discriminate.
    + repeat (apply Forall_cons; [split; [discriminate|first [left; reflexivity|right; assumption]]|]); apply Forall_nil.
    + apply OK; auto; discriminate.
Qed.

Lemma semester_years u y q : semester_text u y q -> forall z, y = Some z -> 1 <= z <= 9999.
Proof.
  intros [a k s yt b y' q' A K Q SP Y TL|a k s q' A K Q SP] z E; inversion E; subst. destruct (year2_facts yt z Y) as (_ & _ & _ & B & _). lia.
Qed.
Lemma c44_text e t u y q m last next d : trimmed t u -> semester_text u y q -> semester_month q m -> real_last last -> month_of y m last d ->
  reads e "S" SSemester (VStr t) last next d.
Proof.
  intros TR Q M RL MO. unfold semester_month in M. subst m. destruct (semester u y q Q) as (G & QB).
  assert (LB : forall l, last = Some l -> 1 <= dt_y l <= 9999) by (intros l E; apply real_year; auto).
  apply (reads_by e "S" SSemester [SMonth1; SMonth2; SQuarter1; SQuarter2; SQuarter3; SQuarter4; SQuarterYear1] [SYear1; SYear2; SYearQuarter1; SSimple] t u last next d (y, Some (6 * q - 5))); auto; try discriminate.
  - repeat (apply Forall_cons; [split; [discriminate|first [left; reflexivity|right; assumption]]|]); apply Forall_nil.
  - apply (peg_read e SSemester u y (6 * q - 5)); auto; try discriminate; [lia|]. apply (semester_years u y q). auto.
Qed.
