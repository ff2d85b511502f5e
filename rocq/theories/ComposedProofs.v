(** Composed time indexes: from the texts to the clean index (C40 - C44). *)
From Coq Require Import ZifyBool ZifyNat ZifyN.
From Verif Require Import Base BaseFacts CoordFacts Coord Params Cal CalFacts Peg ParseTime TimeIndex SpecCal SpecCoord SpecCoordFacts SpecTime SpecData SpecParse TimeFacts TimeProofs
  TimeProofs2 NumberFacts DataFacts TextProofs ParseFacts ParseFacts2 QuarterProofs MonthProofs YearProofs PoolProofs IndexWalk IndexTexts.
Local Open Scope Z_scope.

(** a whole number is read as its text *)
Lemma number_text z c u : decimal (c :: u) z -> c <> "0"%char -> Z_text z = c :: u.
Proof.
  intros D N. apply decimal_iff in D as [D V]. rewrite <- V. apply Z_text_digits_val; auto; [discriminate|]. cbn. congruence.
Qed.
Lemma strip_digits t : forallb is_digit t = true -> strip t = t.
Proof.
  intros D. assert (S : forall c, is_digit c = true -> is_space c = false) by bytes. rewrite forallb_forall in D.
  apply strip_tight. split; [destruct t as [|c t]; auto; apply S, D; left; auto|].
  destruct (rev t) as [|c r] eqn:R; auto. apply S, D. apply in_rev. rewrite R. left. auto.
Qed.
Lemma says_strip v u : says v u -> strip u = u.
Proof.
  intros [t u' TR|z c u' D N].
  - apply stripped_iff in TR. cbn in TR. injection TR as ->. apply strip_idem.
  - apply strip_digits. apply decimal_iff in D as [D _]. auto.
Qed.
Lemma says_pool e tp st v u l n : says v u -> parse_with_pool e tp st v l n = parse_with_pool e tp st (VStr u) l n.
Proof.
  intros H. pose proof (says_strip v u H) as ST.
  assert (PT : forall s, parse_time e tp s v l n = parse_time e tp s (VStr u) l n /\ accepts e tp s v = accepts e tp s (VStr u)).
  { intros s. destruct H as [t u' TR|z c u' D N].
    - apply stripped_iff in TR. cbn in TR. injection TR as ->. unfold parse_time, parse_value, accepts. rewrite ST. auto.
    - pose proof (number_text z c u' D N) as Q. unfold parse_time, parse_value, accepts, py_str. rewrite ST, Q. cbn [bind]. auto. }
  unfold parse_with_pool. assert (PL : forall pool, pool_loop e tp pool st v l n = pool_loop e tp pool st (VStr u) l n).
  { induction pool as [|s pool IH]; cbn [pool_loop]; auto. destruct (PT s) as [-> ->]. rewrite IH. auto. }
  rewrite PL. destruct st as [s|]; auto. destruct (PT s) as [-> _]. auto.
Qed.
Lemma says_trimmed v u : says v u -> trimmed u u.
Proof. intros H. apply stripped_iff. cbn. rewrite (says_strip v u H). auto. Qed.
Lemma says_reads e f s v u l n d : says v u -> reads e f s (VStr u) l n d -> reads e f s v l n d.
Proof. intros H R c C. rewrite (says_pool e _ _ v u l n H). auto. Qed.
Lemma says_time p v u : says v u -> u <> [] -> ~ no_time p v.
Proof.
  intros [t u' TR|z c u' D N] NE NT; inversion NT as [|t' W E|]; subst.
  apply stripped_iff in TR. cbn in TR. injection TR as ->. apply strip_blank in W. destruct (strip t); [congruence|discriminate].
Qed.

Lemma quarter_full st u y q : quarter_text st u y q -> u <> [].
Proof.
  intros H E. assert (K : forall k q', roman k q' -> k <> []) by (intros k q' [ | | | ]; discriminate).
  assert (K2 : forall k q', number4 k q' -> k <> []) by (intros k q' [ | | | ]; discriminate).
  inversion H as [a k s q' A K' N|a yt b k s y' q' A Y B K' N|a k s yt b y' q' A K' SP Y TL|a s k u' s1 v s2 yt b y' q' A AW AS SS K' U S1 W S2 C1 C2 C3 Y TL|a k s yt b y' q' A K' SP Y TL NB]; subst;
    repeat match goal with X : _ ++ _ = [] |- _ => apply app_eq_nil in X as [? X] end; subst; try (destruct K' as [K'|K']); try (eapply K; eauto; fail); eapply K2; eauto.
Qed.
Lemma month_full e st u y m : month_text e st u y m -> u <> [].
Proof.
  intros H E. inversion H as [yt j n r y' m' Y J N R|n d j yt r y' m' N D J Y|n r m' N R1 R2|n d b nt r m' N D B NT R|yt s n r y' m' Y SY N R|n s yt r y' m' N SY SN Y|n r m' N SY]; subst;
    repeat match goal with X : _ ++ _ = [] |- _ => apply app_eq_nil in X as [? X] end; subst;
    try (destruct (name_facts e [] m N) as (_ & L & _); cbn in L; lia);
    try (destruct (number_facts [] m N) as (_ & L & _); cbn in L; lia).
Qed.
Lemma year_full st u y : year_text st u y -> u <> [].
Proof.
  intros [a yt b z A Y B|a yt c d b z A Y C D B] E; repeat match goal with X : _ ++ _ = [] |- _ => apply app_eq_nil in X as [? X] end; subst;
    destruct (year4_facts [] z Y) as (_ & L & _); discriminate.
Qed.
Lemma semester_full u y q : semester_text u y q -> u <> [].
Proof.
  intros [a k s yt b z q' A K Q SP Y TL|a k s q' A K Q SP] E; repeat match goal with X : _ ++ _ = [] |- _ => apply app_eq_nil in X as [? X] end; subst; inversion K.
Qed.

(** years written as numbers with decimals *)
Lemma whole_trunc f z : whole f z -> trunc_float f = Ok z.
Proof.
  intros [m x X|m x y X B]; cbn [trunc_float]; do 2 f_equal.
  - replace (0 <=? x) with true by lia. auto.
  - replace (0 <=? x) with false by lia. symmetry. apply Z.div_unique with (r := Zpos m - y * 2 ^ (- x)); lia.
Qed.
Lemma year_digits y : 1000 <= y <= 9999 -> year_text YOne (Z_text y) y.
Proof.
  intros B. pose proof (Z_text_digits y ltac:(lia)) as D. pose proof (Z_text_val y ltac:(lia)) as V.
  replace (Z_text y) with ([] ++ Z_text y ++ []) by (cbn; apply app_nil_r). apply yt_one; [left; constructor| |left; constructor].
  constructor; [|apply decimal_iff; auto|lia].
  assert (C : forallb (fun y => Nat.eqb (List.length (Z_text y)) 4) (zrange 1000 9999) = true) by (vm_compute; reflexivity).
  rewrite forallb_forall in C. apply Nat.eqb_eq. apply C. apply zrange_In. auto.
Qed.
Lemma float_reads e f y l n : real_last l -> whole f y -> 1000 <= y <= 9999 -> reads e "A" SYear1 (VFloat f) l n (mkdt y 1 1 0).
Proof.
  intros RL W B. pose proof (year_digits y B) as YT. apply whole_trunc in W.
  assert (TR : trimmed (Z_text y) (Z_text y)).
  { apply stripped_iff. cbn. rewrite strip_digits by (apply Z_text_digits; lia). auto. }
  pose proof (c42_text e YOne _ _ y l n TR YT RL) as R. cbn [year_strat] in R.
  pose proof (year1 (Z_text y) y YT) as G.
  assert (P : parse_time e (mktp true (T "A")) SYear1 (VFloat f) l n = Ok (mkdt y 1 1 0)).
  { unfold parse_time, parse_value. rewrite W. cbn [bind].
    assert (Q : peg_parse e SYear1 (Z_text y) l = Ok (mkdt y 1 1 0)); [|rewrite Q; auto].
    apply (peg_read e SYear1 (Z_text y) (Some y) 1); auto; try lia; try discriminate; [intros z E; injection E as <-; lia|intros x E; apply real_year; auto|constructor]. }
  intros c [-> | ->].
  - unfold parse_with_pool, strategies.
    assert (K : forall s pool, s <> SSimple -> text_eqb (T "A") (strat_freq s) = false ->
      pool_loop e (mktp true (T "A")) (s :: pool) None (VFloat f) l n = pool_loop e (mktp true (T "A")) pool None (VFloat f) l n).
    { intros s pool N1 N2. cbn [pool_loop accepts]. rewrite W. cbn [bind]. rewrite !other_freq by auto. auto. }
    rewrite !K by (discriminate || reflexivity). cbn [pool_loop accepts]. rewrite W. cbn [bind].
    rewrite (chosen_form e "A" SYear1 (Z_text y) (Some y, Some 1)); [|discriminate|reflexivity|unfold run_grammar; cbn [grammar]; rewrite G; auto].
    rewrite orb_true_r. rewrite P. auto.
  - unfold parse_with_pool. rewrite P. auto.
Qed.

(** the cells *)
Lemma quarter_reads e st v last next d : quarter_cell st v last d -> real_last last -> reads e "Q" (quarter_strat st) v last next d.
Proof.
  intros (u & y & q & m & SV & Q & M & MO) RL. apply (says_reads e _ _ v u); auto. eapply c40_text; eauto. eapply says_trimmed; eauto.
Qed.
Lemma month_reads e st v last next d : month_cell e st v last d -> real_last last -> reads e "M" (month_strat st) v last next d.
Proof.
  intros (u & y & m & SV & Q & MO) RL. apply (says_reads e _ _ v u); auto. eapply c41_text; eauto. eapply says_trimmed; eauto.
Qed.
Lemma semester_reads e v last next d : semester_cell v last d -> real_last last -> reads e "S" SSemester v last next d.
Proof.
  intros (u & y & q & m & SV & Q & M & MO) RL. apply (says_reads e _ _ v u); auto. eapply c44_text; eauto. eapply says_trimmed; eauto.
Qed.
Lemma year_reads e st v last next d : year_cell st v d -> real_last last -> reads e "A" (year_strat st) v last next d.
Proof.
  intros [st' v' u y SV Q|f y W B] RL.
  - apply (says_reads e _ _ v' u); auto. eapply c42_text; eauto. eapply says_trimmed; eauto.
  - cbn. apply float_reads; auto.
Qed.

(** the whole index *)
Lemma composed_index e w p f s d last : plain_index p w f last -> frequency_letter f -> sp_composed p = true -> sequence p f d last ->
  (forall q, sp_starts p <= q <= last -> exists v, holds p w q v /\ ~ no_time p v /\
     forall next, real_last (previous p d q) -> reads e f s v (previous p d q) next (d q)) ->
  cleaned e w p d last.
Proof.
  intros (OL & (t & r & c & TH & CN) & FQ & LO & WS & L1 & L2) FL CO [RD SQ] READ.
  assert (WL : exists wl, write_line (sp_al p) (sp_th p) = Ok wl).
  { rewrite TH. cbn [write_line]. unfold coord_line. apply cell_named_iff in CN. rewrite CN. cbn [bind]. eauto. }
  destruct WL as (wl & WL).
  unfold cleaned. apply (read_index e w p f t r c s d last); auto.
  - intros q I. destruct (READ q I) as (v & HV & NT & R). exists v, (axis_val (sp_al p) w wl (q + 1)).
    split; [auto|]. split; [auto|]. split; [apply (holds_iff _ _ _ _ _ WL); auto|].
    rewrite CO. unfold before. unfold previous in R. destruct (q =? sp_starts p) eqn:B.
    + apply R; [|auto]. intros l E. discriminate.
    + apply R; [|auto]. intros l E. injection E as <-. apply RD. lia.
  - destruct SQ as [(_ & _ & E)|(_ & E)]; auto. intros q I. specialize (E q I).
    apply (increment_earlier (d (q - 1)) 1 (T f)); try lia; [apply RD; lia|]. apply period_step; auto; apply RD; lia.
  - destruct SQ as [(E1 & E2 & _)|(E1 & E2)]; auto.
Qed.

Lemma c40_index e w p st d last : plain_index p w "Q" last -> sp_composed p = true -> sequence p "Q" d last ->
  (forall q, sp_starts p <= q <= last -> exists v, holds p w q v /\ quarter_cell st v (previous p d q) (d q)) -> cleaned e w p d last.
Proof.
  intros PI CO SQ H. apply (composed_index e w p "Q" (quarter_strat st)); auto; [cbn; tauto|].
  intros q I. destruct (H q I) as (v & HV & C). exists v. split; auto. split; [|intros; apply quarter_reads; auto].
  destruct C as (u & y & k & m & SV & Q & _). eapply says_time; eauto. eapply quarter_full; eauto.
Qed.
Lemma c41_index e w p st d last : plain_index p w "M" last -> sp_composed p = true -> sequence p "M" d last ->
  (forall q, sp_starts p <= q <= last -> exists v, holds p w q v /\ month_cell e st v (previous p d q) (d q)) -> cleaned e w p d last.
Proof.
  intros PI CO SQ H. apply (composed_index e w p "M" (month_strat st)); auto; [cbn; tauto|].
  intros q I. destruct (H q I) as (v & HV & C). exists v. split; auto. split; [|intros; apply month_reads; auto].
  destruct C as (u & y & m & SV & Q & _). eapply says_time; eauto. eapply month_full; eauto.
Qed.
Lemma c42_index e w p st d last : plain_index p w "A" last -> sp_composed p = true -> sequence p "A" d last ->
  (forall q, sp_starts p <= q <= last -> exists v, holds p w q v /\ ~ no_time p v /\ year_cell st v (d q)) -> cleaned e w p d last.
Proof.
  intros PI CO SQ H. apply (composed_index e w p "A" (year_strat st)); auto; [cbn; tauto|].
  intros q I. destruct (H q I) as (v & HV & NT & C). exists v. split; auto. split; [|intros; apply year_reads]; auto.
Qed.
Lemma c44_index e w p d last : plain_index p w "S" last -> sp_composed p = true -> sequence p "S" d last ->
  (forall q, sp_starts p <= q <= last -> exists v, holds p w q v /\ semester_cell v (previous p d q) (d q)) -> cleaned e w p d last.
Proof.
  intros PI CO SQ H. apply (composed_index e w p "S" SSemester); auto; [cbn; tauto|].
  intros q I. destruct (H q I) as (v & HV & C). exists v. split; auto. split; [|intros; apply semester_reads; auto].
  destruct C as (u & y & k & m & SV & Q & _). eapply says_time; eauto. eapply semester_full; eauto.
Qed.
