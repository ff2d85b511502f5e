(** Reading the years and semesters, and choosing the grammar (C40 - C44). *)
From Coq Require Import ZifyBool ZifyNat ZifyN.
From Verif Require Import Base BaseFacts CoordFacts Cal Peg ParseTime TimeIndex SpecCal SpecTime SpecData SpecParse TimeProofs NumberFacts DataFacts TextProofs ParseFacts ParseFacts2 QuarterProofs MonthProofs.
Local Open Scope Z_scope.

Lemma y_ref_ok a n b r : plain a -> note n -> plain b -> stops not_d_or_p r = true -> y_ref (a ++ n ++ b ++ r) = POk tt r.
Proof.
  intros A N B R. apply plain_iff in A. apply plain_iff in B. destruct (note_inv n N) as (ds & -> & L & D). unfold y_ref, pbind.
  rewrite pmany_app by auto. cbn [app]. rewrite plit_head, close_note by auto. rewrite plit_head, pmany_app by auto. auto.
Qed.
Lemma y_ref_no a r : plain a -> stops not_d_or_p r = true -> stops is_par r = true -> y_ref (a ++ r) = PFail.
Proof. intros A R P. apply plain_iff in A. unfold y_ref, pbind. rewrite pmany_app by auto. rewrite plit_stops by exact P. auto. Qed.
Lemma year_left {X} (k : parser X) a yt z : plain a \/ noted a -> forallb is_digit yt = true -> yt <> [] ->
  (let_p _ := popt y_ref in let_p _ := pmany not_d_or_p in k) (a ++ yt ++ z) = k (yt ++ z).
Proof.
  intros A D N. assert (S1 : stops not_d_or_p (yt ++ z) = true) by (apply (stops_app _ is_digit); auto; bytes).
  assert (S2 : stops is_par (yt ++ z) = true) by (apply (stops_app _ is_digit); auto; bytes).
  unfold pbind, popt. destruct A as [A|[x n b PX NN PB]].
  - rewrite y_ref_no by auto. apply plain_iff in A. rewrite pmany_app by auto. auto.
  - rewrite <- !app_assoc. rewrite y_ref_ok by auto. rewrite pmany_stops by auto. auto.
Qed.
Lemma year_right {X} (k : parser X) b : plain b \/ noted b -> (let_p _ := pmany not_d_or_p in let_p _ := popt y_ref in k) b = k [].
Proof.
  unfold pbind, popt. intros [B|[a n c A N C]].
  - apply plain_iff in B. pose proof (pmany_app not_d_or_p b [] B eq_refl) as P. rewrite app_nil_r in P. rewrite P. reflexivity.
  - destruct (note_inv n N) as (ds & E & _). rewrite pmany_app; [|apply plain_iff; auto|rewrite E; reflexivity].
    pose proof (y_ref_ok [] n c [] ltac:(constructor) N C eq_refl) as P. cbn [app] in P. rewrite app_nil_r in P. rewrite P. auto.
Qed.
Lemma year1 t y : year_text YOne t y -> g_year1 t = POk (Some y, Some 1) [].
Proof.
  intros H. inversion H as [a yt b y' A Y B|]; subst. destruct (year4_facts yt y Y) as (YD & YL & YV & YB & YN).
  unfold g_year1. rewrite year_left by auto. unfold pbind at 1. rewrite (prep_app 4 4 is_digit yt) by (auto; lia). rewrite year_right by auto.
  unfold pret. rewrite YV, nz_pos by lia. auto.
Qed.
Lemma year2_read t y : year_text YRange t y -> run_grammar g_year1 t = Err EParse /\ g_year2 t = POk (Some y, Some 1) [].
Proof.
  intros H. inversion H as [|a yt c d b y' A Y C D B]; subst. destruct (year4_facts yt y Y) as (YD & YL & YV & YB & YN). apply digit_iff in C, D.
  assert (A1 : plain a \/ noted a) by (destruct A as [-> |]; [left; constructor|auto]).
  assert (CS : stops not_d_or_p ([c; d] ++ b) = true) by (cbn [app]; unfold stops; assert (Q : forall c, is_digit c = true -> not_d_or_p c = false) by bytes; rewrite Q; auto).
  assert (CP : stops is_par ([c; d] ++ b) = true) by (cbn [app]; unfold stops; assert (Q : forall c, is_digit c = true -> is_par c = false) by bytes; rewrite Q; auto).
  split.
  - unfold run_grammar, g_year1. rewrite year_left by auto. unfold pbind. rewrite (prep_app 4 4 is_digit yt) by (auto; lia).
    cbn [app]. change ("/"%char :: c :: d :: b) with (["/"%char] ++ [c; d] ++ b). rewrite pmany_app by auto.
    unfold popt. pose proof (y_ref_no [] ([c; d] ++ b) ltac:(constructor) CS CP) as P. cbn [app] in P |- *. rewrite P. auto.
  - unfold g_year2, pbind.
    assert (S1 : forall z, stops not_d_or_p (yt ++ z) = true) by (intros; apply (stops_app _ is_digit); auto; bytes).
    assert (S2 : forall z, stops is_par (yt ++ z) = true) by (intros; apply (stops_app _ is_digit); auto; bytes).
    assert (P : exists o, popt y_ref (a ++ yt ++ ["/"%char; c; d] ++ b) = POk o (yt ++ ["/"%char; c; d] ++ b)).
    { unfold popt. destruct A as [-> | [x n e PX NN PE]].
      - exists None. pose proof (y_ref_no [] (yt ++ ["/"%char; c; d] ++ b) ltac:(constructor) (S1 _) (S2 _)) as P. cbn [app] in P |- *. rewrite P. auto.
      - exists (Some tt). rewrite <- !app_assoc. rewrite y_ref_ok by auto. auto. }
    destruct P as (o & ->). rewrite (prep_app 4 4 is_digit yt) by (auto; lia). cbn [app]. rewrite plit_head.
    change (c :: d :: b) with ([c; d] ++ b). rewrite prep_app by (auto; cbn; rewrite ?C, ?D; auto).
    assert (Q : exists o, popt y_ref b = POk o []).
    { destruct B as [-> | [x n e PX NN PE]]; [exists None; reflexivity|]. exists (Some tt). unfold popt.
      pose proof (y_ref_ok x n e [] PX NN PE eq_refl) as Q. rewrite app_nil_r in Q. rewrite Q. auto. }
    destruct Q as (o' & ->). unfold pret. rewrite YV, nz_pos by lia. auto.
Qed.

Lemma semester t y q : semester_text t y q -> g_semester t = POk (y, Some (6 * q - 5)) [] /\ 1 <= q <= 2.
Proof.
  intros H. inversion H as [a k s yt b y' q' A K Q SP Y TL|a k s q' A K Q SP]; subst.
  - destruct (year2_facts yt y' Y) as (YD & YL & YV & YB & YN). destruct (roman_facts k q K) as (F & L & _ & V & NE & B). split; [|lia].
    assert (KH : forall z, stops head_only (k ++ z) = true) by (intros z; apply (stops_app _ _ k z F); auto; bytes).
    unfold g_semester. unfold pbind at 1. rewrite pws_stops by (apply mark_ws; auto).
    unfold pbind at 1. destruct (mark_popt a (k ++ s ++ yt ++ b) A (KH _)) as (o & ->).
    unfold pbind at 1. rewrite (pmany_app q_not_digit k).
    2:{ eapply forallb_imp; [|exact F]. bytes. }
    2:{ apply (sep_head "-/.S "); auto. apply (stops_app _ is_digit); auto. bytes. }
    unfold pbind at 1. rewrite (pmany_app ssep s); [|apply (sep_class "-/.S "); auto|apply (stops_app _ is_digit); auto; bytes].
    unfold pbind at 1. unfold popt at 1. rewrite (prep_app 2 2 is_digit yt) by (auto; lia). rewrite tail_end by auto.
    unfold pbind, pact, opt_dob. rewrite YV, V by auto. auto.
  - destruct (roman_facts k q K) as (F & L & _ & V & NE & B). split; [|lia].
    assert (KH : forall z, stops head_only (k ++ z) = true) by (intros z; apply (stops_app _ _ k z F); auto; bytes).
    unfold g_semester. unfold pbind at 1. rewrite pws_stops by (apply mark_ws; auto).
    unfold pbind at 1. destruct (mark_popt a (k ++ s) A (KH _)) as (o & ->).
    rewrite <- (app_nil_r s). unfold pbind at 1. rewrite (pmany_app q_not_digit k).
    2:{ eapply forallb_imp; [|exact F]. bytes. }
    2:{ apply (sep_head "-/.S "); auto. }
    unfold pbind at 1. rewrite (pmany_app ssep s); [|apply (sep_class "-/.S "); auto|auto].
    unfold pbind. cbn. rewrite V by auto. auto.
Qed.

(** ** Dates *)
Lemma make_ok y m : 1 <= y <= 9999 -> 1 <= m <= 12 -> make_date y m 1 = Ok (mkdt y m 1 0).
Proof.
  intros Y M. unfold make_date, valid_ymd. assert (D : 1 <= days_in_month y m); [|replace ((1 <=? y) && (y <=? 9999) && (1 <=? m) && (m <=? 12) && (1 <=? 1) && (1 <=? days_in_month y m)) with true by lia; auto].
  unfold days_in_month. repeat match goal with |- context [if ?b then _ else _] => destruct b end; lia.
Qed.
(** the previous date is a date and years are between 1 and 9999 *)
Lemma peg_read e s t y m last d : s <> SQuarterYear1 -> grammar e s t = POk (y, Some m) [] -> 1 <= m <= 12 ->
  (forall z, y = Some z -> 1 <= z <= 9999) -> (forall l, last = Some l -> 1 <= dt_y l <= 9999) -> month_of y m last d ->
  peg_parse e s t last = Ok d.
Proof.
  intros NS G M YB LB H. unfold peg_parse, run_grammar. rewrite G. cbn [bind]. unfold fill_holes.
  inversion H as [z m' last'|m' l]; subst.
  - assert (F : match last with Some l => match s with SQuarterYear1 => (or_else (Some z) (dt_y l), or_else (Some m) (dt_m l)) | _ => (or_else (Some z) (dt_y l), or_else (Some m) (dt_m l)) end | None => (or_else (Some z) 1, or_else (Some m) 1) end = (z, m)) by (destruct last; destruct s; auto).
    rewrite F. replace ((1 <=? m) && (m <=? 12)) with true by lia. apply make_ok; auto.
  - assert (F : match s with SQuarterYear1 => (or_else None (dt_y l), or_else (Some m) (dt_m l)) | _ => (or_else None (dt_y l), or_else (Some m) (dt_m l)) end = (dt_y l, m)) by (destruct s; auto).
    rewrite F. replace ((1 <=? m) && (m <=? 12)) with true by lia. apply make_ok; auto.
Qed.
