(** Reading the texts of a table of years and quarters (C78). *)
From Coq Require Import ZifyBool ZifyNat ZifyN.
From Verif Require Import Base BaseFacts CoordFacts Cal CalFacts Peg ParseTime TimeIndex SpecCal SpecTime SpecData SpecParse SpecYears TimeProofs NumberFacts DataFacts TextProofs ParseFacts ParseFacts2 QuarterProofs MonthProofs YearProofs PoolProofs ComposedProofs.
Local Open Scope Z_scope.

Lemma note_no_year n r : note n -> stops is_digit r = true \/ True -> prep 4 4 is_digit (tl n ++ r) = PFail.
Proof.
  intros N _. destruct (note_inv n N) as (ds & -> & L & D). cbn [tl]. rewrite <- app_assoc. apply (prep_short 4 4 is_digit ds); auto; lia.
Qed.
Lemma notes_no_year a s : forallb not_digit a = true -> notes s -> yq_year (a ++ s) = PFail.
Proof.
  intros A N. unfold yq_year, pbind.
  assert (FD : forall b, filler b -> forallb not_digit b = true) by (intros b B; apply filler_iff in B; revert B; unfold filler_b; apply forallb_imp; bytes).
  assert (G : forall x n r, forallb not_digit x = true -> note n -> match pmany not_digit (x ++ n ++ r) with POk _ t => prep 4 4 is_digit t | PFail => PFail | PExn y => PExn y end = PFail).
  { intros x n r X NN. pose proof (note_no_year n r NN (or_intror I)) as P. destruct (note_inv n NN) as (ds & E & L & D). subst n. cbn [app tl] in *.
    change (x ++ "("%char :: (ds ++ [")"%char]) ++ r) with (x ++ ["("%char] ++ (ds ++ [")"%char]) ++ r). rewrite app_assoc.
    rewrite pmany_app; [exact P| |].
    - rewrite forallb_app, X. reflexivity.
    - destruct ds as [|c ds]; [cbn in L; lia|]. cbn in D. apply andb_true_iff in D as [D _]. cbn.
      assert (S : forall c, is_digit c = true -> negb (not_digit c) = true) by bytes. auto. }
  destruct N as [b B|b n c B N C|b n c m B N C M].
  - assert (X : forallb not_digit (a ++ b) = true) by (rewrite forallb_app, A, (FD b B); auto).
    pose proof (pmany_app not_digit (a ++ b) [] X eq_refl) as P. rewrite app_nil_r in P. rewrite P. reflexivity.
  - specialize (G (a ++ b) n c). rewrite <- app_assoc in G. rewrite forallb_app, A, (FD b B) in G. specialize (G eq_refl N). unfold pmany in *. rewrite G. reflexivity.
  - specialize (G (a ++ b) n (c ++ m)). rewrite <- app_assoc in G. rewrite forallb_app, A, (FD b B) in G. specialize (G eq_refl N). unfold pmany in *. rewrite G. reflexivity.
Qed.

Lemma read_year u y : year_said u y -> g_year_quarter1 u = POk (Some y, None) [] /\ 1 <= y <= 9999.
Proof.
  intros [a yt b y' A Y B]. apply nodigit_iff in A, B. destruct (year4_facts yt y' Y) as (YD & YL & YV & YB & YN). split; auto.
  unfold g_year_quarter1, pbind at 1. unfold popt at 1.
  assert (NY : yq_year (a ++ yt ++ b) = POk y' []).
  { unfold yq_year, pbind. rewrite (pmany_app not_digit a) by (auto; apply (stops_app _ is_digit); auto; bytes). rewrite (prep_app 4 4 is_digit yt) by (auto; lia).
    pose proof (pmany_app not_digit b [] B eq_refl) as P. rewrite app_nil_r in P. rewrite P, YV. reflexivity. }
  rewrite NY. assert (O : opt_year (Some y') = Some y') by (unfold opt_year; apply nz_pos; lia).
  unfold pbind, popt, pret. cbn - [opt_year]. rewrite O. reflexivity.
Qed.
Lemma read_quarter u q : quarter_said u q -> g_year_quarter1 u = POk (None, Some (3 * q - 2)) [] /\ 1 <= q <= 4.
Proof.
  intros [a k s q' A K N]. apply filler_iff in A. destruct (roman_facts k q' K) as (F & L & V & _ & NE & B). split; auto.
  unfold g_year_quarter1, pbind at 1. unfold popt at 1.
  assert (NY : yq_year (a ++ k ++ s) = PFail).
  { rewrite app_assoc. apply notes_no_year; auto. rewrite forallb_app. apply andb_true_iff. split; [revert A; unfold filler_b|revert F]; apply forallb_imp; bytes. }
  rewrite NY. unfold pbind at 1. unfold popt at 1.
  assert (Q : yq_quarter (a ++ k ++ s) = POk k (drop_while not_d_or_q s)).
  { unfold yq_quarter, pbind. rewrite (pmany_app not_d_or_q a) by (auto; apply (stops_app _ is_IV); auto; bytes).
    rewrite (prep_app 1 3 is_IV k) by (auto; right; apply notes_stops; auto; bytes). reflexivity. }
  rewrite Q.
  pose proof (notes_end (let_p m := pact (q_to_m k) in pret (opt_year None, m)) s N) as P.
  unfold pbind, pret in *. unfold pmany at 1 in P. rewrite P. unfold pact. rewrite V. reflexivity.
Qed.
Lemma read_nothing u : nothing_said u -> g_year_quarter1 u = POk (None, None) [] /\ u <> [].
Proof.
  intros NS. assert (EX : exists a z, u = a ++ z /\ forallb not_d_or_q a = true /\ (z = [] \/ note z) /\ notes u /\ u <> []).
  { destruct NS as [a NE A|a n A N]; pose proof A as A'; apply filler_iff in A'; unfold filler_b in A'.
    - exists a, []. rewrite app_nil_r. split; auto. split; auto. split; auto. split; [constructor; auto|auto].
    - exists a, n. split; auto. split; auto. split; auto. split; [rewrite <- (app_nil_r n); apply notes_1; auto; constructor|].
      destruct (note_inv n N) as (ds & -> & _). destruct a; discriminate. }
  destruct EX as (a & z & E & A & Z0 & N & NE). split; auto.
  unfold g_year_quarter1, pbind at 1. unfold popt at 1. pose proof (notes_no_year [] u eq_refl N) as NY. cbn [app] in NY. rewrite NY.
  unfold pbind at 1. unfold popt at 1.
  assert (SP : stops not_d_or_q z = true) by (destruct Z0 as [->|Z0]; auto; destruct (note_inv z Z0) as (ds & -> & _); reflexivity).
  assert (Q : yq_quarter u = PFail).
  { subst u. unfold yq_quarter, pbind. rewrite pmany_app by auto. destruct Z0 as [->|Z0]; auto. destruct (note_inv z Z0) as (ds & -> & _). reflexivity. }
  rewrite Q.
  assert (END : forall b, forallb not_d_or_q b = true -> (let_p _ := pmany not_d_or_q in let_p _ := popt pref in let_p m := pact (Ok (@None Z)) in pret (opt_year None, m)) (b ++ z) = POk (None, None) []).
  { intros b B. unfold pbind. rewrite pmany_app by auto. destruct Z0 as [->|Z0]; [reflexivity|].
    assert (PM : pref z = POk tt []) by (pose proof (pref_note [] z [] ltac:(auto) Z0) as P; cbn [app] in P; rewrite app_nil_r in P; exact P).
    unfold popt. rewrite PM. reflexivity. }
  unfold pbind at 1. subst u. destruct a as [|c a].
  - cbn [app]. destruct Z0 as [->|Z0]; [contradiction (NE eq_refl)|].
    assert (PM : pref z = POk tt []) by (pose proof (pref_note [] z [] ltac:(auto) Z0) as P; cbn [app] in P; rewrite app_nil_r in P; exact P).
    unfold popt at 1. rewrite PM. reflexivity.
  - cbn [forallb] in A. apply andb_true_iff in A as [C A]. destruct (is_star c) eqn:SC.
    + assert (c = "*"%char) by (unfold is_star in SC; apply ch_eqb_eq in SC; auto). subst c. cbn [app]. unfold popt at 1. rewrite pref_star. apply END. auto.
    + destruct (stops is_par (drop_while is_space ((c :: a) ++ z))) eqn:P.
      * unfold popt at 1. rewrite pref_fail; auto; [|cbn; rewrite SC; auto]. apply END. cbn. rewrite C. auto.
      * assert (W : forallb is_space (c :: a) = true).
        { destruct (drop_suffix is_space (c :: a)) as (x & X & XS). destruct (drop_while is_space (c :: a)) as [|y l] eqn:D; [rewrite X, app_nil_r; auto|].
          exfalso. assert (DD : drop_while is_space ((c :: a) ++ z) = y :: l ++ z).
          { rewrite X, <- app_assoc, drop_app by auto. pose proof (drop_ends is_space (c :: a)) as DE. rewrite D in DE. cbn in DE. cbn. destruct (is_space y); [discriminate|auto]. }
          rewrite DD in P. cbn in P. assert (YI : not_d_or_q y = true).
          { assert (IN : forallb not_d_or_q (c :: a) = true) by (cbn; rewrite C; auto). rewrite X, forallb_app in IN. apply andb_true_iff in IN as [_ IN]. cbn in IN. apply andb_true_iff in IN. tauto. }
          assert (S : forall x, not_d_or_q x = true -> is_par x = false) by bytes. rewrite (S y YI) in P. discriminate. }
        destruct Z0 as [->|Z0].
        { exfalso. rewrite app_nil_r in P. pose proof (drop_app is_space (c :: a) [] W) as DD. rewrite app_nil_r in DD. rewrite DD in P. discriminate. }
        assert (WW : Forall white (c :: a)) by (apply (forall_b white is_space); auto; apply white_space).
        pose proof (pref_note (c :: a) z [] WW Z0) as PN. rewrite app_nil_r in PN. unfold popt at 1. rewrite PN. reflexivity.
Qed.

(** ** The dates read *)
Definition year_strategy (f : string) : strat := if string_dec f "AQQQQ" then SYearQuarter1 else SQuarterYear1.
Definition years_freq (f : string) : Prop := f = "AQQQQ"%string \/ f = "QQQQA"%string.
Lemma years_read e f v u last next d g : years_freq f -> SpecParse.says v u -> g_year_quarter1 u = POk g [] -> 
  peg_parse e (year_strategy f) u last = Ok d -> reads e f (year_strategy f) v last next d.
Proof.
  intros [-> | ->] S G P; apply (says_reads _ _ _ _ u); auto.
  - apply (reads_by e "AQQQQ" SYearQuarter1 [SMonth1; SMonth2; SQuarter1; SQuarter2; SQuarter3; SQuarter4; SQuarterYear1; SSemester; SYear1; SYear2] [SSimple] u u last next d g); auto; try discriminate.
    + eapply says_trimmed; eauto.
    + repeat (apply Forall_cons; [split; [discriminate|left; reflexivity]|]); apply Forall_nil.
  - apply (reads_by e "QQQQA" SQuarterYear1 [SMonth1; SMonth2; SQuarter1; SQuarter2; SQuarter3; SQuarter4] [SSemester; SYear1; SYear2; SYearQuarter1; SSimple] u u last next d g); auto; try discriminate.
    + eapply says_trimmed; eauto.
    + repeat (apply Forall_cons; [split; [discriminate|left; reflexivity]|]); apply Forall_nil.
Qed.
Lemma peg_g e f u last y m : years_freq f -> g_year_quarter1 u = POk (y, m) [] -> peg_parse e (year_strategy f) u last =
  let '(a, b) := fill_holes (year_strategy f) (y, m) last in if (1 <=? b) && (b <=? 12) then make_date a b 1 else Err EMonth.
Proof.
  intros F G. unfold peg_parse, run_grammar. replace (grammar e (year_strategy f)) with g_year_quarter1 by (destruct F as [-> | ->]; reflexivity). rewrite G. reflexivity.
Qed.
Definition month_before (last : option datetime) : Z := match last with Some l => dt_m l | None => 1 end.
Lemma reads_year e f v u y last next : years_freq f -> SpecParse.says v u -> year_said u y -> real_last last ->
  reads e f (year_strategy f) v last next (mkdt y (month_before last) 1 0).
Proof.
  intros F S Y RL. destruct (read_year u y Y) as [G B]. apply (years_read e f v u last next _ _ F S G). rewrite (peg_g e f u last _ _ F G).
  assert (M : 1 <= month_before last <= 12) by (destruct last as [l|]; cbn; [destruct (RL l eq_refl) as (_ & _ & n & R & _); apply month_length_range in R; tauto|lia]).
  replace (fill_holes (year_strategy f) (Some y, None) last) with (y, month_before last) by (destruct F as [-> | ->], last; reflexivity).
  replace ((1 <=? month_before last) && (month_before last <=? 12)) with true by lia. apply make_ok; auto.
Qed.
Lemma reads_quarter e f v u q l next : years_freq f -> SpecParse.says v u -> quarter_said u q -> real_date l ->
  reads e f (year_strategy f) v (Some l) next (mkdt (dt_y l) (3 * q - 2) 1 0).
Proof.
  intros F S Y RL. destruct (read_quarter u q Y) as [G B]. apply (years_read e f v u (Some l) next _ _ F S G). rewrite (peg_g e f u (Some l) _ _ F G).
  replace (fill_holes (year_strategy f) (None, Some (3 * q - 2)) (Some l)) with (dt_y l, 3 * q - 2) by (destruct F as [-> | ->]; reflexivity).
  replace ((1 <=? 3 * q - 2) && (3 * q - 2 <=? 12)) with true by lia. apply make_ok; [apply real_year; auto|lia].
Qed.
Lemma reads_nothing e v u l next : SpecParse.says v u -> nothing_said u -> real_date l -> dt_m l = 10 ->
  reads e "QQQQA" SQuarterYear1 v (Some l) next (mkdt (dt_y l) 1 1 0).
Proof.
  intros S Y RL M. destruct (read_nothing u Y) as [G _]. assert (F : years_freq "QQQQA") by (right; auto).
  apply (years_read e "QQQQA" v u (Some l) next _ _ F S G). rewrite (peg_g e "QQQQA" u (Some l) _ _ F G).
  unfold fill_holes. change (year_strategy "QQQQA") with SQuarterYear1. cbn iota. rewrite M. cbn [Z.eqb Pos.eqb]. cbn iota. apply make_ok; [apply real_year; auto|lia].
Qed.
