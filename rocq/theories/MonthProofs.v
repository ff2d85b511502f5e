(** Reading the months, years and semesters (C41 - C44). *)
From Coq Require Import ZifyBool ZifyNat ZifyN.
From Verif Require Import Base BaseFacts CoordFacts Cal Peg ParseTime TimeIndex SpecCal SpecTime SpecData SpecParse TimeProofs NumberFacts DataFacts TextProofs ParseFacts ParseFacts2 QuarterProofs.
Local Open Scope Z_scope.

Lemma year_any yt y : year4 yt y \/ year2 yt y -> forallb is_digit yt = true /\ (List.length yt = 4%nat \/ List.length yt = 2%nat) /\ dob_year_to_four yt = Ok (Some y) /\ yt <> [] /\ 1 <= y <= 9999.
Proof.
  intros [Y|Y].
  - destruct (year4_facts yt y Y) as (D & L & V & B & N). pose proof (year4_dob yt y Y). auto.
  - destruct (year2_facts yt y Y) as (D & L & V & B & N). split; [auto|]. split; [auto|]. split; [auto|]. split; [auto|lia].
Qed.
Lemma name_facts e t m : month_name e t m -> forallb is_letter t = true /\ (3 <= List.length t <= 50)%nat /\ month_num e t = Some m /\ t <> [] /\ 1 <= m <= 12.
Proof.
  intros [u k L F E B]. split; [apply (forall_b letter); auto; apply letter_iff|]. split; [auto|]. split; [|split; [destruct u; [cbn in L; lia|discriminate]|auto]].
  unfold month_num. rewrite E. apply nz_pos. lia.
Qed.
Lemma number_facts t m : month_number t m -> forallb is_digit t = true /\ (1 <= List.length t <= 2)%nat /\ int_of t = m /\ t <> [] /\ 1 <= m <= 12.
Proof.
  intros [u k L D B]. apply NumberFacts.decimal_iff in D as [D V]. split; [auto|]. split; [auto|]. split; [auto|]. split; [destruct u; [cbn in L; lia|discriminate]|auto].
Qed.

(** ** Between the name and the year *)
Definition is_sep := in_set ".-/,".
Lemma m1_sep_ok b c b' r : Forall white b -> among ".-/," c -> Forall white b' -> stops is_space r = true -> m1_sep (b ++ c :: b' ++ r) = POk tt r.
Proof.
  intros B C B' R. apply in_set_iff in C. apply white_all in B, B'. unfold m1_sep, pbind.
  rewrite (pws_app b) by (auto; assert (H : forall c, is_sep c = true -> is_space c = false) by bytes; unfold stops; rewrite H; auto).
  unfold pch, anything. rewrite (pws_app b') by auto. rewrite C. auto.
Qed.
Lemma m1_sep_no t : stops is_sep (drop_while is_space t) = true -> m1_sep t = PFail.
Proof.
  intros H. unfold m1_sep, pbind. unfold pws, pmany. destruct (drop_while is_space t) as [|c r]; auto. unfold pch, anything. unfold stops in H.
  apply negb_true_iff in H. unfold is_sep in H. rewrite H. auto.
Qed.
(** the rest after the mark and the separator *)
Definition joining {A} (k : parser A) : parser A := let_p _ := popt pref in let_p _ := popt m1_sep in k.
Definition target (c : ascii) : bool := is_digit c || is_letter c.
Lemma target_head r f : (forall c, target c = true -> f c = false) -> stops target r = false -> stops f r = true.
Proof. intros H R. destruct r as [|c r]; auto. unfold stops in *. apply negb_false_iff in R. rewrite H; auto. Qed.
Lemma joint_ok j r : joint j -> stops target r = false -> exists o r', popt m1_sep (j ++ r) = POk o r' /\ drop_while is_space r' = r.
Proof.
  intros J R. assert (RS : stops is_space r = true) by (apply target_head; auto; bytes). destruct J as [b B|b c b' B C B'].
  - exists None, (b ++ r). unfold popt. rewrite m1_sep_no.
    + split; auto. rewrite drop_app by (apply white_all; auto). apply drop_stops. auto.
    + rewrite drop_app by (apply white_all; auto). rewrite drop_stops by auto. apply target_head; auto. bytes.
  - exists (Some tt), r. unfold popt. rewrite <- app_assoc. cbn [app]. rewrite m1_sep_ok by auto. split; auto. apply drop_stops. auto.
Qed.
Lemma joint_head j r : joint j -> stops target r = false -> stops is_par (drop_while is_space (j ++ r)) = true /\ stops is_star (j ++ r) = true.
Proof.
  intros J R. assert (RS : stops is_space r = true) by (apply target_head; auto; bytes). destruct J as [b B|b c b' B C B']; apply white_all in B.
  - rewrite drop_app, drop_stops by auto. split; [apply target_head; auto; bytes|]. apply (stops_app2 is_star is_space); auto; [bytes|]. apply target_head; auto; bytes.
  - apply in_set_iff in C. rewrite <- app_assoc. cbn [app]. rewrite drop_app by auto.
    assert (H : forall c, is_sep c = true -> is_space c = false) by bytes. assert (H1 : forall c, is_sep c = true -> is_par c = false) by bytes.
    assert (H2 : forall c, is_sep c = true -> is_star c = false) by bytes.
    rewrite drop_stops by (unfold stops; rewrite H; auto). split; [unfold stops; rewrite H1; auto|].
    apply (stops_app2 is_star is_space); auto; [bytes|]. unfold stops; rewrite H2; auto.
Qed.
Lemma joint_drop j r : joint j -> exists j', joint j' /\ drop_while is_space (j ++ r) = drop_while is_space (j' ++ r) /\ (stops is_space r = true -> drop_while is_space (j' ++ r) = j' ++ r).
Proof.
  intros [b B|b c b' B C B'].
  - exists []. split; [constructor; constructor|]. rewrite drop_app by (apply white_all; auto). split; auto. intros S1. apply drop_stops. auto.
  - exists (c :: b'). split; [apply (joint_sep [] c b'); auto|]. rewrite <- app_assoc. rewrite drop_app by (apply white_all; auto). split; auto.
    intros _. apply drop_stops. apply in_set_iff in C. cbn [app]. assert (H : forall c, is_sep c = true -> is_space c = false) by bytes. unfold stops. rewrite H; auto.
Qed.
Lemma joining_ok {A} (k : parser A) j r : joint_mark j -> stops target r = false -> exists r', joining k (j ++ r) = k r' /\ drop_while is_space r' = r.
Proof.
  assert (RS : stops target r = false -> stops is_space r = true) by (intros; apply target_head; auto; bytes).
  intros [j' J|j' J|b n j' B N J] R; unfold joining, pbind.
  - destruct (joint_head j' r J R) as [H1 H2]. unfold popt at 1. rewrite pref_fail by auto. destruct (joint_ok j' r J R) as (o & r' & E & D). rewrite E. eauto.
  - cbn [app]. unfold popt at 1. rewrite pref_star. destruct (joint_ok j' r J R) as (o & r' & E & D). rewrite E. eauto.
  - rewrite <- !app_assoc. unfold popt at 1. rewrite pref_note by auto. destruct (joint_drop j' r J) as (i & I & E & S1). rewrite E, S1 by auto.
    destruct (joint_ok i r I R) as (o & r' & E' & D). rewrite E'. eauto.
Qed.
(** blanks before are no matter *)
Lemma mark_drop j r : joint_mark j -> stops target r = false -> exists j', joint_mark j' /\ drop_while is_space (j ++ r) = j' ++ r.
Proof.
  intros J R. assert (RS : stops is_space r = true) by (apply target_head; auto; bytes). destruct J as [j' J|j' J|b n j' B N J].
  - destruct (joint_drop j' r J) as (i & I & E & S1). exists i. split; [constructor; auto|]. rewrite E. apply S1. auto.
  - exists ("*"%char :: j'). split; [apply jm_star; auto|]. apply drop_stops. auto.
  - exists (n ++ j'). split; [apply (jm_note [] n j'); auto|]. rewrite <- !app_assoc. rewrite drop_app by (apply white_all; auto).
    destruct (note_inv n N) as (ds & -> & _). rewrite drop_stops; auto.
Qed.

Lemma m1_y_ok yt r r' : forallb is_digit yt = true -> (2 <= List.length yt <= 4)%nat -> (List.length yt = 4%nat \/ stops is_digit r = true) -> drop_while is_space r' = yt ++ r ->
  m1_y r' = POk yt (drop_while is_space r).
Proof. intros D L E R. unfold m1_y, pbind, pws, pmany. rewrite R. rewrite prep_app by (auto; lia). auto. Qed.
Lemma m1_m_ok t r r' : forallb is_letter t = true -> (3 <= List.length t <= 50)%nat -> stops is_letter r = true -> drop_while is_space r' = t ++ r -> exists r2,
  m1_m r' = POk t r2 /\ (r = "."%char :: r2 \/ r2 = r).
Proof.
  intros D L E R. unfold m1_m, pbind, pws, pmany. rewrite R. rewrite prep_app by (auto; lia). unfold popt. destruct (plit "." r) as [x y| |x] eqn:P.
  - apply plit_split in P. subst. eexists. split; [reflexivity|auto].
  - eexists. split; [reflexivity|auto].
  - exfalso. eapply plit_exn; eauto.
Qed.
Lemma pmany_all t : pmany anything t = POk t [].
Proof.
  pose proof (pmany_app anything t [] ltac:(clear; induction t; auto) eq_refl) as H. rewrite app_nil_r in H. auto.
Qed.
Lemma app_target t r : t <> [] -> forallb is_digit t = true \/ forallb is_letter t = true -> stops target (t ++ r) = false.
Proof.
  destruct t as [|c t]; [congruence|]. intros _ H. cbn [app stops]. apply negb_false_iff. unfold target. cbn in H.
  destruct (is_digit c), (is_letter c); auto. destruct H; discriminate.
Qed.

Lemma sep_left t r : m1_sep t = POk tt r -> exists a, t = a ++ r.
Proof.
  unfold m1_sep, pbind, pws, pmany, pch, anything. destruct (drop_suffix is_space t) as (a & E & _). destruct (drop_while is_space t) as [|c u]; [discriminate|].
  destruct (drop_suffix is_space u) as (b & F & _). destruct (in_set ".-/," c); [|discriminate]. intros H. injection H as <-.
  exists (a ++ c :: b). rewrite E. rewrite F at 1. rewrite <- app_assoc. auto.
Qed.
Lemma sep_exn t x : m1_sep t <> PExn x.
Proof. unfold m1_sep, pbind, pws, pmany, pch, anything. destruct (drop_while is_space t) as [|c u]; [discriminate|]. destruct (in_set ".-/," c); discriminate. Qed.
Lemma nodigit_suffix a t : forallb not_digit (a ++ t) = true -> forallb not_digit t = true.
Proof. rewrite forallb_app, andb_true_iff. tauto. Qed.
Lemma y_nodigit t : forallb not_digit t = true -> m1_y t = PFail.
Proof.
  intros D. unfold m1_y, pbind, pws, pmany. destruct (drop_suffix is_space t) as (a & E & _). rewrite E in D. apply nodigit_suffix in D.
  rewrite prep_stops; [auto| |lia]. destruct (drop_while is_space t) as [|c r]; auto. cbn in D. apply andb_true_iff in D as [D _].
  assert (H : forall c, not_digit c = true -> is_digit c = false) by bytes. unfold stops. rewrite H; auto.
Qed.
Lemma sep_nodigit {A} (k : text -> parser A) t : forallb not_digit t = true -> (let_p _ := popt m1_sep in let_p y := m1_y in k y) t = PFail.
Proof.
  intros D. unfold pbind, popt. destruct (m1_sep t) as [[] r| |x] eqn:E.
  - destruct (sep_left _ _ E) as (a & F). rewrite y_nodigit; auto. rewrite F in D. apply nodigit_suffix in D. auto.
  - rewrite y_nodigit; auto.
  - exfalso. eapply sep_exn; eauto.
Qed.
Lemma joining_nodigit {A} (k : text -> parser A) t : forallb not_digit t = true -> (let_p _ := popt pref in let_p _ := popt m1_sep in let_p y := m1_y in k y) t = PFail.
Proof.
  intros D. pose proof (sep_nodigit k) as SN. unfold pbind at 1. unfold popt at 1. destruct (pref t) as [[] r| |x] eqn:E.
  - destruct (pref_left _ _ E) as (a & F & _). apply SN. rewrite F in D. apply nodigit_suffix in D. auto.
  - apply SN. auto.
  - exfalso. eapply pref_exn; eauto.
Qed.
Lemma y_letters t r : forallb is_letter t = true -> t <> [] -> m1_y (t ++ r) = PFail.
Proof.
  intros NL NN. unfold m1_y, pbind, pws, pmany. rewrite drop_stops by (apply (stops_app _ is_letter); auto; bytes).
  rewrite prep_stops by first [lia|apply (stops_app _ is_letter); auto; bytes]. auto.
Qed.

Lemma month1 e t y m : month_text e MName t y m -> g_month1 e t = POk (y, Some m) [].
Proof.
  intros H. inversion H as [yt j n r y' m' Y J N R|n d j yt r y' m' N D J Y|n r m' N R1 R2|n d b nt r m' N D B NT R| | |]; subst.
  - destruct (year_any yt y' Y) as (YD & YL & YV & YN & YB). destruct (name_facts e n m N) as (NL & LL & NV & NN & MB).
    apply (begins_stops letter is_letter) in R; [|apply letter_iff].
    assert (TR : stops target (n ++ r) = false) by (apply app_target; auto).
    destruct (mark_drop j (n ++ r) J TR) as (j' & J' & E).
    assert (DJ : stops is_digit (j ++ n ++ r) = true).
    { assert (NS : stops is_digit (n ++ r) = true) by (apply (stops_app is_digit is_letter); auto; bytes).
      assert (WS : forall b z, Forall white b -> stops is_digit z = true -> stops is_digit (b ++ z) = true) by
        (intros b z B ZZ; apply white_all in B; apply (stops_app2 is_digit is_space); auto; bytes).
      assert (JS : forall i z, joint i -> stops is_digit z = true -> stops is_digit (i ++ z) = true).
      { intros i z [b B|b c b' B C B'] ZZ; auto. rewrite <- app_assoc. apply WS; auto. apply in_set_iff in C. cbn [app].
        assert (Q : forall c, is_sep c = true -> is_digit c = false) by bytes. unfold stops. rewrite Q; auto. }
      destruct J as [i I|i I|b x i B NX I]; auto. rewrite <- !app_assoc. apply WS; auto. destruct (note_inv x NX) as (ds & -> & _). auto. }
    unfold g_month1, por.
    assert (P1 : m1_y (yt ++ j ++ n ++ r) = POk yt (j' ++ n ++ r)).
    { rewrite <- E. apply m1_y_ok; auto; [lia|]. apply drop_stops. apply (stops_app _ is_digit); auto. bytes. }
    unfold pbind at 1. rewrite P1.
    pose proof (joining_ok (let_p m0 := m1_m in let_p _ := pmany anything in let_p yy := pact (dob_year_to_four yt) in pret (yy, month_num e m0)) j' (n ++ r) J' TR) as (r' & P2 & P3).
    unfold joining in P2. rewrite P2. destruct (m1_m_ok n r r' NL LL R P3) as (r2 & P4 & _). unfold pbind at 1. rewrite P4.
    unfold pbind. rewrite pmany_all. unfold pact. rewrite YV, NV. reflexivity.
  - assert (Y' : year4 yt y' \/ year2 yt y') by tauto.
    destruct (year_any yt y' Y') as (YD & YL & YV & YN & YB). destruct (name_facts e n m N) as (NL & LL & NV & NN & MB).
    assert (YR : List.length yt = 4%nat \/ stops is_digit r = true).
    { destruct Y as [Y|[Y RB]]; [left; destruct (year4_facts yt y' Y); tauto|right]. apply (begins_stops digit is_digit) in RB; auto. apply digit_iff. }
    assert (TR : stops target (yt ++ r) = false) by (apply app_target; auto).
    assert (F1 : m1_y (n ++ d ++ j ++ yt ++ r) = PFail).
    { unfold m1_y, pbind, pws, pmany. rewrite drop_stops by (apply (stops_app _ is_letter); auto; bytes). rewrite prep_stops by first [lia|apply (stops_app _ is_letter); auto; bytes]. auto. }
    unfold g_month1, por. unfold pbind at 1. rewrite F1.
    assert (LS : stops is_letter (d ++ j ++ yt ++ r) = true).
    { assert (NS : stops is_letter (yt ++ r) = true) by (apply (stops_app is_letter is_digit); auto; bytes).
      assert (WS : forall b z, Forall white b -> stops is_letter z = true -> stops is_letter (b ++ z) = true) by
        (intros b z B ZZ; apply white_all in B; apply (stops_app2 is_letter is_space); auto; bytes).
      assert (JS : forall i z, joint i -> stops is_letter z = true -> stops is_letter (i ++ z) = true).
      { intros i z [b B|b c b' B C B'] ZZ; auto. rewrite <- app_assoc. apply WS; auto. apply in_set_iff in C. cbn [app].
        assert (Q : forall c, is_sep c = true -> is_letter c = false) by bytes. unfold stops. rewrite Q; auto. }
      destruct D; [cbn [app]|reflexivity]. destruct J as [i I|i I|b x i B NX I]; auto. rewrite <- !app_assoc. apply WS; auto. destruct (note_inv x NX) as (ds & -> & _). auto. }
    assert (M1 : exists j', joint_mark j' /\ m1_m (n ++ d ++ j ++ yt ++ r) = POk n (j' ++ yt ++ r)).
    { assert (P1 : forall z, plit "." ("."%char :: z) = POk "."%char z) by (intros; apply plit_head).
      unfold m1_m, pbind, pws, pmany. rewrite drop_stops by (apply (stops_app _ is_letter); auto; bytes). rewrite prep_app by (auto; lia). unfold popt, pret.
      destruct D; [cbn [app]|cbn [app]; rewrite P1; eauto].
      destruct (plit "." (j ++ yt ++ r)) as [x z| |x] eqn:P; [|eauto|exfalso; eapply plit_exn; eauto].
      apply plit_split in P.
      assert (YS : forall z, stops (fun c => ch_eqb c ".") (yt ++ z) = true) by (intros; apply (stops_app _ is_digit); auto; bytes).
      destruct J as [i I|i I|b w i B NX I].
      - destruct I as [b B|b c b' B C B'].
        + destruct b as [|h b]; [cbn [app] in P; specialize (YS r); rewrite P in YS; discriminate|]. inversion B; subst. cbn [app] in P. injection P as -> _.
          apply white_space in H2. discriminate.
        + destruct b as [|h b]; [|inversion B; subst; cbn [app] in P; injection P as -> _; apply white_space in H2; discriminate].
          cbn [app] in P. injection P as -> <-. exists b'. split; auto. constructor. constructor. auto.
      - cbn [app] in P. discriminate.
      - destruct b as [|h b]; [destruct (note_inv w NX) as (ds & -> & _); cbn [app] in P; discriminate|].
        inversion B; subst; cbn [app] in P; injection P as -> _; apply white_space in H2; discriminate. }
    destruct M1 as (j' & J' & M1). unfold pbind at 1. rewrite M1.
    pose proof (joining_ok (let_p y0 := m1_y in let_p _ := pmany anything in let_p yy := pact (dob_year_to_four y0) in pret (yy, month_num e n)) j' (yt ++ r) J' TR) as (r' & P2 & P3).
    unfold joining in P2. rewrite P2. pose proof (m1_y_ok yt r r' YD ltac:(lia) YR P3) as P4. unfold pbind at 1. rewrite P4.
    unfold pbind. rewrite pmany_all. unfold pact. rewrite YV, NV. reflexivity.
  - destruct (name_facts e n m N) as (NL & LL & NV & NN & MB). apply nodigit_iff in R1. apply (begins_stops letter is_letter) in R2; [|apply letter_iff].
    unfold g_month1, por. unfold pbind at 1. rewrite y_letters by auto.
    assert (DN : drop_while is_space (n ++ r) = n ++ r) by (apply drop_stops; apply (stops_app _ is_letter); auto; bytes).
    destruct (m1_m_ok n r (n ++ r) NL LL R2 DN) as (r2 & M1 & M2). unfold pbind at 1. rewrite M1.
    assert (D2 : forallb not_digit r2 = true) by (destruct M2 as [-> | ->]; auto).
    pose proof (joining_nodigit (fun y0 => let_p _ := pmany anything in let_p yy := pact (dob_year_to_four y0) in pret (yy, month_num e n)) r2 D2) as P. rewrite P.
    unfold pbind. rewrite M1. rewrite pmany_all, NV. reflexivity.
  - destruct (name_facts e n m N) as (NL & LL & NV & NN & MB). apply nodigit_iff in R.
    assert (NP : forall z, exists x, nt ++ z = "("%char :: x) by (intros z; destruct (note_inv nt NT) as (ds & -> & _); cbn; eauto).
    unfold g_month1, por. unfold pbind at 1. rewrite y_letters by auto.
    assert (BL : forall f, (forall c, is_space c = true -> f c = false) -> f "("%char = false -> stops f (b ++ nt ++ r) = true).
    { intros f F1 F2. apply (stops_app2 f is_space); [apply white_all; auto|auto|]. destruct (NP r) as (x & ->). cbn. rewrite F2. auto. }
    assert (M1 : m1_m (n ++ d ++ b ++ nt ++ r) = POk n (b ++ nt ++ r)).
    { unfold m1_m, pbind, pws, pmany. rewrite drop_stops by (apply (stops_app _ is_letter); auto; bytes). rewrite prep_app.
      - unfold popt, pret. destruct D; cbn [app]; [rewrite plit_stops; auto; apply BL; [bytes|auto]|rewrite plit_head; auto].
      - auto.
      - lia.
      - right. destruct D; [apply BL; [bytes|auto]|reflexivity]. }
    unfold pbind at 1. rewrite M1.
    pose proof (sep_nodigit (fun y0 => let_p _ := pmany anything in let_p yy := pact (dob_year_to_four y0) in pret (yy, month_num e n)) (drop_while is_space r)) as P.
    unfold pbind at 1. unfold popt at 1. rewrite pref_note by auto. rewrite P.
    + unfold pbind. rewrite M1. rewrite pmany_all, NV. reflexivity.
    + destruct (drop_suffix is_space r) as (a & E & _). rewrite E in R. apply nodigit_suffix in R. auto.
Qed.

(** ** Month numbers *)
Definition symbol (c : ascii) : bool := negb (is_digit c) && negb (is_letter c) && not_in "()" c.
Lemma symbols_iff t : symbols t <-> forallb symbol t = true.
Proof.
  apply forall_b. intros c. unfold symbol. rewrite !andb_true_iff, !negb_true_iff, not_in_iff, digit_iff, letter_iff.
  destruct (is_digit c), (is_letter c); intuition congruence.
Qed.
(** after a number and symbols there is no month name *)
Lemma no_name {A} (k : text -> parser A) s r : forallb symbol s = true -> stops is_letter r = true -> stops (fun c => ch_eqb c "*" || is_par c || is_space c || is_sep c) r = true ->
  (let_p _ := popt pref in let_p _ := popt m1_sep in let_p m := m1_m in k m) (drop_while is_space (s ++ r)) = PFail.
Proof.
  intros SY R1 R2.
  assert (RC : forall f, (forall c, f c = true -> (ch_eqb c "*" || is_par c || is_space c || is_sep c) = true) -> stops f r = true).
  { intros f F. destruct r as [|c r]; auto. unfold stops in *. destruct (f c) eqn:Q; auto. rewrite F in R2; auto. }
  assert (RS : stops is_space r = true) by (apply RC; bytes). assert (RP : stops is_par r = true) by (apply RC; bytes).
  assert (RT : stops is_star r = true) by (apply RC; bytes). assert (RE : stops is_sep r = true) by (apply RC; bytes).
  assert (DR : forall x, forallb symbol x = true -> exists x', drop_while is_space (x ++ r) = x' ++ r /\ forallb symbol x' = true).
  { induction x as [|c x IH]; cbn [app drop_while]; intros X; [exists []; rewrite drop_stops; auto|].
    cbn in X. apply andb_true_iff in X as [X1 X]. destruct (is_space c); [auto|]. exists (c :: x). cbn. rewrite X1, X. auto. }
  assert (MF : forall x, forallb symbol x = true -> m1_m (x ++ r) = PFail).
  { intros x X. unfold m1_m, pbind, pws, pmany. destruct (DR x X) as (x' & -> & X').
    rewrite prep_stops; [auto| |lia]. apply (stops_app2 _ symbol); auto. bytes. }
  destruct (DR s SY) as (x & -> & X). unfold pbind.
  assert (P : exists o x', popt pref (x ++ r) = POk o (x' ++ r) /\ forallb symbol x' = true).
  { unfold popt. destruct x as [|c x].
    - exists None, []. rewrite pref_fail; auto.
      cbn [app]. rewrite drop_stops by auto. auto.
    - cbn in X. apply andb_true_iff in X as [X1 X2]. destruct (is_star c) eqn:ST.
      + unfold is_star in ST. apply ch_eqb_eq in ST. subst c. cbn [app]. rewrite pref_star. exists (Some tt), x. auto.
      + exists None, (c :: x). cbn [app]. rewrite pref_fail; [cbn; rewrite X1; auto| |cbn [stops]; rewrite ST; auto].
        change (c :: x ++ r) with ((c :: x) ++ r). destruct (DR (c :: x)) as (x' & -> & X'); [cbn; rewrite X1; auto|].
        apply (stops_app2 _ symbol); [auto|bytes|auto]. }
  destruct P as (o & y & -> & Y). unfold popt. destruct (m1_sep (y ++ r)) as [[] z| |w] eqn:E; [|rewrite MF; auto|exfalso; eapply sep_exn; eauto].
  destruct (DR y Y) as (y' & E' & Y'). unfold m1_sep, pbind, pws, pmany in E. rewrite E' in E. destruct y' as [|c y'].
  - cbn [app] in E. destruct r as [|c r]; [discriminate|]. unfold pch, anything in E. assert (SC : in_set ".-/," c = false).
    { unfold stops in RE. apply negb_true_iff in RE. exact RE. }
    rewrite SC in E. discriminate.
  - cbn [app] in E. unfold pch, anything in E. destruct (in_set ".-/," c); [|discriminate]. injection E as <-. cbn in Y'. apply andb_true_iff in Y' as [_ Y'].
    destruct (DR y' Y') as (y2 & -> & Y2). rewrite MF; auto.
Qed.
Lemma y_read t r : forallb is_digit t = true -> t <> [] -> stops is_digit r = true \/ List.length t = 4%nat -> (List.length t <= 4)%nat ->
  (exists y, m1_y (t ++ r) = POk y (drop_while is_space r)) \/ m1_y (t ++ r) = PFail.
Proof.
  intros D N R L. unfold m1_y, pbind, pws, pmany. rewrite drop_stops by (apply (stops_app _ is_digit); auto; bytes).
  destruct (Nat.leb_spec 2 (List.length t)).
  - left. rewrite prep_app by (auto; destruct R; auto). eauto.
  - right. rewrite prep_short; auto. destruct R; auto. lia.
Qed.
Lemma m_digits t r : forallb is_digit t = true -> t <> [] -> m1_m (t ++ r) = PFail.
Proof.
  intros D N. unfold m1_m, pbind, pws, pmany. rewrite drop_stops by (apply (stops_app _ is_digit); auto; bytes).
  rewrite prep_stops by first [lia|apply (stops_app _ is_digit); auto; bytes]. auto.
Qed.
(** a number of at most four digits, symbols, and the end or another number *)
Lemma month1_no e t s r : forallb is_digit t = true -> t <> [] -> (List.length t <= 4)%nat -> List.length t = 4%nat \/ stops is_digit (s ++ r) = true -> forallb symbol s = true ->
  stops (fun c => negb (is_digit c)) r = true -> run_grammar (g_month1 e) (t ++ s ++ r) = Err EParse.
Proof.
  intros D N L E SY R.
  assert (R1 : stops is_letter r = true) by (destruct r as [|c r]; auto; cbn in *; rewrite negb_involutive in R; rewrite digit_not_letter; auto).
  assert (R2 : stops (fun c => ch_eqb c "*" || is_par c || is_space c || is_sep c) r = true).
  { destruct r as [|c r]; auto. cbn in R. rewrite negb_involutive in R. unfold stops.
    assert (H : forall c, is_digit c = true -> (ch_eqb c "*" || is_par c || is_space c || is_sep c) = false) by bytes. rewrite H; auto. }
  unfold run_grammar, g_month1, por.
  assert (YM : (let_p y := m1_y in let_p _ := popt pref in let_p _ := popt m1_sep in let_p m := m1_m in let_p _ := pmany anything in
    let_p yy := pact (dob_year_to_four y) in pret (yy, month_num e m)) (t ++ s ++ r) = PFail).
  { unfold pbind at 1. destruct (y_read t (s ++ r)) as [(y & ->) | ->]; auto; [tauto|].
    apply (no_name (fun m => let_p _ := pmany anything in let_p yy := pact (dob_year_to_four y) in pret (yy, month_num e m)) s r); auto. }
  rewrite YM. unfold pbind. rewrite m_digits by auto. auto.
Qed.

Lemma symbol_drop s r : forallb symbol s = true -> stops not_digit r = true -> drop_while not_digit (drop_while is_space (s ++ r)) = r /\ stops is_digit s = true.
Proof.
  intros SY R. split; [|rewrite <- (app_nil_r s); apply (stops_app2 _ symbol); auto; bytes].
  assert (ND : forallb not_digit s = true) by (eapply forallb_imp; [|exact SY]; bytes).
  induction s as [|c s IH]; cbn [app drop_while] in *.
  - assert (RS : stops is_space r = true) by (destruct r as [|c r]; auto; cbn in R |- *; assert (H : forall c, is_space c = true -> not_digit c = true) by bytes;
      destruct (is_space c) eqn:Q; auto; rewrite H in R; auto). rewrite drop_stops by (rewrite drop_stops; auto). apply drop_stops. auto.
  - cbn in SY, ND. apply andb_true_iff in SY as [S1 SY]. apply andb_true_iff in ND as [N1 ND]. destruct (is_space c).
    + apply IH; auto.
    + cbn [drop_while]. rewrite N1. rewrite drop_app by auto. apply drop_stops. auto.
Qed.
Lemma month2 e t y m : month_text e MNumber t y m -> run_grammar (g_month1 e) t = Err EParse /\ g_month2 t = POk (y, Some m) [].
Proof.
  intros H. inversion H as [| | | |yt s n r y' m' Y SY N R|n s yt r y' m' N SY SN Y|n r m' N SY]; subst.
  - destruct (year4_facts yt y' Y) as (YD & YL & YV & YB & YN). destruct (number_facts n m N) as (ND & LL & NV & NN & MB). apply symbols_iff in SY.
    assert (NR : stops not_digit (n ++ r) = true) by (apply (stops_app _ is_digit); auto; bytes).
    assert (NR2 : stops (fun c => negb (is_digit c)) (n ++ r) = true) by (apply (stops_app _ is_digit); auto; intros c C; rewrite C; auto).
    split; [apply month1_no; auto; lia|].
    assert (RD : List.length n = 2%nat \/ stops is_digit r = true) by (destruct R as [R|R]; auto; right; apply (begins_stops digit is_digit) in R; auto; apply digit_iff).
    unfold g_month2, por. unfold m2_y, m2_m, pbind, pws, pmany. rewrite drop_stops by (apply (stops_app _ is_digit); auto; bytes).
    rewrite prep_app by (auto; lia). unfold pret. destruct (symbol_drop s (n ++ r) SY NR) as [-> _].
    rewrite drop_stops by (apply (stops_app _ is_digit); auto; bytes). rewrite prep_app by auto.
    pose proof (pmany_all (drop_while is_space r)) as PA. unfold pmany in PA. injection PA as PA1 PA2. rewrite PA2, YV, NV, nz_pos by lia. auto.
  - destruct (year4_facts yt y' Y) as (YD & YL & YV & YB & YN). destruct (number_facts n m N) as (ND & LL & NV & NN & MB). apply symbols_iff in SY.
    assert (NR : stops not_digit (yt ++ r) = true) by (apply (stops_app _ is_digit); auto; bytes).
    assert (NR2 : stops (fun c => negb (is_digit c)) (yt ++ r) = true) by (apply (stops_app _ is_digit); auto; intros c C; rewrite C; auto).
    assert (SD : stops is_digit (s ++ yt ++ r) = true) by (apply (stops_app _ symbol); auto; bytes).
    split; [apply month1_no; auto; lia|].
    assert (F : m2_y (n ++ s ++ yt ++ r) = PFail).
    { unfold m2_y, pbind, pws, pmany. rewrite drop_stops by (apply (stops_app _ is_digit); auto; bytes). rewrite prep_short; auto. lia. }
    unfold g_month2, por. unfold pbind at 1. rewrite F.
    unfold m2_y, m2_m, pbind, pws, pmany. rewrite drop_stops by (apply (stops_app _ is_digit); auto; bytes).
    rewrite prep_app by auto. unfold pret. destruct (symbol_drop s (yt ++ r) SY NR) as [-> _].
    rewrite drop_stops by (apply (stops_app _ is_digit); auto; bytes). rewrite prep_app by (auto; lia).
    pose proof (pmany_all (drop_while is_space r)) as PA. unfold pmany in PA. injection PA as PA1 PA2. rewrite PA2, YV, NV, nz_pos by lia. auto.
  - destruct (number_facts n m N) as (ND & LL & NV & NN & MB). apply symbols_iff in SY.
    assert (SD : stops is_digit r = true) by (rewrite <- (app_nil_r r); apply (stops_app2 _ symbol); auto; bytes).
    split; [rewrite <- (app_nil_r r); apply month1_no; auto; [lia|rewrite app_nil_r; auto]|].
    assert (F : m2_y (n ++ r) = PFail).
    { unfold m2_y, pbind, pws, pmany. rewrite drop_stops by (apply (stops_app _ is_digit); auto; bytes). rewrite prep_short; auto. lia. }
    assert (M : m2_m (n ++ r) = POk m (drop_while is_space r)).
    { unfold m2_m, pbind, pws, pmany, pret. rewrite drop_stops by (apply (stops_app _ is_digit); auto; bytes). rewrite prep_app by auto. rewrite NV. auto. }
    unfold g_month2, por. unfold pbind at 1. rewrite F. unfold pbind at 1. rewrite M.
    assert (F2 : m2_y (drop_while not_digit (drop_while is_space r)) = PFail).
    { pose proof (symbol_drop r [] SY eq_refl) as [Q _]. rewrite app_nil_r in Q. rewrite Q. reflexivity. }
    unfold pbind at 1. unfold pmany at 1. unfold pbind at 1. rewrite F2. unfold pbind. rewrite M. rewrite pmany_all. rewrite nz_pos by lia. reflexivity.
Qed.
