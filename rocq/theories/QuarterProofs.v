(** Reading the quarters (C40). *)
From Coq Require Import ZifyBool ZifyNat ZifyN.
From Verif Require Import Base BaseFacts CoordFacts Cal Peg ParseTime TimeIndex SpecCal SpecTime SpecData SpecParse TimeProofs NumberFacts DataFacts ParseFacts ParseFacts2.
Local Open Scope Z_scope.

Lemma nz_pos y : 1 <= y -> nz y = Some y.
Proof. unfold nz. destruct (Z.eqb_spec y 0); [lia|auto]. Qed.

(** a quarter sign *)
Lemma sign_class k q : quarter_sign k q -> k <> [] /\ forallb (fun c => is_digit c || is_IV c) k = true /\ 1 <= q <= 4.
Proof.
  intros [R|N].
  - destruct (roman_facts k q R) as (F & _ & _ & _ & NE & B). split; [auto|]. split; [|auto]. eapply forallb_imp; [|exact F]. bytes.
  - destruct (number4_facts k q N) as (c & -> & D & _ & _ & _ & B). split; [discriminate|]. split; [cbn; rewrite D; auto|auto].
Qed.
Lemma notes_stops f s : (forall c, not_d_or_q c = true -> f c = false) -> f "("%char = false -> notes s -> stops f s = true.
Proof.
  intros H P. assert (N : forall n r, note n -> stops f (n ++ r) = true).
  { intros n r N. destruct (note_inv n N) as (ds & -> & _). cbn. rewrite P. auto. }
  intros [a A|a n b A N1 B|a n b m A N1 B M1]; apply filler_iff in A.
  - rewrite <- (app_nil_r a). apply (stops_app2 f not_d_or_q); auto.
  - apply (stops_app2 f not_d_or_q); auto.
  - apply (stops_app2 f not_d_or_q); auto.
Qed.
Lemma read_sign k q s : quarter_sign k q -> stops is_IV s = true -> exists x, q1_q_num_or_let (k ++ s) = POk x s /\
  (match x with inl t => q_to_m t | inr z => Ok (q_to_m_int z) end) = Ok (Some (3 * q - 2)).
Proof.
  intros [R|N] S1; unfold q1_q_num_or_let, por, pbind, pret.
  - destruct (roman_facts k q R) as (F & L & V & _ & NE & B). rewrite (prep_app 1 3 is_IV k s) by auto. eauto.
  - destruct (number4_facts k q N) as (c & -> & D & I & V & M & B). cbn [app].
    assert (NI : forall c, is_digit c = true -> is_IV c = false) by bytes.
    rewrite prep_stops by first [lia|unfold stops; rewrite NI; auto]. unfold pch. rewrite D, I. cbn [andb]. exists (inr (digit_val c)). split; auto. rewrite V, M. auto.
Qed.
(** the notes at the end *)
Lemma notes_end {X} (k : parser X) s : notes s ->
  (let_p _ := pmany not_d_or_q in let_p _ := popt pref in let_p _ := pmany not_d_or_q in let_p _ := popt pref in k) s = k [].
Proof.
  assert (NS : forall n r, note n -> stops not_d_or_q (n ++ r) = true) by (intros n r N; destruct (note_inv n N) as (ds & -> & _); reflexivity).
  intros [a A|a n b A N B|a n b m A N B M]; apply filler_iff in A.
  - rewrite <- (app_nil_r a). unfold pbind. rewrite (pmany_app not_d_or_q a []) by auto. reflexivity.
  - apply filler_iff in B. unfold pbind. rewrite (pmany_app not_d_or_q a (n ++ b)) by auto.
    pose proof (pref_note [] n b ltac:(auto) N) as P. cbn [app] in P. unfold popt at 1. rewrite P.
    destruct (drop_suffix is_space b) as (c & E & C).
    assert (D : forallb not_d_or_q (drop_while is_space b) = true) by (unfold filler_b in B; rewrite E, forallb_app in B; apply andb_true_iff in B; tauto).
    pose proof (pmany_app not_d_or_q _ [] D eq_refl) as Q. rewrite app_nil_r in Q. rewrite Q. reflexivity.
  - apply filler_iff in B. unfold pbind. rewrite (pmany_app not_d_or_q a (n ++ b ++ m)) by auto.
    pose proof (pref_note [] n (b ++ m) ltac:(auto) N) as P. cbn [app] in P. unfold popt at 1. rewrite P.
    assert (PM : pref m = POk tt []) by (pose proof (pref_note [] m [] ltac:(auto) M) as Q; cbn [app] in Q; rewrite app_nil_r in Q; exact Q).
    assert (D : drop_while is_space (b ++ m) = drop_while is_space b ++ m).
    { clear -M. destruct (note_inv m M) as (ds & -> & _). induction b as [|c b IH]; auto. cbn [app drop_while]. destruct (is_space c); auto. }
    rewrite D. destruct (drop_suffix is_space b) as (c & E & C).
    assert (DB : forallb not_d_or_q (drop_while is_space b) = true) by (unfold filler_b in B; rewrite E, forallb_app in B; apply andb_true_iff in B; tauto).
    rewrite (pmany_app not_d_or_q _ m DB) by (pose proof (NS m [] M) as Q; rewrite app_nil_r in Q; auto).
    unfold popt. rewrite PM. reflexivity.
Qed.

Lemma quarter1 t y q : quarter_text QPlain t y q -> g_quarter1 t = POk (y, Some (3 * q - 2)) [].
Proof.
  intros H. inversion H as [a k s q' A K N|a yt b k s y' q' A Y B K N| | |]; subst.
  - apply filler_iff in A. destruct (sign_class k q K) as (NE & F & Q).
    assert (KF : stops not_d_or_q (k ++ s) = true) by (apply (stops_app _ _ k s F); auto; bytes).
    unfold g_quarter1, pbind at 1. unfold popt at 1.
    assert (NY : q1_year (a ++ k ++ s) = PFail).
    { unfold q1_year, pbind. rewrite (pmany_app not_d_or_q a) by auto. destruct K as [R|NB].
      - destruct (roman_facts k q R) as (F1 & L & V & _ & NE1 & B). rewrite prep_stops; auto; [|lia].
        apply (stops_app is_digit is_IV); auto. bytes.
      - destruct (number4_facts k q NB) as (c & -> & D & I & V & M & B). rewrite (prep_short 4 4 is_digit [c] s); cbn; auto; try lia.
        + rewrite D. auto.
        + apply notes_stops; auto. bytes. }
    rewrite NY. unfold pbind at 1. unfold q1_quarter. unfold pbind at 1. unfold pbind at 1. rewrite (pmany_app not_d_or_q a) by auto.
    destruct (read_sign k q s K) as (x & E & V); [apply notes_stops; auto; bytes|].
    unfold pbind at 1. rewrite E.
    pose proof (notes_end (let_p m := pact (match x with inl t => q_to_m t | inr z => Ok (q_to_m_int z) end) in pret (opt_year None, m)) s N) as P.
    unfold pbind, pret in *. unfold pmany at 1 in P. unfold pmany at 1. rewrite P. unfold pact. rewrite V. auto.
  - apply filler_iff in A. apply filler_iff in B. destruct (sign_class k q K) as (NE & F & Q). destruct (year4_facts yt y' Y) as (YD & YL & YV & YB & YN).
    assert (KF : stops not_d_or_q (k ++ s) = true) by (apply (stops_app _ _ k s F); auto; bytes).
    assert (YF : stops not_d_or_q (yt ++ b ++ k ++ s) = true) by (apply (stops_app _ is_digit); auto; bytes).
    unfold g_quarter1, pbind at 1. unfold popt at 1.
    assert (NY : q1_year (a ++ yt ++ b ++ k ++ s) = POk y' (k ++ s)).
    { unfold q1_year, pbind. rewrite (pmany_app not_d_or_q a) by auto. rewrite (prep_app 4 4 is_digit yt) by (auto; lia).
      rewrite (pmany_app not_d_or_q b) by auto. rewrite YV. auto. }
    rewrite NY. unfold pbind at 1. unfold q1_quarter. unfold pbind at 1. unfold pbind at 1. rewrite (pmany_stops not_d_or_q) by auto.
    destruct (read_sign k q s K) as (x & E & V); [apply notes_stops; auto; bytes|].
    unfold pbind at 1. rewrite E.
    pose proof (notes_end (let_p m := pact (match x with inl t => q_to_m t | inr z => Ok (q_to_m_int z) end) in pret (opt_year (Some y'), m)) s N) as P.
    unfold pbind, pret in *. unfold pmany at 1 in P. unfold pmany at 1. rewrite P. unfold pact. rewrite V. unfold opt_year. rewrite nz_pos by lia. auto.
Qed.

(** ** The other styles *)
Lemma mark_split a : mark a -> (filler a /\ forallb not_d_or_q a = true /\ (a = [] \/ a = ["*"%char])) \/ exists r, a = "("%char :: r.
Proof.
  intros [| |n b N B].
  - left. split; [constructor|]. auto.
  - left. split; [apply filler_iff; reflexivity|]. auto.
  - right. destruct (note_inv n N) as (ds & -> & _). cbn. eauto.
Qed.
Lemma sep_class (x : string) (f : ascii -> bool) s : (forall c, in_set x c = true -> f c = true) -> separator x s -> forallb f s = true.
Proof. intros H [S1 _]. eapply forallb_imp; [exact H|]. apply (forall_b (among x)); auto. intros c. symmetry. apply in_set_iff. Qed.
Lemma sep_head x s r f : separator x s -> f "-"%char = false -> f "/"%char = false -> f "."%char = false -> f " "%char = false -> stops f r = true -> stops f (s ++ r) = true.
Proof.
  intros [_ S2] F1 F2 F3 F4 R. destruct s as [|c s]; auto. cbn. assert (A : among "-/. " c).
  { destruct (in_set "-/. " c) eqn:E; [apply in_set_iff; auto|]. exfalso. apply S2. exists c, s. split; auto. rewrite <- in_set_iff, E. discriminate. }
  apply in_set_iff in A. cbn in A. unfold in_set, ch_in in A. cbn in A. rewrite !orb_true_iff in A.
  destruct A as [A|[A|[A|[A|A]]]]; try discriminate; apply ch_eqb_eq in A; subst c; rewrite ?F1, ?F2, ?F3, ?F4; auto.
Qed.

(** a grammar of quarter 1 leaves a year after a roman numeral *)
Lemma q1_left_roman a k s q r : forallb not_d_or_q a = true -> roman k q -> forallb not_d_or_q s = true -> stops is_digit r = false -> run_grammar g_quarter1 (a ++ k ++ s ++ r) = Err EParse.
Proof.
  intros A K SF R. destruct (roman_facts k q K) as (F & L & V & _ & NE & B).
  assert (RD : exists d r', r = d :: r' /\ is_digit d = true) by (destruct r as [|d r]; cbn in R; [discriminate|]; exists d, r; destruct (is_digit d); auto).
  destruct RD as (d & r' & -> & D).
  assert (KF : forall z, stops not_d_or_q (k ++ z) = true) by (intros z; apply (stops_app _ _ k z F); auto; bytes).
  assert (DF : stops not_d_or_q (d :: r') = true) by (cbn; destruct (not_d_or_q d) eqn:E; auto; revert D E; clear; revert d;
    assert (H : forall d, is_digit d = true -> not_d_or_q d = false) by bytes; intros d D E; rewrite H in E; auto).
  assert (HF : stops head_only (d :: r') = true) by (assert (H : forall d, is_digit d = true -> head_only d = false) by bytes; unfold stops; rewrite H; auto).
  unfold run_grammar, g_quarter1, pbind at 1. unfold popt at 1.
  assert (NY : q1_year (a ++ k ++ s ++ d :: r') = PFail).
  { unfold q1_year, pbind. rewrite (pmany_app not_d_or_q a) by auto. rewrite prep_stops; auto; [|lia]. apply (stops_app is_digit is_IV); auto. bytes. }
  rewrite NY. unfold q1_quarter, q1_q_num_or_let, por, pbind, pret. rewrite (pmany_app not_d_or_q a) by auto.
  assert (SI : stops is_IV (s ++ d :: r') = true) by (apply (stops_app2 is_IV not_d_or_q); [auto|bytes|];
     assert (H : forall d, is_digit d = true -> is_IV d = false) by bytes; unfold stops; rewrite H; auto).
  rewrite (prep_app 1 3 is_IV k) by auto.
  rewrite (pmany_app not_d_or_q s) by auto. rewrite popt_pref_stops by auto. rewrite pmany_stops by auto. rewrite popt_pref_stops by auto.
  unfold pact. rewrite V. auto.
Qed.
Lemma q1_par r : run_grammar g_quarter1 ("("%char :: r) = Err EParse.
Proof.
  unfold run_grammar, g_quarter1, pbind at 1. unfold popt at 1.
  assert (NY : q1_year ("("%char :: r) = PFail) by (unfold q1_year, pbind; rewrite pmany_stops by auto; rewrite prep_stops; auto; lia).
  rewrite NY. unfold q1_quarter, q1_q_num_or_let, por, pbind. rewrite pmany_stops by auto. rewrite prep_stops by first [lia|auto]. auto.
Qed.
Lemma q1_left_number a k q w r : forallb not_d_or_q a = true -> number4 k q -> forallb not_d_or_p w = true -> w <> [] -> stops is_digit r = false ->
  run_grammar g_quarter1 (a ++ k ++ w ++ r) = Err EParse.
Proof.
  intros A K W WN R. destruct (number4_facts k q K) as (c & -> & D & I & V & M & B).
  assert (ND : forall d, is_digit d = true -> not_d_or_q d = false) by bytes.
  assert (WD : stops is_digit (w ++ r) = true) by (apply (stops_app is_digit not_d_or_p); auto; bytes).
  unfold run_grammar, g_quarter1, pbind at 1. unfold popt at 1.
  assert (NY : q1_year (a ++ [c] ++ w ++ r) = PFail).
  { unfold q1_year, pbind. rewrite (pmany_app not_d_or_q a) by (auto; cbn [app stops]; rewrite ND; auto).
    rewrite (prep_short 4 4 is_digit [c] (w ++ r)); auto; cbn; rewrite ?D; auto. }
  rewrite NY. unfold q1_quarter, q1_q_num_or_let, por, pbind, pret. rewrite (pmany_app not_d_or_q a) by (auto; cbn [app stops]; rewrite ND; auto).
  cbn [app]. assert (NI : forall d, is_digit d = true -> is_IV d = false) by bytes.
  rewrite prep_stops by first [lia|unfold stops; rewrite NI; auto]. unfold pch. rewrite D, I. cbn [andb].
  unfold pmany at 1. set (x := drop_while not_d_or_q (w ++ r)).
  assert (X : exists h x', x = h :: x' /\ head_only h = false /\ not_d_or_q h = false).
  { unfold x. clear x. revert W. clear WN WD NY. induction w as [|h w IH]; intros W; cbn [app].
    - destruct r as [|d r]; [discriminate|]. cbn in R. cbn [drop_while]. assert (Q : is_digit d = true) by (destruct (is_digit d); auto).
      rewrite ND by auto. exists d, r. split; [auto|]. split; [|auto]. revert Q. clear. revert d. bytes.
    - cbn in W. apply andb_true_iff in W as [W1 W]. cbn [drop_while]. destruct (not_d_or_q h) eqn:E; auto.
      exists h, (w ++ r). split; [auto|]. split; [|auto].
      assert (H : forall h, (not_d_or_p h && negb (not_d_or_q h)) = true -> head_only h = false) by bytes. apply H. rewrite W1, E. auto. }
  destruct X as (h & x' & -> & H1 & H2).
  rewrite popt_pref_stops by (cbn; rewrite H1; auto). rewrite pmany_stops by (unfold stops; rewrite H2; auto). rewrite popt_pref_stops by (cbn; rewrite H1; auto).
  reflexivity.
Qed.

Lemma digits_head (t r : text) : forallb is_digit t = true -> t <> [] -> stops is_digit (t ++ r) = false.
Proof. destruct t as [|c t]; [congruence|]. cbn. destruct (is_digit c); auto. Qed.

Lemma quarter2 t y q : quarter_text QDotted t y q -> run_grammar g_quarter1 t = Err EParse /\ g_quarter2 t = POk (y, Some (3 * q - 2)) [].
Proof.
  intros H. inversion H as [| |a k s yt b y' q' A K SP Y TL| |]; subst. destruct (year4_facts yt y' Y) as (YD & YL & YV & YB & YN).
  destruct (roman_facts k q K) as (F & L & V & _ & NE & B). split.
  - destruct (mark_split a A) as [(_ & AF & _)|(r & ->)]; [|apply q1_par].
    apply (q1_left_roman a k s q); auto; [apply (sep_class "-/.T " not_d_or_q s); auto; bytes|apply digits_head; auto].
  - assert (KH : forall z, stops head_only (k ++ z) = true) by (intros z; apply (stops_app _ _ k z F); auto; bytes).
    unfold g_quarter2. unfold pbind at 1. rewrite pws_stops by (apply mark_ws; auto).
    unfold pbind at 1. destruct (mark_popt a (k ++ s ++ yt ++ b) A (KH _)) as (o & ->).
    unfold pbind at 1. rewrite (pmany_app q_not_digit k).
    + unfold pbind at 1. rewrite (pmany_app qsep s).
      * unfold pbind at 1. rewrite (prep_app 4 4 is_digit yt) by (auto; lia). rewrite tail_end by auto. unfold pbind, pact. rewrite V.
        unfold pret. rewrite YV, nz_pos by lia. auto.
      * apply (sep_class "-/.T "); auto.
      * apply (stops_app _ is_digit); auto. bytes.
    + eapply forallb_imp; [|exact F]. bytes.
    + apply (sep_head "-/.T "); auto. apply (stops_app _ is_digit); auto. bytes.
Qed.

Lemma quarter_end4 (t z : text) : List.length t = 2%nat -> forallb is_digit t = true -> stops is_digit z = true -> prep 4 4 is_digit (t ++ z) = PFail.
Proof. intros L D E. apply prep_short; auto; lia. Qed.
(** no four digits together after characters that are not digits *)
Lemma no_four (f g : ascii -> bool) a c w : (forall c, is_digit c = true -> f c = false) -> (forall c, is_digit c = true -> g c = false) ->
  forallb not_digit a = true -> is_digit c = true -> stops is_digit w = true ->
  prep 4 4 is_digit (drop_while g (drop_while f (a ++ c :: w))) = PFail.
Proof.
  intros HF HG A C W.
  assert (DR : forall (h : ascii -> bool) x, (forall c, is_digit c = true -> h c = false) -> forallb not_digit x = true -> exists y, drop_while h (x ++ c :: w) = y ++ c :: w /\ forallb not_digit y = true).
  { intros h x Hh. induction x as [|d x IH]; cbn [app drop_while]; intros X.
    - rewrite Hh by auto. exists []. auto.
    - cbn in X. apply andb_true_iff in X as [X1 X]. destruct (h d); auto. exists (d :: x). cbn. rewrite X1, X. auto. }
  destruct (DR f a HF A) as (y & -> & Y). destruct (DR g y HG Y) as (z & -> & ZD). destruct z as [|d z].
  - apply (prep_short 4 4 is_digit [c] w); auto; cbn; rewrite ?C; auto.
  - cbn in ZD. apply andb_true_iff in ZD as [D _]. apply prep_stops; [|lia]. cbn. assert (H : forall d, not_digit d = true -> is_digit d = false) by bytes. rewrite H; auto.
Qed.

Lemma spaces_iff t : spaces t <-> forallb (fun c => ch_eqb c " ") t = true.
Proof. apply forall_b. intros c. symmetry. apply ch_eqb_eq. Qed.
Definition word_ch (c : ascii) : bool := not_d_or_p c && negb (is_space c).
Lemma word_iff t : word t <-> forallb word_ch t = true.
Proof.
  apply forall_b. intros c. unfold word_ch. rewrite andb_true_iff, negb_true_iff, white_space. unfold not_d_or_p. rewrite not_in_iff.
  destruct (is_space c); intuition congruence.
Qed.

Lemma quarter3 t y q : quarter_text QWord t y q -> run_grammar g_quarter1 t = Err EParse /\ run_grammar g_quarter2 t = Err EParse /\ g_quarter3 t = POk (y, Some (3 * q - 2)) [].
Proof.
  intros H. inversion H as [| | |a s k u s1 v s2 yt b y' q' A AW AS SS K U S1 W S2 C1 C2 C3 Y TL|]; subst.
  destruct (year2_facts yt y' Y) as (YD & YL & YV & YB & YN). destruct (number4_facts k q K) as (c & -> & D & I & V & M & B).
  apply filler_iff in A. apply word_iff in AW, U, W. apply spaces_iff in SS, S1, S2.
  assert (SP : forall x f, forallb (fun c => ch_eqb c " ") x = true -> f " "%char = true -> forallb f x = true).
  { intros x f X F. eapply forallb_imp; [|exact X]. intros d E. apply ch_eqb_eq in E. congruence. }
  assert (WP : forallb not_d_or_p (u ++ s1 ++ v ++ s2) = true).
  { rewrite !forallb_app. rewrite (SP s1), (SP s2) by auto. rewrite (forallb_imp word_ch not_d_or_p u), (forallb_imp word_ch not_d_or_p v) by (auto; bytes). auto. }
  assert (WN : u ++ s1 ++ v ++ s2 <> []) by (intros Q; apply C3; rewrite app_assoc in Q; apply app_eq_nil in Q; tauto).
  assert (E3 : forall z, u ++ s1 ++ v ++ s2 ++ z = (u ++ s1 ++ v ++ s2) ++ z) by (intros z; rewrite <- !app_assoc; auto).
  split; [|split].
  - rewrite E3, app_assoc. apply (q1_left_number (a ++ s) [c] q); auto.
    + unfold filler_b in A. rewrite forallb_app, A. apply SP; auto.
    + apply digits_head; auto.
  - assert (ND : forallb not_digit (a ++ s) = true).
    { rewrite forallb_app. rewrite (SP s) by auto. rewrite (forallb_imp not_d_or_q not_digit a) by (auto; bytes). auto. }
    rewrite E3, app_assoc. cbn [app]. set (z := c :: (u ++ s1 ++ v ++ s2) ++ yt ++ b). 
    assert (ZS : stops is_digit ((u ++ s1 ++ v ++ s2) ++ yt ++ b) = true) by (apply (stops_app is_digit not_d_or_p); auto; bytes).
    assert (PR : pws ((a ++ s) ++ z) = POk (take_while is_space ((a ++ s) ++ z)) (drop_while is_space ((a ++ s) ++ z))) by reflexivity.
    assert (DR : exists x, drop_while is_space ((a ++ s) ++ z) = x ++ z /\ forallb not_digit x = true /\ stops head_only (x ++ z) = true).
    { assert (HZ : stops head_only z = true) by (unfold z; assert (Q : forall c, is_digit c = true -> head_only c = false) by bytes; unfold stops; rewrite Q; auto).
      destruct a as [|h a].
      - exists []. cbn [app]. rewrite drop_app by (apply SP; auto). split; [|split; auto]. apply drop_stops.
        destruct z as [|h z']; auto. cbn in HZ |- *. unfold head_only in HZ. destruct (is_space h); auto.
      - exists ((h :: a) ++ s). cbn in AW. apply andb_true_iff in AW as [AH _]. split; [|split; auto].
        + cbn [app drop_while]. unfold word_ch in AH. destruct (is_space h); [rewrite andb_false_r in AH; discriminate|]. auto.
        + cbn [app stops]. assert (NS : is_star h = false) by (unfold is_star; destruct (ch_eqb h "*") eqn:E; auto; apply ch_eqb_eq in E; subst; exfalso; apply AS; left; auto).
          assert (Q : forall c, (word_ch c && negb (is_star c)) = true -> head_only c = false) by bytes. rewrite Q; auto. rewrite AH, NS. auto. }
    destruct DR as (x & E & XD & XH).
    unfold run_grammar, g_quarter2, pbind. rewrite PR, E. rewrite popt_pref_stops by auto. unfold pmany. unfold z.
    rewrite (no_four q_not_digit qsep x c); auto; bytes.
  - assert (N3 : forall d, is_digit d = true -> q3_not_digit d = false) by bytes.
    assert (W3 : forall x, forallb word_ch x = true -> forallb q3_not_digit x = true) by (intros x; apply forallb_imp; bytes).
    assert (D3 : forall r, stops q3_not_digit (yt ++ r) = true) by (intros r; apply (stops_app _ is_digit); auto).
    assert (DS : forall r, stops is_space (yt ++ r) = true) by (intros r; apply (stops_app _ is_digit); auto; bytes).
    assert (SP3 : forall x r, forallb (fun c => ch_eqb c " ") x = true -> stops q3_not_digit r = true -> stops q3_not_digit (x ++ r) = true).
    { intros x r X R. apply (stops_app2 _ (fun c => ch_eqb c " ")); auto. bytes. }
    unfold g_quarter3. unfold pbind at 1. rewrite (pmany_app q3_not_digit a); [|auto|apply SP3; auto; cbn [app stops]; rewrite N3; auto].
    unfold pbind at 1. rewrite (pws_app s); [|apply SP; auto|cbn [app stops]; assert (Q : forall d, is_digit d = true -> is_space d = false) by bytes; rewrite Q; auto].
    cbn [app]. unfold pbind at 1. unfold pch. rewrite D.
    assert (VP : v = [] \/ exists h v', v = h :: v' /\ is_space h = false).
    { destruct v as [|h v']; [auto|right]. exists h, v'. split; auto. cbn in W. unfold word_ch in W. destruct (is_space h); auto. rewrite andb_false_r in W. discriminate. }
    assert (US : stops q3_not_digit (s1 ++ v ++ s2 ++ yt ++ b) = true).
    { destruct s1 as [|x s1]; [|cbn in S1; cbn [app stops]; destruct (ch_eqb x " ") eqn:E; [apply ch_eqb_eq in E; subst; auto|discriminate]].
      destruct v as [|h v]; [|exfalso; apply C1; [discriminate|auto]]. cbn [app]. apply SP3; auto. }
    unfold pbind at 1. rewrite (pmany_app q3_not_digit u) by auto.
    unfold pbind at 1. rewrite (pws_app s1).
    2:{ apply SP; auto. }
    2:{ destruct VP as [-> | (h & v' & -> & Hh)]; [rewrite (C2 eq_refl); apply DS|cbn; rewrite Hh; auto]. }
    unfold pbind at 1. rewrite (pmany_app q3_not_digit v) by auto.
    unfold pbind at 1. rewrite (pws_app s2) by (auto; apply SP; auto).
    unfold pbind at 1. rewrite (prep_app 2 2 is_digit yt) by (auto; lia). rewrite tail_end' by auto. unfold pbind, pact. rewrite YV. unfold pret. rewrite V, M. auto.
Qed.

Lemma quarter4 t y q : quarter_text QShort t y q -> run_grammar g_quarter1 t = Err EParse /\ run_grammar g_quarter2 t = Err EParse /\
  run_grammar g_quarter3 t = Err EParse /\ g_quarter4 t = POk (y, Some (3 * q - 2)) [].
Proof.
  intros H. inversion H as [| | | |a k s yt b y' q' A K SP Y TL NB]; subst. destruct (year2_facts yt y' Y) as (YD & YL & YV & YB & YN).
  destruct (roman_facts k q K) as (F & L & V & _ & NE & B).
  assert (MA : mark a) by (destruct A as [-> | ->]; constructor).
  assert (AF : forallb not_d_or_q a = true) by (destruct A as [-> | ->]; reflexivity).
  apply (begins_stops digit is_digit) in NB; [|apply digit_iff].
  assert (KH : forall z, stops head_only (k ++ z) = true) by (intros z; apply (stops_app _ _ k z F); auto; bytes).
  assert (Q1 : forallb q_not_digit k = true) by (eapply forallb_imp; [|exact F]; bytes).
  assert (Q2 : stops q_not_digit (s ++ yt ++ b) = true) by (apply (sep_head "-/.T "); auto; apply (stops_app _ is_digit); auto; bytes).
  assert (Q3 : forallb qsep s = true) by (apply (sep_class "-/.T "); auto).
  assert (Q4 : forall r, stops qsep (yt ++ r) = true) by (intros r; apply (stops_app _ is_digit); auto; bytes).
  split; [|split; [|split]].
  - apply (q1_left_roman a k s q); auto; [apply (sep_class "-/.T " not_d_or_q s); auto; bytes|apply digits_head; auto].
  - unfold run_grammar, g_quarter2. unfold pbind at 1. rewrite pws_stops by (apply mark_ws; auto).
    unfold pbind at 1. destruct (mark_popt a (k ++ s ++ yt ++ b) MA (KH _)) as (o & ->).
    unfold pbind at 1. rewrite (pmany_app q_not_digit k) by auto. unfold pbind at 1. rewrite (pmany_app qsep s) by auto.
    unfold pbind at 1. rewrite quarter_end4 by auto. auto.
  - destruct yt as [|d1 [|d2 [|x yt]]]; try discriminate. cbn in YD.
    assert (D1 : is_digit d1 = true) by (destruct (is_digit d1); auto). assert (D2 : is_digit d2 = true) by (rewrite D1 in YD; destruct (is_digit d2); auto).
    assert (NS : forallb not_digit (a ++ k ++ s) = true).
    { rewrite !forallb_app. rewrite (forallb_imp not_d_or_q not_digit a) by (auto; bytes). rewrite (forallb_imp is_IV not_digit k) by (auto; bytes).
      rewrite (sep_class "-/.T " not_digit s) by (auto; bytes). auto. }
    replace (a ++ k ++ s ++ [d1; d2] ++ b) with ((a ++ k ++ s) ++ d1 :: d2 :: b) by (rewrite <- !app_assoc; auto).
    set (w := a ++ k ++ s) in *. clearbody w.
    assert (DR : forall (h : ascii -> bool) x, (forall c, is_digit c = true -> h c = false) -> forallb not_digit x = true -> exists y, drop_while h (x ++ d1 :: d2 :: b) = y ++ d1 :: d2 :: b /\ forallb not_digit y = true).
    { intros h x Hh. induction x as [|d x IH]; cbn [app drop_while]; intros X.
      - rewrite Hh by auto. exists []. auto.
      - cbn in X. apply andb_true_iff in X as [X1 X]. destruct (h d); auto. exists (d :: x). cbn. rewrite X1, X. auto. }
    assert (N3 : forall d, is_digit d = true -> q3_not_digit d = false) by bytes.
    assert (N4 : forall d, is_digit d = true -> is_space d = false) by bytes.
    unfold run_grammar, g_quarter3, pbind, pws, pmany.
    destruct (DR q3_not_digit w N3 NS) as (y1 & -> & Y1). destruct (DR is_space y1 N4 Y1) as (y2 & -> & Y2).
    destruct y2 as [|h y2].
    + cbn [app]. unfold pch. rewrite D1. rewrite (drop_stops q3_not_digit (d2 :: b)) by (unfold stops; rewrite N3; auto).
      rewrite (drop_stops is_space (d2 :: b)) by (unfold stops; rewrite N4; auto). rewrite (drop_stops q3_not_digit (d2 :: b)) by (unfold stops; rewrite N3; auto).
      rewrite (drop_stops is_space (d2 :: b)) by (unfold stops; rewrite N4; auto).
      pose proof (prep_short 2 2 is_digit [d2] b) as PS. cbn [app] in PS. rewrite PS; auto; cbn; rewrite ?D2; auto.
    + cbn in Y2. apply andb_true_iff in Y2 as [Y2 _]. rewrite pch_stops; auto. cbn [app stops]. assert (Q : forall d, not_digit d = true -> is_digit d = false) by bytes. rewrite Q; auto.
  - unfold g_quarter4. unfold pbind at 1. rewrite pws_stops by (apply mark_ws; auto).
    unfold pbind at 1. destruct (mark_popt a (k ++ s ++ yt ++ b) MA (KH _)) as (o & ->).
    unfold pbind at 1. rewrite (pmany_app q_not_digit k) by auto. unfold pbind at 1. rewrite (pmany_app qsep s) by auto.
    unfold pbind at 1. unfold popt at 1. rewrite (prep_app 2 2 is_digit yt) by (auto; lia). rewrite tail_end by auto.
    unfold pbind, pact, opt_dob. rewrite YV, V. auto.
Qed.
