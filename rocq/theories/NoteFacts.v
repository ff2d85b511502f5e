(** Notes are not read as dates (C65). *)
From Coq Require Import ZifyBool ZifyNat ZifyN.
From Verif Require Import Base BaseFacts CoordFacts Coord Params Cal CalFacts CalProofs Peg ParseTime TimeIndex SpecCal SpecCoord SpecCoordFacts SpecTime SpecData SpecParse TimeFacts TimeProofs
  TimeProofs2 NumberFacts DataFacts TextProofs ParseFacts ParseFacts2 QuarterProofs MonthProofs YearProofs PoolProofs IndexWalk IndexTexts ComposedProofs SpecColumns ColumnProofs SpecNotes.
Local Open Scope Z_scope.

(** ** Texts without digits *)
Definition free (t : text) : Prop := forallb not_digit t = true.
Lemma free_stops t : free t -> stops is_digit t = true.
Proof.
  intros F. destruct t as [|c t]; [reflexivity|]. unfold free in F. cbn in F |- *. apply andb_prop in F as [F _].
  revert F. assert (B : forall c, not_digit c = true -> negb (is_digit c) = true) by bytes. apply B.
Qed.
Lemma suffix_free f t : free t -> free (drop_while f t).
Proof. intros F. destruct (drop_suffix f t) as (a & E & _). unfold free in *. rewrite E, forallb_app in F. apply andb_prop in F. tauto. Qed.
Lemma filler_free t : filler t -> free t.
Proof.
  intros F. apply filler_iff in F. unfold free. revert F. apply forallb_imp. intros c. revert c. bytes.
Qed.
Lemma digits_fail lo hi t : free t -> (0 < lo <= hi)%nat -> prep lo hi is_digit t = PFail.
Proof. intros F L. apply prep_stops; auto. apply free_stops. auto. Qed.
Lemma take_all f t : forallb f t = true -> take_while f t = t /\ drop_while f t = [].
Proof.
  induction t as [|c t IH]; cbn; auto. intros F. apply andb_prop in F as [-> F]. destruct (IH F) as [-> ->]. auto.
Qed.
Lemma pref_free t : free t -> pref t = PFail \/ exists r, t = "*"%char :: r /\ pref t = POk tt r.
Proof.
  intros F. destruct (pref t) as [[] r| |x] eqn:P; auto; [|destruct (pref_exn t x P)].
  right. unfold pref, por in P. destruct (pbind pws _ t) as [u r0| |x] eqn:Q.
  - unfold pbind in Q. cbn [pws pmany] in Q. unfold pws, pmany in Q. destruct (plit "(" (drop_while is_space t)) as [c r1| |] eqn:L; try discriminate.
    apply plit_split in L. assert (F1 : free r1). { assert (G := suffix_free is_space t F). rewrite L in G. unfold free in *. cbn in G. auto. }
    rewrite digits_fail in Q by (auto; lia). discriminate.
  - unfold pbind in P. destruct (plit "*" t) as [c r1| |] eqn:L; try discriminate. apply plit_split in L. inversion P; subst. eauto.
  - inversion P.
Qed.
Lemma popt_pref_free t : free t -> exists o r, popt pref t = POk o r /\ free r.
Proof.
  intros F. unfold popt. destruct (pref_free t F) as [->|(r & E & ->)]; do 2 eexists; split; eauto. subst t. unfold free in *. cbn in F. auto.
Qed.

(** ** Grammars that do not read a note *)
Definition unread (e : env) (s : strat) (t : text) : Prop := exists x, run_grammar (grammar e s) t = Err x /\ x <> EDay /\ x <> EMonth.
Lemma fails_unread e s t : grammar e s t = PFail -> unread e s t.
Proof. intros H. exists EParse. unfold run_grammar. rewrite H. repeat split; discriminate. Qed.

Section Roman.
Variables (e : env) (t : text) (c : ascii) (r : text).
Hypothesis E : t = c :: r.
Hypothesis L : is_letter c = true.
Hypothesis F : filler t.
Lemma f_free : free t. Proof. apply filler_free. auto. Qed.
Lemma f_head : stops head_only t = true.
Proof. subst t. cbn. revert c L F. clear. intros c L _. revert c L. bytes. Qed.
Lemma f_space : stops is_space t = true.
Proof. subst t. cbn. revert L. clear. revert c. bytes. Qed.
Lemma quarter1_unread : unread e SQuarter1 t.
Proof.
  apply fails_unread. cbn [grammar]. pose proof F as F'. apply filler_iff in F'.
  assert (PM : pmany not_d_or_q t = POk t []) by (unfold pmany; destruct (take_all not_d_or_q t F') as [-> ->]; reflexivity).
  unfold g_quarter1, q1_year, q1_quarter, pbind, popt. rewrite PM. change (prep 4 4 is_digit []) with (@PFail text). cbv beta iota. rewrite PM. reflexivity.
Qed.
Lemma quarter2_unread : unread e SQuarter2 t.
Proof.
  apply fails_unread. cbn [grammar]. unfold g_quarter2, pbind. rewrite pws_stops, popt_pref_stops by (apply f_space || apply f_head).
  unfold pmany. rewrite digits_fail; auto; [|lia]. apply suffix_free, suffix_free, f_free.
Qed.
Lemma quarter3_unread : unread e SQuarter3 t.
Proof.
  apply fails_unread. cbn [grammar]. unfold g_quarter3, pbind, pws, pmany. rewrite pch_stops; auto. apply free_stops, suffix_free, suffix_free, f_free.
Qed.
Lemma no_replace o n u : (exists x o', o = x :: o' /\ ~ In x u) -> replace_text o n u = u.
Proof.
  intros (x & o' & -> & N). unfold replace_text. generalize (List.length u). intros k. revert u N. induction k as [|k IH]; intros u N; cbn [replace_sub]; auto.
  destruct u as [|y u]; auto. cbn [is_prefix]. destruct (ch_eqb x y) eqn:Q; [apply ch_eqb_eq in Q; subst; destruct N; left; auto|].
  cbn [andb]. rewrite IH; auto. intros I. apply N. right. auto.
Qed.
Lemma word_value u : In c u -> Forall (fun x => ~ among "0123456789IV()" x) u -> q_to_m u = Err EValue /\ s_to_m u = Err EValue.
Proof.
  intros I A. assert (NI : ~ In "I"%char u). { intros J. rewrite Forall_forall in A. apply (A _ J). vm_compute. tauto. }
  assert (PI : forall v, v = u -> py_int_of_text (strip v) = Err EValue).
  { intros v ->. assert (LC : word_char c). { split; [rewrite white_iff|rewrite <- in_set_iff]; revert L; clear; revert c; [assert (B : forall c, is_letter c = true -> negb (is_space c) = true) by bytes; intros c L; apply B in L; destruct (is_space c); [discriminate|congruence]|
      assert (B : forall c, is_letter c = true -> negb (in_set "0123456789+-_" c) = true) by bytes; intros c L; apply B in L; destruct (in_set "0123456789+-_" c); [discriminate|congruence]]. }
    apply (word_no_int (strip u) c); auto. apply strip_keeps; auto. destruct (is_space c) eqn:SC; auto. destruct LC as [LC _]. destruct LC. apply white_iff. auto. }
  assert (NR : forall o n, (exists o', o = "I"%char :: o') -> replace_text o n u = u).
  { intros o n (o' & ->). apply no_replace. eauto. }
  destruct u as [|y u']; [destruct I|]. split; cbn [q_to_m s_to_m]; cbv zeta.
  - rewrite (NR (T "IV")) by (eexists; reflexivity). rewrite (NR (T "III")) by (eexists; reflexivity). rewrite (NR (T "II")) by (eexists; reflexivity).
    rewrite (NR (T "I")) by (eexists; reflexivity). rewrite PI; auto.
  - rewrite (NR (T "II")) by (eexists; reflexivity). rewrite (NR (T "I")) by (eexists; reflexivity). rewrite PI; auto.
Qed.
Lemma sign_part : let q := take_while q_not_digit t in In c q /\ Forall (fun x => ~ among "0123456789IV()" x) q.
Proof.
  cbv zeta. split.
  - subst t. cbn [take_while]. replace (q_not_digit c) with true; [left; auto|]. symmetry. revert L. clear. revert c. bytes.
  - clear - F. unfold filler in F. induction F as [|x u N _ IH]; cbn [take_while]; [constructor|]. destruct (q_not_digit x); constructor; auto. apply IH. inversion F; auto.
Qed.
Lemma quarter4_unread : unread e SQuarter4 t.
Proof.
  exists EValue. split; [|split; discriminate]. unfold run_grammar. cbn [grammar]. unfold g_quarter4, pbind. rewrite pws_stops, popt_pref_stops by (apply f_space || apply f_head).
  unfold pmany. set (u := drop_while qsep _). assert (FU : free u) by (apply suffix_free, suffix_free, f_free).
  replace (popt (prep 2 2 is_digit) u) with (@POk (option text) None u) by (unfold popt; rewrite digits_fail by (auto; lia); reflexivity).
  destruct (popt_pref_free u FU) as (o & u' & -> & _). unfold pws, pmany. destruct (prep 0 3 anything _) as [x y| |] eqn:P.
  - cbn [opt_dob pact]. destruct (word_value (take_while q_not_digit t)) as [-> _]; try apply sign_part. reflexivity.
  - unfold prep in P. destruct (span_max 3 anything _). discriminate.
  - destruct (prep_exn _ _ _ _ _ P).
Qed.
Lemma semester_unread : unread e SSemester t.
Proof.
  exists EValue. split; [|split; discriminate]. unfold run_grammar. cbn [grammar]. unfold g_semester, pbind. rewrite pws_stops, popt_pref_stops by (apply f_space || apply f_head).
  unfold pmany. set (u := drop_while ssep _). assert (FU : free u) by (apply suffix_free, suffix_free, f_free).
  replace (popt (prep 2 2 is_digit) u) with (@POk (option text) None u) by (unfold popt; rewrite digits_fail by (auto; lia); reflexivity).
  destruct (popt_pref_free u FU) as (o & u' & -> & _). unfold pws, pmany. destruct (prep 0 3 anything _) as [x y| |] eqn:P.
  - cbn [opt_dob pact]. destruct (word_value (take_while q_not_digit t)) as [_ ->]; try apply sign_part. reflexivity.
  - unfold prep in P. destruct (span_max 3 anything _). discriminate.
  - destruct (prep_exn _ _ _ _ _ P).
Qed.
End Roman.

Lemma year_unread e s t : free t -> s = SYear1 \/ s = SYear2 -> unread e s t.
Proof.
  intros F S. apply fails_unread. assert (YR : popt y_ref t = POk None t).
  { unfold popt, y_ref, pbind, pmany. assert (F1 := suffix_free not_d_or_p t F). destruct (plit "(" _) as [c r| |] eqn:Q; auto; [|destruct (plit_exn _ _ _ Q)].
    apply plit_split in Q. rewrite Q in F1. rewrite digits_fail; [reflexivity|unfold free in *; cbn in F1; auto|lia]. }
  destruct S as [-> | ->]; cbn [grammar]; unfold g_year1, g_year2, pbind; rewrite YR; unfold pmany; rewrite digits_fail; auto; try lia. apply suffix_free. auto.
Qed.
Lemma month2_unread e t : free t -> unread e SMonth2 t.
Proof.
  intros F. apply fails_unread. cbn [grammar]. unfold g_month2, por, m2_y, m2_m, pbind, pws, pmany. rewrite !digits_fail; auto; try lia; apply suffix_free; auto.
Qed.
(** a first word that is no month says nothing *)
Lemma month1_word e t : free t -> stops is_space t = true -> no_month e t ->
  (unread e SMonth1 t /\ ~ begins_with_word t) \/ run_grammar (grammar e SMonth1) t = Ok (None, None).
Proof.
  intros F S NM. inversion NM as [word rest W L R K ET]. subst t. apply (forall_b letter is_letter) in W; [|apply letter_iff]. apply (begins_stops letter is_letter) in R; [|apply letter_iff].
  set (t := word ++ rest) in *. clear NM. assert (Y : m1_y t = PFail).
  { unfold m1_y, pbind, pws, pmany. rewrite digits_fail; [reflexivity|apply suffix_free; auto|lia]. }
  destruct (Nat.lt_ge_cases (List.length word) 3) as [S3|G3].
  - left. split; [|intros (a & b & c & r & ET & A & B & C); apply letter_iff in A, B, C; unfold t in ET; destruct word as [|w1 [|w2 [|w3 word]]]; cbn in ET, S3; try lia;
      inversion ET; subst; cbn in R; rewrite ?A, ?B, ?C in R; discriminate].
    apply fails_unread. cbn [grammar]. unfold g_month1, por. assert (M : m1_m t = PFail).
    { unfold m1_m, pbind. rewrite pws_stops by auto. unfold t. rewrite prep_short; auto. lia. }
    unfold pbind. rewrite Y, M. reflexivity.
  - right. destruct K as [K|K]; [lia|]. assert (M : exists r, m1_m t = POk word r /\ free r).
    { unfold m1_m, pbind. rewrite pws_stops by auto. unfold t. rewrite prep_app; auto. assert (FR : free rest).
      { unfold free, t in *. rewrite forallb_app in F. apply andb_prop in F. tauto. }
      unfold popt. destruct (plit "." rest) as [c r| |] eqn:Q; [|eexists; split; [reflexivity|auto]|destruct (plit_exn _ _ _ Q)].
      apply plit_split in Q. subst rest. eexists; split; [reflexivity|]. unfold free in *. cbn in FR. auto. }
    destruct M as (r & M & FR). unfold run_grammar. cbn [grammar]. unfold g_month1, por.
    assert (MY : forall B (k : text -> text -> parser B), pbind m1_m (fun m => pbind (popt pref) (fun _ => pbind (popt m1_sep) (fun _ => pbind m1_y (k m)))) t = PFail).
    { intros B k. unfold pbind at 1. rewrite M. unfold pbind at 1. destruct (popt_pref_free r FR) as (o & r1 & -> & F1). unfold pbind at 1.
      assert (SP : exists o r2, popt m1_sep r1 = POk o r2 /\ free r2).
      { unfold popt. destruct (m1_sep r1) as [u r2| |x] eqn:Q; [|do 2 eexists; split; [reflexivity|auto]|].
        - do 2 eexists. split; [reflexivity|]. unfold m1_sep, pbind, pws, pmany in Q. assert (F2 := suffix_free is_space r1 F1).
          destruct (pch anything (drop_while is_space r1)) as [x r3| |] eqn:C; try discriminate. unfold pch in C. destruct (drop_while is_space r1) as [|y r4]; try discriminate.
          cbn in C. inversion C; subst. destruct (in_set _ x); inversion Q. apply suffix_free. unfold free in *. cbn in F2. apply andb_prop in F2. tauto.
        - unfold m1_sep, pbind, pws, pmany in Q. destruct (pch anything (drop_while is_space r1)) as [y r3| |] eqn:C; try discriminate; [destruct (in_set _ y); discriminate|].
          unfold pch in C. destruct (drop_while is_space r1); discriminate. }
      destruct SP as (o2 & r2 & -> & F2). unfold pbind. replace (m1_y r2) with (@PFail text); auto.
      unfold m1_y, pbind, pws, pmany. rewrite digits_fail; [reflexivity|apply suffix_free; auto|lia]. }
    rewrite MY. unfold pbind at 1. rewrite Y. unfold pbind. rewrite M. unfold pmany. destruct (take_all anything r) as [_ ->]; [clear; induction r; auto|].
    cbn [pret]. unfold month_num. rewrite K. reflexivity.
Qed.
