(** Notes, marks and ends of the time texts. *)
From Coq Require Import ZifyBool ZifyNat ZifyN.
From Verif Require Import Base BaseFacts CoordFacts Cal Peg ParseTime TimeIndex SpecCal SpecTime SpecData SpecParse TimeProofs NumberFacts DataFacts ParseFacts.
Local Open Scope Z_scope.

Definition is_par (c : ascii) : bool := ch_eqb c "(".
Definition is_star (c : ascii) : bool := ch_eqb c "*".
Lemma note_inv n : note n -> exists ds, n = "("%char :: ds ++ [")"%char] /\ (1 <= List.length ds <= 3)%nat /\ forallb is_digit ds = true.
Proof. intros [ds L D]. exists ds. split; [auto|]. split; [auto|]. apply (forall_b digit); auto. intros c. apply digit_iff. Qed.
Lemma close_note ds r : (1 <= List.length ds <= 3)%nat -> forallb is_digit ds = true ->
  prep 1 3 is_digit ((ds ++ [")"%char]) ++ r) = POk ds (")"%char :: r).
Proof. intros L D. rewrite <- app_assoc. apply prep_app; auto. Qed.
Lemma pref_note b n r : Forall white b -> note n -> pref (b ++ n ++ r) = POk tt (drop_while is_space r).
Proof.
  intros B N. destruct (note_inv n N) as (ds & -> & L & D). unfold pref, por, pbind.
  rewrite pws_app by (auto; apply white_all; auto). cbn [app]. rewrite plit_head, close_note by auto. rewrite plit_head. unfold pws, pmany, pret. auto.
Qed.
Lemma pref_star r : pref ("*"%char :: r) = POk tt r.
Proof.
  unfold pref, por, pbind. rewrite (pws_stops ("*"%char :: r)) by reflexivity. rewrite (plit_stops "(") by reflexivity. rewrite plit_head. auto.
Qed.
Lemma pref_fail t : stops is_par (drop_while is_space t) = true -> stops is_star t = true -> pref t = PFail.
Proof.
  intros A B. unfold pref, por, pbind. unfold pws, pmany. rewrite (plit_stops "(") by exact A. rewrite plit_stops by exact B. auto.
Qed.
(** a class of characters that cannot begin a note *)
Definition head_only (c : ascii) : bool := is_space c || is_par c || is_star c.
Lemma pref_stops t : stops head_only t = true -> pref t = PFail.
Proof.
  intros S1. destruct t as [|c t]; [reflexivity|]. cbn in S1. apply negb_true_iff in S1. unfold head_only in S1.
  apply orb_false_iff in S1 as [S1 S3]. apply orb_false_iff in S1 as [S1 S2].
  apply pref_fail; cbn; rewrite ?S1, ?S3; auto. cbn. rewrite S2. auto.
Qed.
Lemma popt_pref_stops t : stops head_only t = true -> popt pref t = POk None t.
Proof. intros H. unfold popt. rewrite pref_stops; auto. Qed.

(** ** Never growing *)
Lemma drop_length f t : (List.length (drop_while f t) <= List.length t)%nat.
Proof. induction t as [|c t IH]; cbn; auto. destruct (f c); cbn; lia. Qed.
Lemma span_length n f : forall t a r, span_max n f t = (a, r) -> t = a ++ r.
Proof.
  induction n as [|n IH]; intros t a r H; cbn in H; [injection H as <- <-; auto|].
  destruct t as [|c t]; [injection H as <- <-; auto|]. destruct (f c); [|injection H as <- <-; auto].
  destruct (span_max n f t) as [x y] eqn:E. injection H as <- <-. cbn. f_equal. apply IH. auto.
Qed.
Lemma prep_split lo hi f t a r : prep lo hi f t = POk a r -> t = a ++ r.
Proof. unfold prep. destruct (span_max hi f t) as [x y] eqn:E. destruct (Nat.leb lo (List.length x)); [|discriminate]. intros H. injection H as <- <-. apply (span_length hi f); auto. Qed.
Lemma plit_split c t x r : plit c t = POk x r -> t = c :: r.
Proof. unfold plit, pch. destruct t as [|y t]; [discriminate|]. destruct (ch_eqb y c) eqn:E; [|discriminate]. intros H. injection H as -> <-. apply ch_eqb_eq in E. congruence. Qed.
Lemma prep_exn lo hi f t x : prep lo hi f t <> PExn x.
Proof. unfold prep. destruct (span_max hi f t). destruct (Nat.leb lo (List.length t0)); discriminate. Qed.
Lemma plit_exn c t x : plit c t <> PExn x.
Proof. unfold plit, pch. destruct t as [|y t]; [discriminate|]. destruct (ch_eqb y c); discriminate. Qed.
Lemma pref_exn t x : pref t <> PExn x.
Proof.
  unfold pref, por, pbind, pws, pmany, pret.
  destruct (plit "(" (drop_while is_space t)) as [? r1| |z] eqn:P1; [|destruct (plit "*" t) eqn:P; congruence || (exfalso; eapply plit_exn; eauto)|exfalso; eapply plit_exn; eauto].
  destruct (prep 1 3 is_digit r1) as [? r2| |z] eqn:P2; [|destruct (plit "*" t) eqn:P; congruence || (exfalso; eapply plit_exn; eauto)|exfalso; eapply prep_exn; eauto].
  destruct (plit ")" r2) as [? r3| |z] eqn:P3; [|destruct (plit "*" t) eqn:P; congruence || (exfalso; eapply plit_exn; eauto)|exfalso; eapply plit_exn; eauto].
  discriminate.
Qed.
(** what is left after a note is a suffix, shorter than what comes after the blanks *)
Lemma pref_left t r : pref t = POk tt r -> exists a, t = a ++ r /\ a <> [] /\ (List.length (drop_while is_space r) < List.length (drop_while is_space t))%nat.
Proof.
  assert (ST : forall q, plit "*" t = POk q r -> exists a, t = a ++ r /\ a <> [] /\ (List.length (drop_while is_space r) < List.length (drop_while is_space t))%nat).
  { intros q Q. apply plit_split in Q. subst t. exists ["*"%char]. split; [auto|]. split; [discriminate|]. cbn. pose proof (drop_length is_space r). lia. }
  unfold pref, por, pbind, pws, pmany, pret.
  destruct (drop_suffix is_space t) as (b & E & B).
  destruct (plit "(" (drop_while is_space t)) as [? r1| |z] eqn:P1; [|destruct (plit "*" t) eqn:P; intros H; inversion H; subst; eauto|exfalso; eapply plit_exn; eauto].
  destruct (prep 1 3 is_digit r1) as [ds r2| |z] eqn:P2; [|destruct (plit "*" t) eqn:P; intros H; inversion H; subst; eauto|exfalso; eapply prep_exn; eauto].
  destruct (plit ")" r2) as [? r3| |z] eqn:P3; [|destruct (plit "*" t) eqn:P; intros H; inversion H; subst; eauto|exfalso; eapply plit_exn; eauto].
  intros H. injection H as <-. apply plit_split in P1, P3. apply prep_split in P2. subst.
  destruct (drop_suffix is_space r3) as (b' & E' & B').
  exists (b ++ "("%char :: ds ++ ")"%char :: b'). split; [|split].
  - rewrite E, P1. rewrite E' at 1. rewrite <- !app_assoc. cbn. rewrite <- app_assoc. cbn. auto.
  - destruct b; discriminate.
  - rewrite P1. cbn [List.length]. rewrite app_length. cbn. pose proof (drop_length is_space r3). pose proof (drop_length is_space (drop_while is_space r3)). lia.
Qed.

(** ** The ends *)
Definition rest3 (t : text) : Prop := (List.length (drop_while is_space t) <= 3)%nat.
Lemma drop_idem f t : drop_while f (drop_while f t) = drop_while f t.
Proof. apply drop_stops, drop_ends. Qed.
Lemma blanks_rest b x : Forall white b -> short x -> rest3 (b ++ x).
Proof. intros B S1. unfold rest3. rewrite drop_app by (apply white_all; auto). pose proof (drop_length is_space x). unfold short in S1. lia. Qed.
Lemma tail_pref t : tail t -> exists o r, popt pref t = POk o r /\ rest3 r.
Proof.
  intros [b x B S1|b x B S1|b n b' x B N B' S1].
  - pose proof (blanks_rest b x B S1) as R. unfold popt. destruct (pref (b ++ x)) as [[] r| |z] eqn:P.
    + exists (Some tt), r. split; auto. destruct (pref_left _ _ P) as (a & _ & _ & L). unfold rest3 in *. lia.
    + exists None, (b ++ x). auto.
    + exfalso. eapply pref_exn; eauto.
  - unfold popt. rewrite pref_star. exists (Some tt), (b ++ x). split; auto. apply blanks_rest; auto.
  - unfold popt. rewrite pref_note by auto. exists (Some tt), (drop_while is_space (b' ++ x)). split; auto.
    pose proof (blanks_rest b' x B' S1) as R. unfold rest3 in *. rewrite drop_idem. auto.
Qed.
Lemma tail_end {A} (k : parser A) t : tail t ->
  (let_p _ := popt pref in let_p _ := pws in let_p _ := prep 0 3 anything in k) t = k [].
Proof.
  intros H. destruct (tail_pref t H) as (o & r & E & R). unfold pbind at 1. rewrite E. unfold pbind. unfold pws, pmany. rewrite prep0 by exact R. auto.
Qed.
Lemma tail_drop t : tail t -> tail (drop_while is_space t).
Proof.
  intros [b x B S1|b x B S1|b n b' x B N B' S1].
  - apply (tail_plain []); auto. apply blanks_rest; auto.
  - apply tail_star; auto.
  - rewrite drop_app by (apply white_all; auto). destruct (note_inv n N) as (ds & E & _).
    rewrite drop_stops by (rewrite E; reflexivity). apply (tail_note [] n b' x); auto.
Qed.
Lemma tail_end' {A} (k : parser A) t : tail t ->
  (let_p _ := pws in let_p _ := popt pref in let_p _ := pws in let_p _ := prep 0 3 anything in k) t = k [].
Proof. intros H. unfold pbind at 1. unfold pws at 1, pmany. apply tail_end, tail_drop. auto. Qed.

(** ** The beginnings *)
Lemma mark_popt a k : mark a -> stops head_only k = true -> exists o, popt pref (a ++ k) = POk o k.
Proof.
  intros [| |n b N B] K; cbn [app].
  - exists None. apply popt_pref_stops. auto.
  - exists (Some tt). unfold popt. rewrite pref_star. auto.
  - exists (Some tt). unfold popt. rewrite <- app_assoc. pose proof (pref_note [] n (b ++ k) ltac:(auto) N) as P. cbn [app] in P. rewrite P.
    rewrite drop_app by (apply white_all; auto). rewrite drop_stops; auto.
    destruct k as [|c k]; auto. cbn in *. unfold head_only in K. destruct (is_space c); auto.
Qed.
Lemma mark_ws a k : mark a -> stops head_only k = true -> stops is_space (a ++ k) = true.
Proof.
  intros [| |n b N B] K; cbn [app]; auto.
  - destruct k as [|c k]; auto. cbn in *. unfold head_only in K. destruct (is_space c); auto.
  - destruct (note_inv n N) as (ds & -> & _). auto.
Qed.
