(** The texts that float() reads (C32, C33, C53). *)
From Verif Require Import Base BaseFacts CoordFacts SpecCoordFacts SpecTime SpecData TimeProofs.
Local Open Scope Z_scope.

Lemma white_all t : Forall white t <-> forallb is_space t = true.
Proof.
  rewrite forallb_forall, Forall_forall. split; intros H c I; apply white_space, H; auto.
Qed.

(** *** strip *)
Lemma drop_while_all f t : forallb f t = true -> drop_while f t = [].
Proof. induction t as [|c t IH]; cbn; auto. destruct (f c); cbn; auto; discriminate. Qed.
Lemma strip_around a t b : forallb is_space a = true -> forallb is_space b = true -> tight t -> strip (a ++ t ++ b) = t.
Proof.
  intros A B [H1 H2]. unfold strip.
  destruct t as [|c t].
  - cbn [app]. rewrite (drop_while_all is_space (a ++ b)); [reflexivity|]. rewrite forallb_app, A, B; auto.
  - rewrite (drop_while_app is_space a ((c :: t) ++ b)) by auto.
    rewrite rev_app_distr. rewrite (drop_while_app is_space (rev b) (rev (c :: t))).
    + apply rev_involutive.
    + rewrite forallb_forall in B |- *. intros x I. apply B. apply in_rev. auto.
    + exact H2.
Qed.
Lemma drop_while_split f t : exists a, t = a ++ drop_while f t /\ forallb f a = true.
Proof.
  exists (take_while f t). split; [symmetry; apply take_drop_while|apply take_while_all].
Qed.
Lemma drop_while_first f t : match drop_while f t with [] => True | c :: _ => f c = false end.
Proof. destruct (drop_while f t) as [|c r] eqn:E; auto. eapply drop_while_head; eauto. Qed.
Lemma strip_split t : exists a b, t = a ++ strip t ++ b /\ forallb is_space a = true /\ forallb is_space b = true /\ tight (strip t).
Proof.
  destruct (drop_while_split is_space t) as (a & E & A).
  destruct (drop_while_split is_space (rev (drop_while is_space t))) as (b & E2 & B).
  exists a, (rev b).
  assert (E3 : drop_while is_space t = strip t ++ rev b).
  { unfold strip. apply (f_equal (@rev ascii)) in E2. rewrite rev_involutive, rev_app_distr in E2. exact E2. }
  split; [|split; [auto|split]].
  - rewrite <- E3. auto.
  - rewrite forallb_forall in B |- *. intros x I. apply B. apply in_rev. auto.
  - split.
    + pose proof (drop_while_first is_space t) as F. rewrite E3 in F. destruct (strip t); auto.
    + unfold strip. rewrite rev_involutive. apply drop_while_first.
Qed.

(** *** digits *)
Lemma digit_iff c : digit c <-> is_digit c = true.
Proof.
  unfold digit.
  pose proof (byte_check (fun c => Bool.eqb (Nat.leb 48 (nat_of_ascii c) && Nat.leb (nat_of_ascii c) 57) (is_digit c)) eq_refl c) as B.
  apply Bool.eqb_prop in B. rewrite <- B. rewrite andb_true_iff, !Nat.leb_le. tauto.
Qed.

Lemma digits_digit t ds : digits t ds -> forallb is_digit ds = true /\ ds <> [] /\ exists c r, t = c :: r /\ is_digit c = true.
Proof.
  induction 1 as [d D|d t ds D H IH|d t ds D H IH]; (split; [|split; [discriminate|eexists _, _; split; [reflexivity|apply digit_iff; auto]]]);
    cbn; apply digit_iff in D; rewrite D; auto; apply IH.
Qed.
Lemma under_false t ds : strip_underscores false t = Some ds <-> digits t ds.
Proof.
  revert t ds.
  assert (G : forall n t, (List.length t <= n)%nat -> forall ds, (strip_underscores true t = Some ds <->
     (t = [] /\ ds = []) \/ digits t ds \/ (exists r, t = "_"%char :: r /\ digits r ds)) /\
     (strip_underscores false t = Some ds <-> digits t ds)).
  { induction n as [|n IH]; intros [|c r] L ds; cbn in L; try lia.
    1,2: split; cbn; split; try discriminate; intros H;
      [inversion H; auto|destruct H as [[_ ->]|[H|(x & X & _)]]; [auto|inversion H|discriminate]|inversion H].
    assert (L' : (List.length r <= n)%nat) by lia.
    assert (F : strip_underscores false (c :: r) = Some ds <-> digits (c :: r) ds).
    { cbn [strip_underscores]. destruct (is_digit c) eqn:C.
      - destruct (strip_underscores true r) as [x|] eqn:X.
        + destruct (IH r L' x) as [I1 _]. apply I1 in X.
          split.
          * intros Q. injection Q as <-. apply digit_iff in C. destruct X as [[-> ->]|[X|(q & -> & X)]]; [constructor|apply dg_more|apply dg_under]; auto.
          * intros Q. f_equal. inversion Q as [d D|d t' es D Q'|d t' es D Q']; subst.
            -- destruct X as [[_ ->]|[X|(q & X & _)]]; [auto|inversion X|discriminate].
            -- f_equal. assert (strip_underscores true r = Some es) as E1 by (apply (proj1 (IH r L' es)); auto). assert (strip_underscores true r = Some x) as E2 by (apply (proj1 (IH r L' x)); auto). congruence.
            -- f_equal. assert (strip_underscores true ("_"%char :: t') = Some es) as E1 by (apply (proj1 (IH _ L' es)); right; right; eauto).
               assert (strip_underscores true ("_"%char :: t') = Some x) as E2 by (apply (proj1 (IH _ L' x)); auto). congruence.
        + split; [discriminate|]. intros Q. exfalso.
          assert (N : forall y, ~ ((r = [] /\ y = []) \/ digits r y \/ (exists q, r = "_"%char :: q /\ digits q y))).
          { intros y Y. apply (IH r L' y) in Y. congruence. }
          inversion Q; subst; eapply N; eauto.
      - rewrite andb_false_r. split; [discriminate|]. intros Q. inversion Q; subst; apply digit_iff in H1 || apply digit_iff in H2 || idtac; congruence. }
    split; [|exact F].
    cbn [strip_underscores]. destruct (is_digit c) eqn:C.
    - cbn [strip_underscores] in F. rewrite C in F. rewrite F. split; [auto|].
      intros [[Q _]|[Q|(q & Q & _)]]; [discriminate|auto|]. injection Q as -> _. discriminate.
    - destruct (ch_eqb c "_") eqn:U; cbn [andb].
      + apply ch_eqb_eq in U. subst c. rewrite (proj2 (IH r L' ds)). split; [eauto|].
        intros [[Q _]|[Q|(q & Q & D)]]; [discriminate| |injection Q as ->; auto].
        apply digits_digit in Q. destruct Q as (_ & _ & c & q & Q & D). injection Q as <- _. discriminate.
      + split; [discriminate|]. intros [[Q _]|[Q|(q & Q & D)]]; [discriminate| |].
        * apply digits_digit in Q. destruct Q as (_ & _ & x & q & Q & D). injection Q as <- _. congruence.
        * injection Q as -> _. discriminate. }
  intros t ds. apply (G (List.length t) t (le_n _) ds).
Qed.

Lemma decimal_iff ds n : decimal ds n <-> forallb is_digit ds = true /\ digits_val ds = n.
Proof.
  assert (DV : forall c, is_digit c = true -> digit_val c = Z.of_nat (nat_of_ascii c) - 48).
  { intros c D. pose proof (byte_check (fun c => negb (is_digit c) || (digit_val c =? Z.of_nat (nat_of_ascii c) - 48)) eq_refl c) as B.
    cbn beta in B. rewrite D in B. apply Z.eqb_eq in B. exact B. }
  split.
  - induction 1 as [|t n d H [IH1 IH2] D]; [split; reflexivity|]. apply digit_iff in D. split.
    + rewrite forallb_app, IH1. cbn. rewrite D. auto.
    + unfold digits_val in *. rewrite fold_left_app, IH2. cbn [fold_left]. rewrite DV by auto. ring.
  - revert n. induction ds as [|d ds IH] using rev_ind; intros n [A E].
    + cbn in E. subst. constructor.
    + rewrite forallb_app in A. apply andb_true_iff in A. destruct A as [A D]. cbn in D. rewrite andb_true_r in D.
      unfold digits_val in E. rewrite fold_left_app in E. cbn [fold_left] in E. rewrite DV in E by auto. subst n.
      replace (fold_left (fun acc c => acc * 10 + digit_val c) ds 0 * 10 + (Z.of_nat (nat_of_ascii d) - 48))
        with (10 * digits_val ds + (Z.of_nat (nat_of_ascii d) - 48)) by (unfold digits_val; ring).
      apply dc_snoc; [apply IH; auto|apply digit_iff; auto].
Qed.
Lemma take_sign_split t neg b : take_sign t = (neg, b) -> exists s, t = s ++ b /\ sign s neg.
Proof.
  destruct t as [|c t]; cbn.
  - intros E. inversion E. exists []. split; [auto|constructor].
  - destruct (ch_eqb c "-") eqn:M; [|destruct (ch_eqb c "+") eqn:P]; intros E; inversion E; subst.
    + apply ch_eqb_eq in M. subst. exists ["-"%char]. split; [auto|constructor].
    + apply ch_eqb_eq in P. subst. exists ["+"%char]. split; [auto|constructor].
    + exists []. split; [auto|constructor].
Qed.
Definition unsigned (t : text) : Prop := forall c r, t = c :: r -> c <> "-"%char /\ c <> "+"%char.
Lemma take_sign_app s neg b : sign s neg -> unsigned b -> take_sign (s ++ b) = (neg, b).
Proof.
  intros H U. destruct H; cbn; auto. destruct b as [|c b]; auto. cbn. destruct (U c b eq_refl) as [N1 N2].
  apply ch_eqb_neq in N1, N2. rewrite N1, N2. auto.
Qed.
Definition numeral (c : ascii) : bool := is_digit c || ch_eqb c "_" || ch_eqb c "." || ch_eqb c "-" || ch_eqb c "+".
Lemma low_numeral c x : low_ch c = x -> numeral x = true -> c = x.
Proof.
  intros <- N. pose proof (byte_check (fun c => negb (numeral (low_ch c)) || ch_eqb c (low_ch c)) eq_refl c) as B.
  cbn beta in B. rewrite N in B. apply ch_eqb_eq. auto.
Qed.
Lemma lower_numeral t u : lower t = u -> forallb numeral u = true -> t = u.
Proof.
  revert u. induction t as [|c t IH]; intros [|x u]; cbn; try discriminate; auto.
  intros E N. inversion E as [[E1 E2]]. apply andb_true_iff in N. destruct N as [N1 N2].
  rewrite E1. rewrite (low_numeral c x) by auto. f_equal. rewrite E2. apply IH; auto.
Qed.
Lemma numeral_lower t : forallb numeral t = true -> lower t = t.
Proof.
  induction t as [|c t IH]; cbn; auto. intros N. apply andb_true_iff in N. destruct N as [N1 N2]. f_equal; [|apply IH; auto].
  pose proof (byte_check (fun c => negb (numeral c) || ch_eqb (low_ch c) c) eq_refl c) as B. cbn beta in B. rewrite N1 in B. apply ch_eqb_eq. auto.
Qed.
Lemma lower_app a b : lower (a ++ b) = lower a ++ lower b.
Proof. apply map_app. Qed.
Lemma lower_split t a b : lower t = a ++ b -> exists a' b', t = a' ++ b' /\ lower a' = a /\ lower b' = b.
Proof. intros H. unfold lower in H. apply map_eq_app in H. destruct H as (x & y & -> & E1 & E2). eauto. Qed.
Lemma low_e c : low_ch c = "e"%char <-> In c ["e"%char; "E"%char].
Proof.
  pose proof (byte_check (fun c => Bool.eqb (ch_eqb (low_ch c) "e") (ch_eqb c "e" || ch_eqb c "E")) eq_refl c) as B.
  cbn beta in B. apply Bool.eqb_prop in B. rewrite <- ch_eqb_eq, B. rewrite orb_true_iff, !ch_eqb_eq. cbn. intuition congruence.
Qed.
Lemma spelled_lower s t : forallb is_lower (T s) = true -> spelled s t <-> lower t = T s.
Proof.
  unfold spelled. generalize (T s) as u. intros u. revert u. induction t as [|c t IH]; intros [|x u] L; cbn; split; intros H; try discriminate; auto;
    try (inversion H; fail).
  - apply andb_true_iff in L. destruct L as [L1 L2]. inversion H as [|? ? ? ? H1 H2]; subst. f_equal; [|apply IH; auto].
    pose proof (byte_check2 (fun c x => negb (is_lower x) || negb (ch_eqb c x || ((Z.of_nat (nat_of_ascii c) =? Z.of_nat (nat_of_ascii x) - 32) && Nat.leb 97 (nat_of_ascii x) && Nat.leb (nat_of_ascii x) 122)) || ch_eqb (low_ch c) x)) as B.
    specialize (B ltac:(vm_compute; reflexivity) c x). cbn beta in B. rewrite L1 in B. cbn [negb orb] in B.
    apply ch_eqb_eq. destruct H1 as [->|[E [E1 E2]]].
    + rewrite ch_eqb_refl in B. auto.
    + rewrite <- Z.eqb_eq in E. apply Nat.leb_le in E1, E2. rewrite E, E1, E2, orb_true_r in B. auto.
  - apply andb_true_iff in L. destruct L as [L1 L2]. inversion H as [[H1 H2]]. constructor; [|rewrite H2; apply IH; auto].
    rewrite H1.
    pose proof (byte_check (fun c => negb (is_lower (low_ch c)) || (ch_eqb c (low_ch c) || ((Z.of_nat (nat_of_ascii c) =? Z.of_nat (nat_of_ascii (low_ch c)) - 32) && Nat.leb 97 (nat_of_ascii (low_ch c)) && Nat.leb (nat_of_ascii (low_ch c)) 122))) eq_refl c) as B.
    cbn beta in B. rewrite H1, L1 in B. cbn [negb orb] in B. apply orb_true_iff in B. destruct B as [B|B].
    + left. apply ch_eqb_eq. auto.
    + right. rewrite !andb_true_iff, Z.eqb_eq, !Nat.leb_le in B. tauto.
Qed.

(** *** float() of a text *)
Lemma digit_numeral c : is_digit c = true -> numeral c = true.
Proof. unfold numeral. intros ->. auto. Qed.
Definition in_digits (c : ascii) : bool := is_digit c || ch_eqb c "_".
Lemma digits_chars t ds : digits t ds -> forallb in_digits t = true.
Proof.
  induction 1 as [d D|d t ds D H IH|d t ds D H IH]; apply digit_iff in D; cbn; unfold in_digits at 1; rewrite D; cbn; auto.
Qed.
Lemma digits0_chars t ds : digits0 t ds -> forallb in_digits t = true.
Proof. intros [|]; auto. eapply digits_chars; eauto. Qed.
Lemma forallb_imp {A} (f g : A -> bool) l : (forall x, f x = true -> g x = true) -> forallb f l = true -> forallb g l = true.
Proof. intros I. rewrite !forallb_forall. auto. Qed.
Lemma in_digits_numeral c : in_digits c = true -> numeral c = true.
Proof. unfold in_digits, numeral. destruct (is_digit c), (ch_eqb c "_"); auto; discriminate. Qed.
Lemma in_digits_plain c : in_digits c = true -> c <> "e"%char /\ c <> "."%char /\ c <> "-"%char /\ c <> "+"%char /\ is_space c = false /\ is_letter c = false.
Proof.
  intros H. pose proof (byte_check (fun c => negb (in_digits c) || negb (ch_eqb c "e" || ch_eqb c "." || ch_eqb c "-" || ch_eqb c "+" || is_space c || is_letter c)) eq_refl c) as B.
  cbn beta in B. rewrite H in B. cbn [negb orb] in B. apply negb_true_iff in B. rewrite !orb_false_iff, !ch_eqb_neq in B. tauto.
Qed.
Definition in_mantissa (c : ascii) : bool := in_digits c || ch_eqb c ".".
Lemma mantissa_chars m ds k : mantissa m ds k -> forallb in_mantissa m = true /\ m <> [] /\ ds <> [] /\ forallb is_digit ds = true.
Proof.
  assert (W : forall t, forallb in_digits t = true -> forallb in_mantissa t = true).
  { intros t. apply forallb_imp. intros x. unfold in_mantissa. intros ->. auto. }
  assert (D0 : forall t ds, digits0 t ds -> forallb is_digit ds = true).
  { intros t es [|? ? H]; auto. apply digits_digit in H. apply H. }
  intros [t es H|t es u fs H1 H2 N].
  - split; [apply W; eapply digits_chars; eauto|]. destruct (digits_digit _ _ H) as (A & B & c & r & -> & _). split; [discriminate|auto].
  - split.
    + rewrite forallb_app. cbn. rewrite !W by (eapply digits0_chars; eauto). auto.
    + split; [destruct t; discriminate|]. split; auto. rewrite forallb_app, (D0 _ _ H1), (D0 _ _ H2). auto.
Qed.
Lemma in_mantissa_plain c : in_mantissa c = true -> c <> "e"%char /\ c <> "-"%char /\ c <> "+"%char /\ is_space c = false /\ is_letter c = false /\ numeral c = true.
Proof.
  unfold in_mantissa. intros H. apply orb_true_iff in H. destruct H as [H|H].
  - destruct (in_digits_plain c H) as (A & B & C & D & E & F). pose proof (in_digits_numeral c H). tauto.
  - apply ch_eqb_eq in H. subst. repeat split; try discriminate.
Qed.
Definition sp_ (w : text) : option text := match w with [] => Some [] | _ => strip_underscores false w end.
Lemma sp_iff w ds : sp_ w = Some ds <-> digits0 w ds.
Proof.
  unfold sp_. destruct w as [|c w].
  - split; [intros E; inversion E; constructor|]. intros H. inversion H as [|? ? D]; auto. inversion D.
  - rewrite under_false. split; [constructor; auto|]. intros H. inversion H; auto.
Qed.
Lemma exponent_chars x e : exponent x e -> x = [] \/ exists c r, x = c :: r /\ In c ["e"%char; "E"%char] /\
  exists s t neg ds n, r = s ++ t /\ sign s neg /\ digits t ds /\ decimal ds n /\ e = (if neg then - n else n).
Proof.
  intros [|c s t ds n C S D N|c s t ds n C S D N]; [auto| |]; right; exists c, (s ++ t); split; auto; split; auto.
  - exists s, t, false, ds, n. auto.
  - exists s, t, true, ds, n. auto.
Qed.
Lemma sign_chars s neg : sign s neg -> forallb (fun c => ch_eqb c "-" || ch_eqb c "+") s = true.
Proof. intros []; reflexivity. Qed.
Lemma sign_nospace s neg : sign s neg -> forallb (fun c => negb (is_space c)) s = true.
Proof. intros []; reflexivity. Qed.
Lemma sign_numeral s neg : sign s neg -> forallb numeral s = true.
Proof. intros []; reflexivity. Qed.
Lemma digits_nospace t ds : digits t ds -> forallb (fun c => negb (is_space c)) t = true.
Proof.
  intros H. refine (forallb_imp _ _ t _ (digits_chars _ _ H)). intros c Q.
  destruct (in_digits_plain c Q) as (_ & _ & _ & _ & H0 & _). rewrite H0. auto.
Qed.
Lemma digits_unsigned t ds : digits t ds -> unsigned t.
Proof.
  intros H c r E. subst. apply digits_chars in H. cbn in H. apply andb_true_iff in H. destruct H as [H _].
  destruct (in_digits_plain c H) as (_ & _ & A & B & _). auto.
Qed.

Lemma not_spelled_first c r s : is_letter c = false -> forallb is_lower (T s) = true -> T s <> [] -> text_eqb (lower (c :: r)) (T s) = false.
Proof.
  intros L. generalize (T s). intros [|x u] A N; [congruence|]. apply text_eqb_neq. intros E. cbn in E, A. injection E as E1 _.
  apply andb_true_iff in A. destruct A as [A _]. rewrite <- E1 in A. unfold low_ch in A. unfold is_letter in L.
  destruct (is_upper c) eqn:U; [discriminate|]. cbn in L. congruence.
Qed.

Lemma float_decimal t neg m e : decimal_text t neg m e -> py_float_of_text t = Ok (float_of_dec neg m e).
Proof.
  intros H. destruct H as [a s m x b neg ds k n e A B SG MT EX DC].
  destruct (mantissa_chars m ds k MT) as (MC & MN & DN & DD).
  destruct m as [|m0 mr] eqn:Em; [congruence|]. rewrite <- Em in *. 
  assert (M0 : in_mantissa m0 = true) by (subst m; cbn in MC; apply andb_true_iff in MC; tauto).
  apply white_all in A, B.
  assert (XC : forallb (fun c => negb (is_space c)) x = true).
  { destruct (exponent_chars x e EX) as [->|(c & r & -> & C & s' & t' & neg' & ds' & n' & -> & S' & D' & _)]; auto.
    cbn [forallb]. rewrite forallb_app, (sign_nospace _ _ S'), (digits_nospace _ _ D').
    destruct C as [<-|[<-|[]]]; reflexivity. }
  assert (ST : strip (a ++ s ++ m ++ x ++ b) = s ++ m ++ x).
  { replace (a ++ s ++ m ++ x ++ b) with (a ++ (s ++ m ++ x) ++ b) by (rewrite <- !app_assoc; auto).
    apply strip_around; auto. apply tight_nospace. rewrite !forallb_app, XC, andb_true_r.
    apply andb_true_iff. split.
    - refine (forallb_imp _ _ s _ (sign_chars _ _ SG)). intros c H. apply orb_true_iff in H. destruct H as [H|H]; apply ch_eqb_eq in H; subst; reflexivity.
    - refine (forallb_imp _ _ m _ MC). intros c H. destruct (in_mantissa_plain c H) as (_ & _ & _ & H0 & _). rewrite H0. auto. }
  unfold py_float_of_text. rewrite ST.
  rewrite (take_sign_app s neg (m ++ x) SG).
  2: { intros c r E. subst m. cbn in E. inversion E; subst. destruct (in_mantissa_plain c M0) as (_ & ? & ? & _). auto. }
  assert (ML : is_letter m0 = false) by (destruct (in_mantissa_plain m0 M0) as (_ & _ & _ & _ & ? & _); auto).
  cbv zeta. subst m. cbn [app].
  rewrite !not_spelled_first by (auto; vm_compute; congruence). cbn [orb].
  change (m0 :: mr ++ x) with ((m0 :: mr) ++ x). set (m := m0 :: mr) in *.
  assert (LM : lower m = m).
  { apply numeral_lower. refine (forallb_imp _ _ m _ MC). intros c H. destruct (in_mantissa_plain c H) as (_ & _ & _ & _ & _ & ?). auto. }
  rewrite lower_app, LM.
  assert (NE : forallb (fun c => negb (ch_eqb c "e")) m = true).
  { refine (forallb_imp _ _ m _ MC). intros c H. destruct (in_mantissa_plain c H) as (H0 & _). apply ch_eqb_neq in H0. rewrite H0. auto. }
  assert (X0 : match lower x with [] => True | c :: _ => negb (ch_eqb c "e") = false end).
  { destruct (exponent_chars x e EX) as [->|(c & r & -> & C & _)]; cbn; auto. apply low_e in C. rewrite C. reflexivity. }
  rewrite (take_while_app _ m (lower x) NE X0), (drop_while_app _ m (lower x) NE X0).
  set (ep := match lower x with [] => Some 0 | _ :: ex => _ end).
  assert (EP : ep = Some e).
  { unfold ep. destruct (exponent_chars x e EX) as [->|(c & r & -> & C & s' & t' & neg' & ds' & n' & -> & S' & D' & N' & ->)].
    - inversion EX. reflexivity.
    - cbn [lower map]. fold (lower (s' ++ t')). 
      assert (lower (s' ++ t') = s' ++ t') as ->.
      { apply numeral_lower. rewrite forallb_app. apply andb_true_iff. split.
        - refine (forallb_imp _ _ s' _ (sign_chars _ _ S')). intros q H. apply orb_true_iff in H. destruct H as [H|H]; apply ch_eqb_eq in H; subst; reflexivity.
        - refine (forallb_imp _ _ t' _ (digits_chars _ _ D')). apply in_digits_numeral. }
      rewrite (take_sign_app s' neg' t' S' (digits_unsigned _ _ D')).
      apply under_false in D'. rewrite D'. apply decimal_iff in N'. destruct N' as [_ ->]. reflexivity. }
  rewrite EP. clear ep EP. fold sp_.
  apply decimal_iff in DC. destruct DC as [_ DC].
  destruct MT as [t ds H|t ds u es H1 H2 N].
  - assert (ND : forallb (fun c => negb (ch_eqb c ".")) t = true).
    { refine (forallb_imp _ _ t _ (digits_chars _ _ H)). intros c Q. destruct (in_digits_plain c Q) as (_ & H0 & _). apply ch_eqb_neq in H0. rewrite H0. auto. }
    pose proof (take_while_app _ t [] ND I) as E1. pose proof (drop_while_app _ t [] ND I) as E2. rewrite app_nil_r in E1, E2. rewrite E1, E2.
    pose proof (proj2 (sp_iff t ds) (d0_some _ _ H)) as E3. unfold sp_ in E3. rewrite E3, app_nil_r. destruct ds; [congruence|]. rewrite DC. reflexivity.
  - assert (ND : forallb (fun c => negb (ch_eqb c ".")) t = true).
    { refine (forallb_imp _ _ t _ (digits0_chars _ _ H1)). intros c Q. destruct (in_digits_plain c Q) as (_ & H0 & _). apply ch_eqb_neq in H0. rewrite H0. auto. }
    rewrite (take_while_app _ t ("."%char :: u) ND eq_refl), (drop_while_app _ t ("."%char :: u) ND eq_refl).
    pose proof (proj2 (sp_iff t ds) H1) as E3. pose proof (proj2 (sp_iff u es) H2) as E4. unfold sp_ in E3, E4. rewrite E3, E4. destruct (ds ++ es) eqn:Q; [congruence|]. rewrite DC. reflexivity.
Qed.

Lemma letters_lower s t : forallb is_lower (T s) = true -> lower t = T s -> forallb is_letter t = true.
Proof.
  generalize (T s) as u. induction t as [|c t IH]; intros [|x u]; cbn; try discriminate; auto.
  intros L E. injection E as E1 E2. apply andb_true_iff in L. destruct L as [L1 L2]. rewrite (IH u) by auto. rewrite andb_true_r.
  rewrite <- E1 in L1. pose proof (byte_check (fun c => negb (is_lower (low_ch c)) || is_letter c) eq_refl c) as B. cbn beta in B.
  rewrite L1 in B. exact B.
Qed.
Lemma letter_plain c : is_letter c = true -> c <> "-"%char /\ c <> "+"%char /\ negb (is_space c) = true.
Proof.
  intros H. pose proof (byte_check (fun c => negb (is_letter c) || negb (ch_eqb c "-" || ch_eqb c "+" || is_space c)) eq_refl c) as B.
  cbn beta in B. rewrite H in B. cbn [negb orb] in B. apply negb_true_iff in B. rewrite !orb_false_iff, !ch_eqb_neq in B.
  destruct B as [[B1 B2] B3]. rewrite B3. auto.
Qed.
Lemma special_body a s t b neg u : Forall white a -> Forall white b -> sign s neg -> forallb is_lower (T u) = true -> spelled u t ->
  take_sign (strip (a ++ s ++ t ++ b)) = (neg, t) /\ lower t = T u.
Proof.
  intros A B S L SP. apply white_all in A, B. apply spelled_lower in SP; auto. split; auto.
  pose proof (letters_lower u t L SP) as LT.
  replace (a ++ s ++ t ++ b) with (a ++ (s ++ t) ++ b) by (rewrite <- !app_assoc; auto).
  rewrite strip_around; auto.
  - apply take_sign_app; auto. intros c r ->. cbn in LT. apply andb_true_iff in LT. destruct (letter_plain c (proj1 LT)) as (? & ? & _). auto.
  - apply tight_nospace. rewrite forallb_app, (sign_nospace _ _ S). refine (forallb_imp _ _ t _ LT). intros c H. apply letter_plain. auto.
Qed.
Lemma float_special t f : special_text t f -> py_float_of_text t = Ok f.
Proof.
  intros [a s u b neg A B S [SP|SP]|a s u b neg A B S SP]; match type of SP with spelled ?x _ => destruct (special_body a s u b neg x A B S eq_refl SP) as [E1 E2] end;
    unfold py_float_of_text; rewrite E1, E2; reflexivity.
Qed.
Lemma float_inverse t f : py_float_of_text t = Ok f ->
  (exists neg m e, decimal_text t neg m e /\ f = float_of_dec neg m e) \/ special_text t f.
Proof.
  unfold py_float_of_text. destruct (strip_split t) as (a & b & E & A & B & _). apply white_all in A, B.
  destruct (take_sign (strip t)) as [neg body] eqn:TS. apply take_sign_split in TS. destruct TS as (s & TS & SG).
  rewrite TS in E. rewrite <- app_assoc in E. cbv zeta.
  destruct (text_eqb (lower body) (T "inf")) eqn:I1; cbn [orb].
  { intros Q. injection Q as <-. right. apply text_eqb_eq in I1. rewrite E. apply st_inf; auto. left. apply spelled_lower; auto. }
  destruct (text_eqb (lower body) (T "infinity")) eqn:I2.
  { intros Q. injection Q as <-. right. apply text_eqb_eq in I2. rewrite E. apply st_inf; auto. right. apply spelled_lower; auto. }
  destruct (text_eqb (lower body) (T "nan")) eqn:I3.
  { intros Q. injection Q as <-. right. apply text_eqb_eq in I3. rewrite E. eapply st_nan; eauto. apply spelled_lower; auto. }
  set (mant := take_while (fun c => negb (ch_eqb c "e")) (lower body)).
  set (rest := drop_while (fun c => negb (ch_eqb c "e")) (lower body)).
  set (ip := take_while (fun c => negb (ch_eqb c ".")) mant).
  set (fr := drop_while (fun c => negb (ch_eqb c ".")) mant).
  assert (EB : lower body = mant ++ rest) by (symmetry; apply take_drop_while).
  assert (EM : mant = ip ++ fr) by (symmetry; apply take_drop_while).
  assert (RH : match rest with [] => True | c :: _ => c = "e"%char end).
  { pose proof (drop_while_first (fun c => negb (ch_eqb c "e")) (lower body)) as F. fold rest in F. destruct rest; auto.
    apply negb_false_iff, ch_eqb_eq in F. auto. }
  assert (FH : match fr with [] => True | c :: _ => c = "."%char end).
  { pose proof (drop_while_first (fun c => negb (ch_eqb c ".")) mant) as F. fold fr in F. destruct fr; auto.
    apply negb_false_iff, ch_eqb_eq in F. auto. }
  clearbody mant rest. clearbody ip fr.
  destruct (match rest with [] => Some 0 | _ :: ex => _ end) as [ex|] eqn:EP; [|discriminate].
  match goal with |- match ?X with _ => _ end = _ -> _ => destruct X as [i|] eqn:EI end; [|discriminate].
  set (fp := match fr with [] => [] | _ :: f0 => f0 end).
  match goal with |- match ?X with _ => _ end = _ -> _ => destruct X as [g|] eqn:EF end; [|discriminate].
  intros Q. assert (NN : i ++ g <> []) by (destruct (i ++ g); discriminate).
  assert (Q' : f = float_of_dec neg (digits_val (i ++ g)) (ex - Z.of_nat (List.length g))) by (destruct (i ++ g); congruence).
  clear Q. left. exists neg, (digits_val (i ++ g)), (ex - Z.of_nat (List.length g)). split; [|auto]. clear Q' f.
  apply sp_iff in EI. apply sp_iff in EF.
  destruct (lower_split body mant rest EB) as (bm & br & -> & BM & BR).
  assert (MN : forallb numeral mant = true).
  { rewrite EM, forallb_app. apply andb_true_iff. split; [refine (forallb_imp _ _ ip in_digits_numeral (digits0_chars _ _ EI))|].
    destruct fr as [|c fr]; auto. subst c. cbn [forallb]. subst fp. apply (forallb_imp _ _ fr in_digits_numeral (digits0_chars _ _ EF)). }
  apply lower_numeral in BM; auto. subst bm.
  assert (EXP : exponent br ex).
  { destruct rest as [|c r].
    - destruct br; [|discriminate]. injection EP as <-. constructor.
    - subst c. destruct (take_sign r) as [eneg ed] eqn:TS2. apply take_sign_split in TS2. destruct TS2 as (s2 & -> & SG2).
      destruct (strip_underscores false ed) as [ds|] eqn:UE; [|discriminate]. apply under_false in UE.
      destruct br as [|c br]; [discriminate|]. cbn in BR. injection BR as BC BR. apply low_e in BC.
      apply lower_numeral in BR.
      2: { rewrite forallb_app, (sign_numeral _ _ SG2). apply (forallb_imp _ _ ed in_digits_numeral (digits_chars _ _ UE)). }
      subst br. assert (DC : decimal ds (digits_val ds)) by (apply decimal_iff; split; [apply digits_digit in UE; apply UE|auto]).
      injection EP as <-. destruct eneg; [eapply ex_minus|eapply ex_plus]; eauto. }
  assert (D0 : forall t ds, digits0 t ds -> forallb is_digit ds = true).
  { intros u es [|? ? H]; auto. apply digits_digit in H. apply H. }
  assert (DC : decimal (i ++ g) (digits_val (i ++ g))).
  { apply decimal_iff. split; auto. rewrite forallb_app, (D0 _ _ EI), (D0 _ _ EF). auto. }
  rewrite E. rewrite <- app_assoc.
  apply (dt_intro a s mant br b neg (i ++ g) (Z.of_nat (List.length g)) _ ex); auto.
  rewrite EM. destruct fr as [|c fr].
  - subst fp. inversion EF as [|? ? H]; subst; [|inversion H]. rewrite !app_nil_r in *. apply mt_int. inversion EI; subst; [congruence|auto].
  - subst c. subst fp. apply mt_point; auto.
Qed.
Lemma float_text t f : py_float_of_text t = Ok f <->
  (exists neg m e, decimal_text t neg m e /\ f = float_of_dec neg m e) \/ special_text t f.
Proof.
  split; [apply float_inverse|]. intros [(neg & m & e & D & ->)|H]; [apply float_decimal; auto|apply float_special; auto].
Qed.
