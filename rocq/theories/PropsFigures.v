(** Property C80: the decimals of a series of numbers. *)
From Coq Require Import Permutation.
From Verif Require Import Base BaseFacts CoordFacts SpecData Figures SpecFigures.
Local Open Scope Z_scope.

(** ** C80 The decimals of a series are the most that one of its numbers has *)

Lemma loop_ok str l n0 n : figures_loop str l n0 = Ok n <->
  (forall x, In x l -> exists k, infer_decimals str x = Ok k /\ - k <= n) /\ n0 <= n /\
  (n = n0 \/ exists x k, In x l /\ infer_decimals str x = Ok k /\ n = - k).
Proof.
  revert n0. induction l as [|y l IH]; intros n0; cbn [figures_loop].
  - split; [intros E; injection E as ->; split; [intros x []|split; [lia|auto]]|]. intros (_ & _ & [->|(x & k & [] & _)]). reflexivity.
  - destruct (infer_decimals str y) as [k|x] eqn:E; cbn [bind].
    + rewrite IH. split.
      * intros (A & B & C). split; [|split; [lia|]].
        -- intros x [<-|I]; [exists k; split; auto; lia|auto].
        -- destruct C as [->|(x & k' & I & X & ->)]; [|right; exists x, k'; cbn; auto].
           destruct (Z.max_spec n0 (- k)) as [[_ ->]|[_ ->]]; [right; exists y, k; cbn; auto|auto].
      * intros (A & B & C). destruct (A y) as (k' & K & L); [left; auto|]. rewrite E in K. injection K as <-. split; [|split; [lia|]].
        -- intros x I. apply A. right. auto.
        -- destruct C as [->|(x & k' & [<-|I] & X & ->)]; [left; lia| |right; exists x, k'; auto]. rewrite E in X. injection X as <-. left. lia.
    + split; [discriminate|]. intros (A & _). destruct (A y) as (k' & K & _); [left; auto|congruence].
Qed.
Definition numbers (l : list spec_float) (x : spec_float) : Prop := In x l /\ x <> S754_nan.
Lemma numbers_iff l x : In x (filter (fun x => negb (is_nan x)) l) <-> numbers l x.
Proof. rewrite filter_In. unfold numbers. destruct x; cbn; intuition congruence. Qed.

(** it is none at least, none of the numbers has more, and one of them has as
    many, unless it is none; nan is left out *)
Theorem C80_most str serie n : significant_figures str serie = Ok n <->
  (forall x, numbers serie x -> exists k, infer_decimals str x = Ok k /\ - k <= n) /\ 0 <= n /\
  (n = 0 \/ exists x k, numbers serie x /\ infer_decimals str x = Ok k /\ n = - k).
Proof.
  unfold significant_figures. rewrite loop_ok. split; intros (A & B & C); (split; [|split; auto]).
  - intros x X. apply A, numbers_iff, X.
  - destruct C as [C|(x & k & I & C)]; auto. right. exists x, k. rewrite <- numbers_iff. auto.
  - intros x X. apply A, numbers_iff, X.
  - destruct C as [C|(x & k & I & C)]; auto. right. exists x, k. rewrite numbers_iff. auto.
Qed.
Print Assumptions C80_most.

(** so the order of the numbers, their repetitions and nan do not matter *)
Theorem C80_order str serie serie' n : (forall x, numbers serie x <-> numbers serie' x) ->
  significant_figures str serie = Ok n <-> significant_figures str serie' = Ok n.
Proof.
  intros E. rewrite !C80_most. split; intros (A & B & C); (split; [|split; auto]).
  - intros x X. apply A, E, X.
  - destruct C as [C|(x & k & I & C)]; auto. right. exists x, k. rewrite <- E. auto.
  - intros x X. apply A, E, X.
  - destruct C as [C|(x & k & I & C)]; auto. right. exists x, k. rewrite E. auto.
Qed.
Print Assumptions C80_order.
Example C80_order_case : let x := float_of_Z 1 in let y := float_of_dec false 435 (-2) in
  forall z, numbers [x; S754_nan; y] z <-> numbers [y; x; y] z.
Proof. intros x y z. unfold numbers. cbn. intuition congruence. Qed.

(** an infinite number has no decimals to count: it raises *)
Theorem C80_infinite str serie b : In (S754_infinity b) serie -> is_ok (significant_figures str serie) = false.
Proof.
  intros I. destruct (significant_figures str serie) as [n|x] eqn:E; auto. apply C80_most in E as (A & _).
  destruct (A (S754_infinity b)) as (k & K & _); [split; [auto|discriminate]|]. discriminate.
Qed.
Print Assumptions C80_infinite.

(** ** the text *)
Lemma digit_is c : is_digit c = true <-> digit c.
Proof.
  unfold digit. pose proof (byte_check (fun c => Bool.eqb (is_digit c) ((48 <=? nat_of_ascii c)%nat && (nat_of_ascii c <=? 57)%nat))) as Q.
  specialize (Q ltac:(vm_compute; reflexivity) c). cbn beta in Q. apply Bool.eqb_prop in Q. rewrite Q. lia.
Qed.
Lemma span_all a b : digits_only a -> (forall c r, b = c :: r -> is_digit c = false) -> span_digits (a ++ b) = (a, b).
Proof.
  intros A B. induction A as [|c a D A IH]; cbn [app span_digits].
  - destruct b as [|c r]; auto. cbn [span_digits]. rewrite (B c r eq_refl). reflexivity.
  - apply digit_is in D. rewrite D, IH. reflexivity.
Qed.
Lemma unsigned_is sign ip r : sign = [] \/ sign = T "-" -> ip <> [] -> digits_only ip -> exists b, unsigned (sign ++ ip ++ r) = (b, ip ++ r).
Proof.
  intros [-> | ->] NE D; [|exists true; reflexivity]. destruct ip as [|c ip]; [contradiction (NE eq_refl)|]. inversion D as [|? ? DC _]; subst. cbn [app unsigned].
  destruct (ch_eqb c "-") eqn:E1; [apply ch_eqb_eq in E1; subst c; apply digit_is in DC; discriminate|].
  destruct (ch_eqb c "+") eqn:E2; [apply ch_eqb_eq in E2; subst c; apply digit_is in DC; discriminate|]. eauto.
Qed.
Lemma zeros_app a b : Forall (fun c => c = "0"%char) a -> zeros_at_start (a ++ b) = Z.of_nat (List.length a) + zeros_at_start b.
Proof. induction 1 as [|c a -> A IH]; [reflexivity|]. cbn [app zeros_at_start List.length]. change (ch_eqb "0" "0") with true. cbn iota. rewrite IH. lia. Qed.
Lemma zeros_nonneg a : 0 <= zeros_at_start a.
Proof. induction a as [|c a IH]; cbn [zeros_at_start]; [lia|]. destruct (ch_eqb c "0"); lia. Qed.
Lemma zeros_rev zs : Forall (fun c => c = "0"%char) zs -> Forall (fun c => c = "0"%char) (rev zs).
Proof. intros F. apply Forall_forall. intros c I. rewrite Forall_forall in F. apply F, in_rev. auto. Qed.
Lemma zeros_digits zs : Forall (fun c => c = "0"%char) zs -> digits_only zs.
Proof. intros F. eapply Forall_impl; [|exact F]. intros c ->. apply digit_is. reflexivity. Qed.

Lemma shown_exponent t k : shows t k -> exists x, decimal_exponent t = Ok x /\ Z.max 0 (- x) = Z.of_nat k.
Proof.
  intros [sign ip fp zs SG NE DI DF LF Z0|sign ip zs SG NE DI Z0].
  - destruct (unsigned_is sign ip (T "." ++ fp ++ zs) SG NE DI) as [b U]. unfold decimal_exponent. rewrite U.
    rewrite (span_all ip (T "." ++ fp ++ zs) DI) by (intros c r E; injection E as <- _; reflexivity).
    change (T "." ++ fp ++ zs) with ("."%char :: fp ++ zs). cbn iota. change (ch_eqb "." ".") with true. cbn iota.
    assert (SP : span_digits (fp ++ zs) = (fp ++ zs, [])).
    { pose proof (span_all (fp ++ zs) []) as SP. rewrite app_nil_r in SP. apply SP; [|discriminate]. apply Forall_app. split; [auto|apply zeros_digits; auto]. }
    rewrite SP.
    cbn [exponent_part]. destruct LF as [a c NZ]. assert (AL : forallb (fun c => ch_eqb c "0") (ip ++ (a ++ [c]) ++ zs) = false).
    { rewrite !forallb_app. cbn [forallb]. destruct (ch_eqb c "0") eqn:E; [apply ch_eqb_eq in E; congruence|]. rewrite !andb_false_r. reflexivity. }
    destruct (ip ++ (a ++ [c]) ++ zs) as [|x l] eqn:E; [destruct ip; [contradiction (NE eq_refl)|discriminate]|]. rewrite <- E in *. rewrite AL. eexists. split; [reflexivity|].
    rewrite !rev_app_distr, <- !app_assoc, zeros_app by (apply zeros_rev; auto). cbn [rev app zeros_at_start].
    destruct (ch_eqb c "0") eqn:E1; [apply ch_eqb_eq in E1; congruence|]. rewrite !app_length, rev_length. cbn [List.length]. lia.
  - destruct (unsigned_is sign ip (T "." ++ zs) SG NE DI) as [b U]. unfold decimal_exponent. rewrite U.
    rewrite (span_all ip (T "." ++ zs) DI) by (intros c r E; injection E as <- _; reflexivity).
    change (T "." ++ zs) with ("."%char :: zs). cbn iota. change (ch_eqb "." ".") with true. cbn iota.
    assert (SP : span_digits zs = (zs, [])).
    { pose proof (span_all zs []) as SP. rewrite app_nil_r in SP. apply SP; [|discriminate]. apply zeros_digits; auto. }
    rewrite SP.
    cbn [exponent_part]. destruct (ip ++ zs) as [|x l] eqn:E; [destruct ip; [contradiction (NE eq_refl)|discriminate]|]. rewrite <- E in *.
    destruct (forallb _ _); [exists 0; split; reflexivity|]. eexists. split; [reflexivity|].
    rewrite rev_app_distr, zeros_app by (apply zeros_rev; auto). rewrite rev_length. pose proof (zeros_nonneg (rev ip)). lia.
Qed.

(** A number has the decimals its text shows after the point, zeros at the end
    aside, once it is cut to 17 digits.  Partial: see below for the cutting. *)
Theorem C80_shown_partial str x z y k : trunc_float x = Ok z -> truncate x (17 - Z.of_nat (List.length (Z_text z))) = Ok y -> shows (str y) k ->
  significant_figures str [x] = Ok (Z.of_nat k).
Proof.
  intros TR TC SH. destruct (shown_exponent _ _ SH) as (n & E & M). unfold significant_figures. cbn [filter].
  assert (NN : is_nan x = false) by (destruct x; auto; discriminate). rewrite NN. cbn [negb figures_loop].
  unfold infer_decimals. rewrite TR. cbn [bind]. rewrite TC. cbn [bind]. rewrite E. cbn [bind]. f_equal. exact M.
Qed.
Print Assumptions C80_shown_partial.
Definition x435 := float_of_dec false 435 (-2).
Definition minus_x435 := float_of_dec true 435 (-2).
Example C80_shown_case : trunc_float x435 = Ok 4 /\ truncate x435 (17 - Z.of_nat (List.length (Z_text 4))) = Ok x435 /\ shows (T "4.35") 2 /\ shows (T "-12.500") 1 /\ shows (T "7.0") 0.
Proof.
  split; [vm_compute; reflexivity|]. split; [vm_compute; reflexivity|].
  assert (D : forall c, is_digit c = true -> digit c) by (intros; apply digit_is; auto).
  split; [|split].
  - apply (sh_decimals [] (T "4") (T "35") []); auto; try discriminate; try (repeat constructor; cbn; lia). apply (li_of _ (T "3") "5"%char). discriminate.
  - apply (sh_decimals (T "-") (T "12") (T "5") (T "00")); auto; try discriminate; try (repeat constructor; cbn; lia). apply (li_of _ [] "5"%char). discriminate.
  - apply (sh_none [] (T "7") (T "0")); auto; try discriminate; repeat constructor; cbn; lia.
Qed.

(** The cutting counts the sign of a number as a digit, so one digit less is kept
    and the rounding of the product shows: 4.35 has two decimals and -4.35
    fifteen. *)
Theorem C80_negative_refuted str : str x435 = T "4.35" -> str (float_of_dec true 4349999999999999 (-15)) = T "-4.349999999999999" ->
  minus_x435 = SFopp x435 /\ significant_figures str [x435] = Ok 2 /\ significant_figures str [minus_x435] = Ok 15.
Proof.
  intros S1 S2. split; [vm_compute; reflexivity|]. split.
  - apply (C80_shown_partial str x435 4 x435 2); [vm_compute; reflexivity|vm_compute; reflexivity|]. rewrite S1. apply C80_shown_case.
  - apply (C80_shown_partial str minus_x435 (-4) (float_of_dec true 4349999999999999 (-15)) 15); [vm_compute; reflexivity|vm_compute; reflexivity|]. rewrite S2.
    apply (sh_decimals (T "-") (T "4") (T "349999999999999") []); auto; try discriminate; try (repeat constructor; cbn; lia). apply (li_of _ (T "34999999999999") "9"%char). discriminate.
Qed.
Print Assumptions C80_negative_refuted.
(** and a number cut to the decimals it has may become another one *)
Theorem C80_truncate_refuted : exists x y, x = float_of_dec false 29 (-2) /\ truncate x 2 = Ok y /\ y = float_of_dec false 28 (-2) /\ SFeqb x y = false.
Proof. exists (float_of_dec false 29 (-2)), (float_of_dec false 28 (-2)). repeat split; vm_compute; reflexivity. Qed.
Print Assumptions C80_truncate_refuted.
