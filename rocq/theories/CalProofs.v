(** Moving dates by periods (C46). *)
From Verif Require Import Base BaseFacts Cal SpecCal CalFacts.
Local Open Scope Z_scope.

Lemma secs_lo t : real_date t -> 86400 <= dt_secs t.
Proof.
  intros R. pose proof (ord_lower _ _ _ (real_day_ok _ R)). destruct R as [Y [S _]]. unfold dt_secs, dt_ord. lia.
Qed.
Lemma secs_hi t : real_date t -> dt_secs t < 86400 * 3652060.
Proof.
  intros R. pose proof (real_day_ok _ R) as K. destruct R as [Y [S _]].
  assert (dt_ord t <= 3652059).
  { destruct (Z.le_gt_cases (dt_ord t) 3652059); auto. exfalso. change 3652059 with (ymd2ord 9999 12 31) in H.
    assert (L : ymd2ord 9999 12 31 < ymd2ord (dt_y t) (dt_m t) (dt_d t)) by (unfold dt_ord in H; lia).
    apply ord_lt in L; auto; [|split; cbn; lia]. destruct K as [M D].
    destruct L as [L|[L1 [L|[L2 L]]]]; try lia. rewrite <- L1, <- L2 in D. cbn in D. lia. }
  unfold dt_secs. lia.
Qed.

Lemma add_days_iff t n t' : real_date t ->
  (add_seconds t (Z.of_nat n * 86400) = Ok t' <-> days_after n t t' /\ dt_y t' <= 9999).
Proof.
  intros R. pose proof (real_day_ok _ R) as K. split.
  - intros H. destruct (add_seconds_spec _ _ _ R H) as [R' _]. destruct (add_days_spec _ _ _ R H) as [O S].
    destruct (days_after_exists n t K) as [b B]. destruct (days_after_ord _ _ _ K B) as [Kb [Ob [Sb _]]].
    assert (b = t'). { pose proof (real_day_ok _ R') as K'. assert (E : dt_ord b = dt_ord t') by lia.
      apply ord_inj in E as [? [? ?]]; auto. apply dt_ext; auto. congruence. }
    subst b. split; auto. destruct R'. lia.
  - intros [B Y]. destruct (days_after_ord _ _ _ K B) as [Kb [Ob [Sb Yb]]].
    assert (R' : real_date t') by (apply day_ok_real; auto; destruct R as [? [? _]]; lia).
    assert (E : dt_secs t + Z.of_nat n * 86400 = dt_secs t') by (unfold dt_secs; lia).
    destruct (add_seconds_total t (Z.of_nat n * 86400) R) as [x X]; [rewrite E; apply secs_lo; auto|rewrite E; apply secs_hi; auto|].
    rewrite X. f_equal. destruct (add_seconds_spec _ _ _ R X) as [Rx Ex]. apply secs_inj; auto. congruence.
Qed.
Lemma days_iff f k t n t' : period_days f = Some k -> real_date t ->
  (increment_time t (Z.of_nat n) (T f) = Ok t' <-> days_after (n * k) t t' /\ dt_y t' <= 9999).
Proof.
  intros P R. unfold period_days in P. destruct (string_dec f "D") as [->|]; [|destruct (string_dec f "W") as [->|]; [|discriminate]];
    inversion P; subst k; rewrite <- add_days_iff by auto; cbn [T list_ascii_of_string increment_time];
    unfold increment_time; cbn -[add_seconds Z.mul Z.of_nat]; rewrite Nat2Z.inj_mul.
  - change (Z.of_nat 1) with 1. rewrite Z.mul_1_r. reflexivity.
  - change (Z.of_nat 7) with 7. replace (Z.of_nat n * 7 * 86400) with (Z.of_nat n * 604800) by lia. reflexivity.
Qed.
Lemma add_months_iff t n t' : real_date t ->
  (add_months t n = Ok t' <-> months_after n t t' /\ 1 <= dt_y t' <= 9999).
Proof.
  intros R. pose proof (real_day_ok _ R) as [_ D]. split.
  - intros H. apply add_months_spec in H; [|lia]. tauto.
  - intros [M Y]. assert (exists x, add_months t n = Ok x) as [x X].
    { unfold add_months. destruct M as [A [B _]].
      replace ((dt_y t * 12 + (dt_m t - 1) + n) / 12) with (dt_y t').
      - replace ((1 <=? dt_y t') && (dt_y t' <=? 9999)) with true by lia. eauto.
      - divs. }
    rewrite X. f_equal. apply add_months_spec in X as [X _]; [|lia]. eapply months_det; eauto.
Qed.
Lemma months_iff f k t n t' : period_months f = Some k -> real_date t ->
  (increment_time t n (T f) = Ok t' <-> months_after (n * k) t t' /\ 1 <= dt_y t' <= 9999).
Proof.
  intros P R. rewrite <- add_months_iff by auto. unfold period_months in P.
  destruct (string_dec f "M") as [->|]; [|destruct (string_dec f "Q") as [->|]; [|destruct (string_dec f "A") as [->|]; [|discriminate]]];
    inversion P; subst k; unfold increment_time; cbn -[add_months Z.mul]; rewrite ?Z.mul_1_r; reflexivity.
Qed.

(** every frequency is a number of seconds or of months *)
Lemma increment_kind f : (exists u, 0 < u /\ forall t n, increment_time t n f = add_seconds t (n * u)) \/
  ((f = T "M" \/ f = T "Q" \/ f = T "A") /\ exists u, 0 < u /\ forall t n, increment_time t n f = add_months t (n * u)) \/
  (forall t n, increment_time t n f = Err EInvalidFreq).
Proof.
  unfold increment_time. destruct f as [|c [|]]; auto.
  destruct (ch_eqb c "S"); [left; exists 1; split; [lia|intros; rewrite Z.mul_1_r; auto]|].
  destruct (ch_eqb c "T"); [left; exists 60; split; [lia|auto]|].
  destruct (ch_eqb c "H"); [left; exists 3600; split; [lia|auto]|].
  destruct (ch_eqb c "D"); [left; exists 86400; split; [lia|auto]|].
  destruct (ch_eqb c "W"); [left; exists 604800; split; [lia|auto]|].
  destruct (ch_eqb c "M") eqn:E; [apply Ascii.eqb_eq in E; subst; right; left; split; auto; exists 1; split; [lia|intros; rewrite Z.mul_1_r; auto]|].
  destruct (ch_eqb c "Q") eqn:E2; [apply Ascii.eqb_eq in E2; subst; right; left; split; auto; exists 3; split; [lia|auto]|].
  destruct (ch_eqb c "A") eqn:E3; [apply Ascii.eqb_eq in E3; subst; right; left; split; auto; exists 12; split; [lia|auto]|]. auto.
Qed.
Lemma T_inj a b : T a = T b -> a = b.
Proof. intros H. rewrite <- (string_of_list_ascii_of_string a), <- (string_of_list_ascii_of_string b). unfold T in H. congruence. Qed.

Lemma increment_mono f t m n a b : real_date t -> m < n ->
  increment_time t m f = Ok a -> increment_time t n f = Ok b -> earlier a b.
Proof.
  intros R L A B. destruct (increment_kind f) as [[u [U K]]|[[F [u [U K]]]|K]]; rewrite K in A, B; [| |discriminate].
  - apply add_seconds_spec in A as [Ra A]; auto. apply add_seconds_spec in B as [Rb B]; auto.
    apply earlier_secs; auto. nia.
  - apply add_months_iff in A as [[A1 [A2 _]] _]; auto. apply add_months_iff in B as [[B1 [B2 _]] _]; auto.
    unfold earlier. nia.
Qed.

Lemma increment_add f t m n a b : real_date t -> (period_months f <> None -> dt_d t <= 28) ->
  increment_time t m (T f) = Ok a -> increment_time a n (T f) = Ok b -> increment_time t (m + n) (T f) = Ok b.
Proof.
  intros R M A B. destruct (period_months f) as [k|] eqn:P.
  - assert (D : dt_d t <= 28) by (apply M; discriminate).
    apply (months_iff _ _ _ _ _ P) in A as [A Ya]; auto. assert (Ra : real_date a) by (eapply months_real; eauto).
    apply (months_iff _ _ _ _ _ P) in B as [B Yb]; auto. apply (months_iff _ _ _ _ _ P); auto. split; auto.
    destruct A as [A1 [A2 [A3 [la [La Da]]]]], B as [B1 [B2 [B3 [lb [Lb Db]]]]].
    pose proof (month_length_range _ _ _ La). pose proof (month_length_range _ _ _ Lb).
    split; [lia|]. split; auto. split; [congruence|]. exists lb. split; auto. lia.
  - destruct (increment_kind (T f)) as [[u [U K]]|[[F [u [U K]]]|K]].
    + rewrite K in *. pose proof A as A'. apply add_seconds_spec in A as [Ra A]; auto. pose proof B as B'. apply add_seconds_spec in B as [Rb B]; auto.
      assert (E : dt_secs t + (m + n) * u = dt_secs b) by lia.
      destruct (add_seconds_total t ((m + n) * u) R) as [x X]; [rewrite E; apply secs_lo; auto|rewrite E; apply secs_hi; auto|].
      rewrite X. f_equal. apply add_seconds_spec in X as [Rx X]; auto. apply secs_inj; auto. congruence.
    + exfalso. destruct F as [F|[F|F]]; apply T_inj in F; subst f; discriminate P.
    + rewrite K in A. discriminate.
Qed.
