(** Facts about the calendar. *)
From Coq Require Import ZifyBool ZifyNat ZifyN Znumtheory.
From Verif Require Import Base BaseFacts Cal SpecCal.
Local Open Scope Z_scope.

Ltac divs := Z.to_euclidean_division_equations; try lia.

Lemma div_mod0 a b : 0 < b -> (a mod b =? 0) = true <-> (b | a).
Proof. intros H. rewrite Z.eqb_eq. apply Z.mod_divide. lia. Qed.
Lemma is_leap_spec y : is_leap y = true <-> leap y.
Proof.
  unfold is_leap, leap. rewrite andb_true_iff, orb_true_iff, negb_true_iff, <- not_true_iff_false.
  rewrite !div_mod0 by lia. tauto.
Qed.
Lemma dim_spec y m n : 1 <= m <= 12 -> (days_in_month y m = n <-> month_length y m n).
Proof.
  intros M. unfold days_in_month. split.
  - intros <-. destruct (m =? 2) eqn:E2.
    + apply Z.eqb_eq in E2. subst. destruct (is_leap y) eqn:L; [apply ml_feb_leap; apply is_leap_spec; auto|].
      apply ml_feb. rewrite <- is_leap_spec. congruence.
    + destruct ((m =? 4) || (m =? 6) || (m =? 9) || (m =? 11)) eqn:E; [apply ml_30|apply ml_31]; cbn; lia.
  - intros H. inversion H; subst.
    + apply is_leap_spec in H0. rewrite H0. auto.
    + rewrite <- is_leap_spec in H0. destruct (is_leap y) eqn:LL; [congruence|reflexivity].
    + cbn in H0. destruct (m =? 2) eqn:E; [lia|]. destruct ((m =? 4) || (m =? 6) || (m =? 9) || (m =? 11)) eqn:F; auto. lia.
    + cbn in H0. destruct (m =? 2) eqn:E; [lia|]. destruct ((m =? 4) || (m =? 6) || (m =? 9) || (m =? 11)) eqn:F; auto. lia.
Qed.
Lemma month_length_range y m n : month_length y m n -> 1 <= m <= 12 /\ 28 <= n <= 31.
Proof. intros H. inversion H; subst; cbn in *; lia. Qed.
Lemma dim_range y m : 28 <= days_in_month y m <= 31.
Proof. unfold days_in_month. destruct (m =? 2), (is_leap y), ((m =? 4) || (m =? 6) || (m =? 9) || (m =? 11)); lia. Qed.
Lemma valid_real t : valid_dt t = true <-> real_date t.
Proof.
  unfold valid_dt, valid_ymd, real_date. split.
  - intros H. repeat (apply andb_true_iff in H as [H ?]). split; [lia|]. split; [lia|].
    exists (days_in_month (dt_y t) (dt_m t)). split; [apply dim_spec; lia|lia].
  - intros [Y [S [n [L D]]]]. pose proof (month_length_range _ _ _ L) as [M _]. apply dim_spec in L; auto. rewrite L. lia.
Qed.

(** ** ordinals *)
Lemma dby_succ y : days_before_year (y + 1) = days_before_year y + 365 + bZ (is_leap y).
Proof. unfold days_before_year, is_leap, bZ. destruct ((y mod 4 =? 0) && (negb (y mod 100 =? 0) || (y mod 400 =? 0))) eqn:E; divs. Qed.
Lemma dby_le a b : a <= b -> days_before_year a <= days_before_year b.
Proof. unfold days_before_year. intros H. divs. Qed.
Lemma dbm_succ y m : 1 <= m <= 11 -> days_before_month y (m + 1) = days_before_month y m + days_in_month y m.
Proof.
  intros M. assert (m = 1 \/ m = 2 \/ m = 3 \/ m = 4 \/ m = 5 \/ m = 6 \/ m = 7 \/ m = 8 \/ m = 9 \/ m = 10 \/ m = 11) as C by lia.
  unfold days_before_month, days_in_month. destruct (is_leap y); repeat destruct C as [C|C]; subst; reflexivity.
Qed.
Lemma dbm_12 y : days_before_month y 12 + 31 = 365 + bZ (is_leap y).
Proof. unfold days_before_month. destruct (is_leap y); reflexivity. Qed.
Lemma dbm_range y m : 1 <= m <= 12 -> 0 <= days_before_month y m /\ days_before_month y m + days_in_month y m <= 365 + bZ (is_leap y).
Proof.
  intros M. assert (m = 1 \/ m = 2 \/ m = 3 \/ m = 4 \/ m = 5 \/ m = 6 \/ m = 7 \/ m = 8 \/ m = 9 \/ m = 10 \/ m = 11 \/ m = 12) as C by lia.
  unfold days_before_month, days_in_month. destruct (is_leap y); repeat destruct C as [C|C]; subst; cbn; lia.
Qed.
Lemma dbm_lt y m1 m2 : 1 <= m1 -> m1 < m2 <= 12 -> days_before_month y m1 + days_in_month y m1 <= days_before_month y m2.
Proof.
  intros A [B C]. assert (exists k, m2 = m1 + 1 + Z.of_nat k) as [k ->] by (exists (Z.to_nat (m2 - m1 - 1)); lia).
  induction k as [|k IH]; [rewrite Z.add_0_r, dbm_succ by lia; lia|].
  replace (m1 + 1 + Z.of_nat (S k)) with (m1 + 1 + Z.of_nat k + 1) by lia. rewrite dbm_succ by lia.
  pose proof (dim_range y (m1 + 1 + Z.of_nat k)). lia.
Qed.

(** dates whose day exists, of any year *)
Definition day_ok (y m d : Z) : Prop := 1 <= m <= 12 /\ 1 <= d <= days_in_month y m.
Lemma ord_lt y1 m1 d1 y2 m2 d2 : day_ok y1 m1 d1 -> day_ok y2 m2 d2 ->
  (ymd2ord y1 m1 d1 < ymd2ord y2 m2 d2 <-> y1 < y2 \/ y1 = y2 /\ (m1 < m2 \/ m1 = m2 /\ d1 < d2)).
Proof.
  intros [M1 D1] [M2 D2]. unfold ymd2ord.
  pose proof (dbm_range y1 m1 M1). pose proof (dbm_range y2 m2 M2).
  assert (Y : forall a b, a < b -> days_before_year a + 365 + bZ (is_leap a) <= days_before_year b).
  { intros a b L. rewrite <- dby_succ. apply dby_le. lia. }
  destruct (Z.lt_trichotomy y1 y2) as [L|[L|L]].
  - specialize (Y _ _ L). lia.
  - subst y2. destruct (Z.lt_trichotomy m1 m2) as [K|[K|K]].
    + pose proof (dbm_lt y1 m1 m2 ltac:(lia) ltac:(lia)). lia.
    + subst m2. lia.
    + pose proof (dbm_lt y1 m2 m1 ltac:(lia) ltac:(lia)). lia.
  - specialize (Y _ _ L). lia.
Qed.
Lemma ord_inj y1 m1 d1 y2 m2 d2 : day_ok y1 m1 d1 -> day_ok y2 m2 d2 -> ymd2ord y1 m1 d1 = ymd2ord y2 m2 d2 ->
  y1 = y2 /\ m1 = m2 /\ d1 = d2.
Proof.
  intros A B E. pose proof (ord_lt _ _ _ _ _ _ A B). pose proof (ord_lt _ _ _ _ _ _ B A).
  destruct (Z.lt_trichotomy y1 y2) as [|[|]], (Z.lt_trichotomy m1 m2) as [|[|]], (Z.lt_trichotomy d1 d2) as [|[|]]; lia.
Qed.

(** ** ord2ymd inverts *)
Lemma month_of_doy y m d : day_ok y m d ->
  let n := days_before_month y m + d - 1 in
  let month := (n + 50) / 32 in
  (if n <? days_before_month y month then (y, month - 1, n - (days_before_month y month - days_in_month y (month - 1)) + 1)
   else (y, month, n - days_before_month y month + 1)) = (y, m, d).
Proof.
  intros [M D]. cbv zeta.
  assert (E : (days_before_month y m + d - 1 + 50) / 32 = m \/ (m < 12 /\ (days_before_month y m + d - 1 + 50) / 32 = m + 1)).
  { assert (m = 1 \/ m = 2 \/ m = 3 \/ m = 4 \/ m = 5 \/ m = 6 \/ m = 7 \/ m = 8 \/ m = 9 \/ m = 10 \/ m = 11 \/ m = 12) as C by lia.
    unfold days_before_month, days_in_month in *.
    destruct (is_leap y); repeat destruct C as [C|C]; subst; cbv [cum_days Z.eqb Z.ltb Z.compare Pos.eqb Pos.compare Pos.compare_cont andb orb] in *; divs. }
  destruct E as [->|[L ->]].
  - replace (_ <? _) with false by lia. f_equal. lia.
  - rewrite dbm_succ by lia. replace (_ <? _) with true by lia.
    replace (m + 1 - 1) with m by lia. f_equal. lia.
Qed.
Lemma ord2ymd2ord y m d : day_ok y m d -> ord2ymd (ymd2ord y m d) = (y, m, d).
Proof.
  intros K. pose proof (month_of_doy y m d K) as MD. cbv zeta in MD. destruct K as [M D].
  pose proof (dbm_range y m M) as R.
  unfold ord2ymd, ymd2ord.
  set (doy := days_before_month y m + d - 1) in *.
  assert (Hd : 0 <= doy <= 364 + bZ (is_leap y)) by lia.
  set (q := y - 1) in *.
  set (a := q / 400). set (b := (q mod 400) / 100). set (c := (q mod 100) / 4). set (k := q mod 4).
  assert (Hq : q = 400 * a + 100 * b + 4 * c + k /\ 0 <= b <= 3 /\ 0 <= c <= 24 /\ 0 <= k <= 3).
  { unfold a, b, c, k. divs. }
  assert (Hn : days_before_year y + days_before_month y m + d - 1 = 146097 * a + 36524 * b + 1461 * c + 365 * k + doy).
  { unfold days_before_year. fold q. unfold doy. clear -Hq. destruct Hq as [Hq [Hb [Hc Hk]]].
    assert (E4 : q / 4 = 100 * a + 25 * b + c) by divs.
    assert (E100 : q / 100 = 4 * a + b) by divs.
    assert (E400 : q / 400 = a) by reflexivity.
    rewrite E4, E100, E400. lia. }
  rewrite Hn.
  assert (HL : is_leap y = true <-> k = 3 /\ (c <> 24 \/ b = 3)).
  { unfold is_leap. replace y with (q + 1) by (unfold q; lia). clear -Hq. destruct Hq as [Hq [Hb [Hc Hk]]].
    rewrite Hq. clear Hq. clearbody a b c k. split; intros H.
    - apply andb_true_iff in H as [H1 H2]. divs.
    - divs. }
  assert (HL' : bZ (is_leap y) = 1 /\ k = 3 /\ (c <> 24 \/ b = 3) \/ bZ (is_leap y) = 0 /\ (k <> 3 \/ c = 24 /\ b <> 3)).
  { destruct (is_leap y); cbn; [left; tauto|right]. split; auto.
    destruct (Z.eq_dec k 3), (Z.eq_dec c 24), (Z.eq_dec b 3); try lia; exfalso; assert (false = true) by tauto; discriminate. }
  clear HL. destruct Hq as [Hq [Hb [Hc Hk]]].
  assert (Hy : y = 400 * a + 100 * b + 4 * c + k + 1) by (unfold q in Hq; lia).
  clearbody a b c k. clear Hn q Hq.
  assert (E1 : (146097 * a + 36524 * b + 1461 * c + 365 * k + doy) / 146097 = a) by divs.
  assert (R1 : (146097 * a + 36524 * b + 1461 * c + 365 * k + doy) mod 146097 = 36524 * b + 1461 * c + 365 * k + doy) by divs.
  rewrite E1, R1. clear E1 R1.
  destruct (Z.eq_dec doy 365) as [E|N].
  - (* December 31st of a leap year *)
    assert (Dec : (y, m, d) = (y, 12, 31)).
    { assert (Lp : is_leap y = true) by (destruct (is_leap y); cbn in *; [auto|lia]).
      f_equal; [f_equal|]; unfold doy, days_before_month, days_in_month in *; rewrite Lp in *; clear -E M D;
      assert (m = 1 \/ m = 2 \/ m = 3 \/ m = 4 \/ m = 5 \/ m = 6 \/ m = 7 \/ m = 8 \/ m = 9 \/ m = 10 \/ m = 11 \/ m = 12) as C by lia;
        repeat destruct C as [C|C]; subst; cbv [cum_days Z.eqb Z.ltb Z.compare Pos.eqb Pos.compare Pos.compare_cont andb orb] in *; lia. }
    rewrite Dec. rewrite E. destruct HL' as [[_ [Hk3 Hcb]]|[Z0 _]]; [|lia]. subst k.
    destruct (Z.eq_dec c 24) as [C24|C24].
    + assert (b = 3) by lia. subst b c.
      change (36524 * 3 + 1461 * 24 + 365 * 3 + 365) with 146096. cbn.
      f_equal. f_equal. lia.
    + assert (E2 : (36524 * b + 1461 * c + 365 * 3 + 365) / 36524 = b) by divs.
      assert (R2 : (36524 * b + 1461 * c + 365 * 3 + 365) mod 36524 = 1461 * c + 1460) by divs.
      rewrite E2, R2. assert (E3 : (1461 * c + 1460) / 1461 = c) by divs. assert (R3 : (1461 * c + 1460) mod 1461 = 1460) by divs.
      rewrite E3, R3. change (1460 / 365) with 4. change (4 =? 4) with true. cbn [orb].
      assert (X : a * 400 + 1 + b * 100 + c * 4 + 4 - 1 = y) by lia. rewrite X. reflexivity.
  - assert (Hd' : 0 <= doy <= 364) by lia.
    assert (E2 : (36524 * b + 1461 * c + 365 * k + doy) / 36524 = b) by divs.
    assert (R2 : (36524 * b + 1461 * c + 365 * k + doy) mod 36524 = 1461 * c + 365 * k + doy) by divs.
    rewrite E2, R2. assert (E3 : (1461 * c + 365 * k + doy) / 1461 = c) by divs.
    assert (R3 : (1461 * c + 365 * k + doy) mod 1461 = 365 * k + doy) by divs.
    rewrite E3, R3. assert (E4 : (365 * k + doy) / 365 = k) by divs.
    assert (R4 : (365 * k + doy) mod 365 = doy) by divs.
    rewrite E4, R4. replace ((k =? 4) || (b =? 4)) with false by lia.
    replace (a * 400 + 1 + b * 100 + c * 4 + k) with y by lia. exact MD.
Qed.

(** ** the next day *)
Lemma next_day_ord a b : day_ok (dt_y a) (dt_m a) (dt_d a) -> next_day a b ->
  day_ok (dt_y b) (dt_m b) (dt_d b) /\ dt_ord b = dt_ord a + 1 /\ dt_s b = dt_s a /\ dt_y a <= dt_y b.
Proof.
  intros [M D] H. unfold dt_ord, day_ok. inversion H; subst; cbn [dt_y dt_m dt_d dt_s] in *.
  - apply dim_spec in H0; auto. split; [lia|]. unfold ymd2ord. lia.
  - apply dim_spec in H0; auto. split; [pose proof (dim_range y (m + 1)); lia|]. unfold ymd2ord. rewrite dbm_succ by lia. lia.
  - split; [unfold days_in_month; cbn; lia|]. unfold ymd2ord. rewrite dby_succ.
    pose proof (dbm_12 y). change (days_before_month (y + 1) 1) with 0. lia.
Qed.
Lemma next_day_exists a : day_ok (dt_y a) (dt_m a) (dt_d a) -> exists b, next_day a b.
Proof.
  destruct a as [y m d s]. unfold day_ok. cbn. intros [M D].
  destruct (Z.lt_ge_cases d (days_in_month y m)).
  - eexists. eapply nd_same_month; [apply dim_spec; eauto|lia].
  - destruct (Z.lt_ge_cases m 12).
    + eexists. apply nd_next_month; auto. apply dim_spec; auto. lia.
    + assert (m = 12) by lia. subst. cbn in *. assert (d = 31) by lia. subst. eexists. apply nd_next_year.
Qed.
Lemma days_after_ord n a b : day_ok (dt_y a) (dt_m a) (dt_d a) -> days_after n a b ->
  day_ok (dt_y b) (dt_m b) (dt_d b) /\ dt_ord b = dt_ord a + Z.of_nat n /\ dt_s b = dt_s a /\ dt_y a <= dt_y b.
Proof.
  intros K H. induction H.
  - split; auto. split; [lia|split; [auto|lia]].
  - destruct (IHdays_after K) as [A [B [C D]]]. destruct (next_day_ord _ _ A H0) as [A2 [B2 [C2 D2]]].
    split; auto. split; [lia|]. split; [congruence|lia].
Qed.
Lemma days_after_exists n a : day_ok (dt_y a) (dt_m a) (dt_d a) -> exists b, days_after n a b.
Proof.
  intros K. induction n as [|n [b IH]]; [exists a; constructor|].
  destruct (days_after_ord _ _ _ K IH) as [Kb _]. destruct (next_day_exists b Kb) as [c Hc].
  exists c. econstructor; eauto.
Qed.
Lemma ord2ymd_ok n : 1 <= n -> exists y m d, ord2ymd n = (y, m, d) /\ day_ok y m d /\ ymd2ord y m d = n /\ 1 <= y.
Proof.
  intros H. destruct (days_after_exists (Z.to_nat (n - 1)) (mkdt 1 1 1 0)) as [[y m d s] B]; [split; cbn; lia|].
  apply days_after_ord in B as [K [O [_ Y]]]; [|split; cbn; lia]. cbn [dt_y dt_m dt_d dt_s] in *. change (dt_ord (mkdt 1 1 1 0)) with 1 in O.
  unfold dt_ord in O. cbn [dt_y dt_m dt_d] in O.
  exists y, m, d. split; [|split; [auto|split; [lia|auto]]]. rewrite <- (ord2ymd2ord y m d K). f_equal. lia.
Qed.
Lemma ord_year_bound y m d : day_ok y m d -> ymd2ord y m d <= 3652059 -> y <= 9999.
Proof.
  intros K H. destruct (Z.le_gt_cases y 9999); auto. exfalso.
  assert (L : ymd2ord 9999 12 31 < ymd2ord y m d) by (apply ord_lt; [split; cbn; lia|auto|lia]).
  change (ymd2ord 9999 12 31) with 3652059 in L. lia.
Qed.
Lemma ord_lower y m d : day_ok y m d -> 1 <= y -> 1 <= ymd2ord y m d.
Proof.
  intros K H. change 1 with (ymd2ord 1 1 1).
  destruct (Z.lt_ge_cases (ymd2ord y m d) (ymd2ord 1 1 1)) as [L|L]; auto.
  apply ord_lt in L; auto; [|split; cbn; lia]. destruct K. lia.
Qed.
Lemma real_day_ok t : real_date t -> day_ok (dt_y t) (dt_m t) (dt_d t).
Proof.
  intros [Y [S [n [L D]]]]. pose proof (month_length_range _ _ _ L) as [M _]. split; auto. apply dim_spec in L; auto. lia.
Qed.
Lemma day_ok_real t : day_ok (dt_y t) (dt_m t) (dt_d t) -> 1 <= dt_y t <= 9999 -> 0 <= dt_s t < 86400 -> real_date t.
Proof.
  intros [M D] Y S. split; auto. split; auto. exists (days_in_month (dt_y t) (dt_m t)). split; auto. apply dim_spec; auto.
Qed.

(** ** adding seconds and days *)
Lemma add_seconds_spec t n t' : real_date t -> add_seconds t n = Ok t' -> real_date t' /\ dt_secs t' = dt_secs t + n.
Proof.
  intros R H. pose proof (real_day_ok _ R) as K. unfold add_seconds in H.
  set (total := dt_secs t + n) in *. set (o := total / 86400) in *.
  destruct ((1 <=? o) && (o <=? 3652059)) eqn:E; [|discriminate].
  destruct (ord2ymd_ok o) as [y [m [d [Eo [Ko [Oo Y]]]]]]; [lia|]. rewrite Eo in H. inversion H; subst t'.
  assert (y <= 9999) by (eapply ord_year_bound; eauto; lia).
  assert (S : 0 <= total mod 86400 < 86400) by (apply Z.mod_pos_bound; lia).
  split; [apply day_ok_real; cbn [dt_y dt_m dt_d dt_s]; auto|].
  unfold dt_secs at 1, dt_ord. cbn [dt_y dt_m dt_d dt_s]. rewrite Oo. unfold o.
  rewrite (Z.div_mod total 86400) at 3 by lia. lia.
Qed.
Lemma add_seconds_total t n : real_date t -> 86400 <= dt_secs t + n -> dt_secs t + n < 86400 * 3652060 ->
  exists t', add_seconds t n = Ok t'.
Proof.
  intros R A B. unfold add_seconds.
  assert (X : 1 <= (dt_secs t + n) / 86400 <= 3652059) by divs.
  replace ((1 <=? _) && _) with true by lia. destruct (ord2ymd _) as [[y m] d]. eauto.
Qed.
Lemma add_days_spec t n t' : real_date t -> add_seconds t (n * 86400) = Ok t' -> dt_ord t' = dt_ord t + n /\ dt_s t' = dt_s t.
Proof.
  intros R H. destruct (add_seconds_spec _ _ _ R H) as [R' E]. unfold dt_secs in E.
  destruct R as [_ [S _]], R' as [_ [S' _]]. lia.
Qed.

(** ** order *)
Lemma ltb_earlier a b : dt_ltb a b = true <-> earlier a b.
Proof. unfold dt_ltb, earlier. lia. Qed.
Lemma dt_ext a b : dt_y a = dt_y b -> dt_m a = dt_m b -> dt_d a = dt_d b -> dt_s a = dt_s b -> a = b.
Proof. destruct a, b. cbn. intros. congruence. Qed.
Lemma earlier_irrefl a : ~ earlier a a.
Proof. unfold earlier. lia. Qed.
Lemma earlier_trans a b c : earlier a b -> earlier b c -> earlier a c.
Proof. unfold earlier. lia. Qed.
Lemma earlier_total a b : earlier a b \/ a = b \/ earlier b a.
Proof.
  unfold earlier. destruct (Z.lt_trichotomy (dt_y a) (dt_y b)) as [|[|]]; [lia| |lia].
  destruct (Z.lt_trichotomy (dt_m a) (dt_m b)) as [|[|]]; [lia| |lia].
  destruct (Z.lt_trichotomy (dt_d a) (dt_d b)) as [|[|]]; [lia| |lia].
  destruct (Z.lt_trichotomy (dt_s a) (dt_s b)) as [|[|]]; [lia| |lia].
  right. left. apply dt_ext; auto.
Qed.
Lemma ltb_false a b : dt_ltb a b = false <-> a = b \/ earlier b a.
Proof.
  destruct (dt_ltb a b) eqn:E.
  - apply ltb_earlier in E. split; [discriminate|]. intros [->|H]; exfalso; [eapply earlier_irrefl; eauto|].
    eapply earlier_irrefl, earlier_trans; eauto.
  - split; auto. intros _. destruct (earlier_total a b) as [H|[H|H]]; auto. apply ltb_earlier in H. congruence.
Qed.
Lemma leb_spec a b : dt_leb a b = true <-> a = b \/ earlier a b.
Proof. unfold dt_leb. rewrite negb_true_iff, ltb_false. intuition. Qed.
Lemma earlier_secs a b : real_date a -> real_date b -> (earlier a b <-> dt_secs a < dt_secs b).
Proof.
  intros A B. pose proof (ord_lt _ _ _ _ _ _ (real_day_ok _ A) (real_day_ok _ B)) as O.
  pose proof (ord_inj _ _ _ _ _ _ (real_day_ok _ A) (real_day_ok _ B)) as J.
  destruct A as [_ [SA _]], B as [_ [SB _]]. unfold earlier, dt_secs. fold (dt_ord a) in *. fold (dt_ord b) in *.
  split.
  - intros [H|[Hy [H|[Hm [H|[Hd H]]]]]]; try (assert (dt_ord a < dt_ord b) by (apply O; lia); lia).
    assert (dt_ord a = dt_ord b) by (unfold dt_ord; rewrite Hy, Hm, Hd; auto). lia.
  - intros H. destruct (Z.lt_trichotomy (dt_ord a) (dt_ord b)) as [L|[L|L]]; [apply O in L; lia| |lia].
    apply J in L. lia.
Qed.
Lemma secs_inj a b : real_date a -> real_date b -> dt_secs a = dt_secs b -> a = b.
Proof.
  intros A B E. destruct (earlier_total a b) as [H|[H|H]]; auto; apply earlier_secs in H; auto; lia.
Qed.

(** ** adding months *)
Lemma add_months_spec t n t' : 1 <= dt_d t -> add_months t n = Ok t' -> months_after n t t' /\ 1 <= dt_y t' <= 9999 /\ 1 <= dt_d t'.
Proof.
  intros D H. unfold add_months in H. set (total := dt_y t * 12 + (dt_m t - 1) + n) in *.
  destruct ((1 <=? total / 12) && (total / 12 <=? 9999)) eqn:E; [|discriminate]. inversion H; subst t'.
  assert (M : 0 <= total mod 12 < 12) by (apply Z.mod_pos_bound; lia).
  pose proof (Z.div_mod total 12 ltac:(lia)) as DM.
  split; [|split; cbn; [lia|pose proof (dim_range (total / 12) (total mod 12 + 1)); lia]].
  unfold months_after. cbn. split; [lia|]. split; [lia|]. split; auto.
  eexists. split; [apply dim_spec; [lia|reflexivity]|reflexivity].
Qed.
Lemma months_real n t t' : real_date t -> months_after n t t' -> 1 <= dt_y t' <= 9999 -> real_date t'.
Proof.
  intros R [A [B [C [len [L D]]]]] Y. destruct R as [_ [S [k [Lk Dk]]]]. split; auto. split; [lia|].
  exists len. split; auto. pose proof (month_length_range _ _ _ L). lia.
Qed.
Lemma months_det n t a b : months_after n t a -> months_after n t b -> a = b.
Proof.
  intros [A1 [A2 [A3 [l [L1 A4]]]]] [B1 [B2 [B3 [k [L2 B4]]]]].
  assert (dt_y a = dt_y b /\ dt_m a = dt_m b) as [Ey Em] by lia.
  apply dt_ext; auto; [|congruence]. rewrite Ey, Em in L1.
  apply dim_spec in L1; auto. apply dim_spec in L2; auto. congruence.
Qed.
Lemma months_earlier n t t' : 0 < n -> 1 <= dt_m t <= 12 -> months_after n t t' -> earlier t t'.
Proof. intros N M [A [B _]]. unfold earlier. lia. Qed.

(** ** increment_time *)
Lemma increment_real t n f t' : real_date t -> increment_time t n f = Ok t' -> real_date t'.
Proof.
  intros R H. pose proof (real_day_ok _ R) as [_ D]. unfold increment_time in H. destruct f as [|c [|]]; try discriminate.
  repeat match type of H with
  | (if ?b then _ else _) = _ => destruct b; [first [apply add_seconds_spec in H; [tauto|auto] | apply add_months_spec in H as [H [Y _]]; [eapply months_real; eauto|lia]]|]
  end. discriminate.
Qed.
Lemma increment_earlier t n f t' : 0 < n -> real_date t -> increment_time t n f = Ok t' -> earlier t t'.
Proof.
  intros N R H. pose proof (increment_real _ _ _ _ R H) as R'. pose proof (real_day_ok _ R) as [M D].
  unfold increment_time in H. destruct f as [|c [|]]; try discriminate.
  repeat match type of H with
  | (if ?b then _ else _) = _ => destruct b; [first [apply add_seconds_spec in H as [_ H]; [apply earlier_secs; auto; lia|auto] | apply add_months_spec in H as [H _]; [eapply months_earlier; [|eauto|eauto]; lia|lia]]|]
  end. discriminate.
Qed.
