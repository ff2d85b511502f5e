(** Proofs about the dates of an index (C37). *)
From Verif Require Import Base BaseFacts Cal SpecCal CalFacts CalProofs Coord Params ParseTime TimeIndex PeriodRange SpecFrames.
From Coq Require Import Sorted.
From Coq Require Import ZifyBool ZifyNat ZifyN.
Ltac Zify.zify_post_hook ::= Z.to_euclidean_division_equations.
Local Open Scope Z_scope.

(** ** dates a step apart *)
Section Grid.
Variables (g : nat -> datetime) (step : datetime -> datetime) (en : datetime).
Hypothesis g_step : forall i, step (g i) = g (S i).
Hypothesis g_earlier : forall i, earlier (g i) (g (S i)).
Hypothesis g_ord : forall i, dt_ord (g i) < dt_ord (g (S i)).
Hypothesis g_en : forall i, not_later (g i) en -> dt_ord (g i) <= dt_ord en.
Lemma grid_earlier i : forall n, earlier (g i) (g (i + S n)).
Proof.
  induction n as [|n IH]; [replace (i + 1)%nat with (S i) by lia; auto|].
  replace (i + S (S n))%nat with (S (i + S n)) by lia. eapply earlier_trans; [exact IH|]. auto.
Qed.
Lemma grid_lt i j : (i < j)%nat -> earlier (g i) (g j).
Proof. intros H. replace j with (i + S (j - i - 1))%nat by lia. apply grid_earlier. Qed.
Lemma grid_sorted : forall n i, in_order (map g (seq i n)).
Proof.
  unfold in_order. induction n as [|n IH]; intros i; cbn; constructor; auto.
  apply Forall_forall. intros x X. apply in_map_iff in X. destruct X as (j & <- & J). apply in_seq in J. apply grid_lt. lia.
Qed.
Lemma gen_grid : forall fuel i, dt_ord en - dt_ord (g i) + 1 <= Z.of_nat fuel ->
  exists n, gen_dates fuel step (g i) en = map g (seq i n) /\ (forall j, (i <= j < i + n)%nat -> not_later (g j) en) /\ earlier en (g (i + n)).
Proof.
  induction fuel as [|k IH]; intros i F.
  - exists 0%nat. cbn [gen_dates seq map]. split; auto. split; [intros; lia|]. replace (i + 0)%nat with i by lia.
    destruct (earlier_total en (g i)) as [E|[E|E]]; auto; exfalso.
    + assert (dt_ord (g i) <= dt_ord en) by (apply g_en; left; auto). lia.
    + assert (dt_ord (g i) <= dt_ord en) by (apply g_en; right; auto). lia.
  - cbn [gen_dates]. destruct (dt_leb (g i) en) eqn:L.
    + destruct (IH (S i)) as (n & E & A & B); [specialize (g_ord i); lia|]. exists (S n). rewrite g_step, E. cbn [seq map]. split; auto. split.
      * intros j J. destruct (Nat.eq_dec j i) as [->|]; [apply leb_spec in L; auto|]. apply A. lia.
      * replace (i + S n)%nat with (S i + n)%nat by lia. auto.
    + exists 0%nat. cbn [seq map]. split; auto. split; [intros; lia|]. replace (i + 0)%nat with i by lia.
      destruct (earlier_total en (g i)) as [E|[E|E]]; auto; exfalso.
      * assert (dt_leb (g i) en = true) by (apply leb_spec; auto). congruence.
      * assert (dt_leb (g i) en = true) by (apply leb_spec; auto). congruence.
Qed.
Lemma gen_facts fuel : dt_ord en - dt_ord (g 0) + 1 <= Z.of_nat fuel ->
  exists n, gen_dates fuel step (g 0) en = map g (seq 0 n) /\ in_order (gen_dates fuel step (g 0) en) /\
  forall d, In d (gen_dates fuel step (g 0) en) <-> exists j, d = g j /\ not_later d en.
Proof.
  intros F. destruct (gen_grid fuel 0 F) as (n & E & A & B). exists n. rewrite E. split; auto. split.
  - apply grid_sorted.
  - intros d. rewrite in_map_iff. split.
    + intros (j & <- & J). apply in_seq in J. exists j. split; [auto|apply A; lia].
    + intros (j & -> & J). exists j. split; auto. apply in_seq. split; [lia|]. destruct (Nat.lt_ge_cases j (0 + n)) as [|G]; auto. exfalso.
      assert (L : earlier en (g j)). { destruct (Nat.eq_dec j (0 + n)) as [->|]; auto. eapply earlier_trans; [exact B|]. apply grid_lt. lia. }
      destruct J as [J|J]; [rewrite <- J in L; eapply earlier_irrefl; eauto|]. eapply earlier_irrefl. eapply earlier_trans; eauto.
Qed.
End Grid.

(** ** dates by days *)
Definition at_ord (n s : Z) : datetime := let '(y, m, d) := ord2ymd n in mkdt y m d s.
Lemma at_ord_facts n s : 1 <= n -> day_ok (dt_y (at_ord n s)) (dt_m (at_ord n s)) (dt_d (at_ord n s)) /\ dt_ord (at_ord n s) = n /\ dt_s (at_ord n s) = s.
Proof.
  intros H. destruct (ord2ymd_ok n H) as (y & m & d & E & K & O & Y). unfold at_ord. rewrite E. auto.
Qed.
Lemma at_ord_of d : day_ok (dt_y d) (dt_m d) (dt_d d) -> at_ord (dt_ord d) (dt_s d) = d.
Proof. intros K. unfold at_ord, dt_ord. rewrite ord2ymd2ord by auto. destruct d; auto. Qed.
Lemma add_days_ord n s k : 1 <= n -> add_days (at_ord n s) k = at_ord (n + k) s.
Proof. intros H. destruct (at_ord_facts n s H) as (_ & O & S). unfold add_days, at_ord at 3. rewrite O, S. auto. Qed.
Lemma ord_order a b : day_ok (dt_y a) (dt_m a) (dt_d a) -> day_ok (dt_y b) (dt_m b) (dt_d b) ->
  (earlier a b <-> dt_ord a < dt_ord b \/ dt_ord a = dt_ord b /\ dt_s a < dt_s b).
Proof.
  intros A B. unfold dt_ord. pose proof (ord_lt _ _ _ _ _ _ A B) as L. pose proof (ord_lt _ _ _ _ _ _ B A) as L'. pose proof (ord_inj _ _ _ _ _ _ A B) as I. unfold earlier. split.
  - intros [H|(E1 & [H|(E2 & [H|(E3 & H)])])].
    + left. apply L. auto.
    + left. apply L. auto.
    + left. apply L. auto.
    + right. rewrite E1, E2, E3. auto.
  - intros [H|[H S]].
    + destruct (Z.lt_trichotomy (dt_y a) (dt_y b)) as [?|[E|G]]; auto.
      * destruct (Z.lt_trichotomy (dt_m a) (dt_m b)) as [?|[E'|G]]; auto.
        -- destruct (Z.lt_trichotomy (dt_d a) (dt_d b)) as [?|[E''|G]]; auto 6.
           ++ rewrite E, E', E'' in H. lia.
           ++ assert (ymd2ord (dt_y b) (dt_m b) (dt_d b) < ymd2ord (dt_y a) (dt_m a) (dt_d a)) by (apply L'; auto 6). lia.
        -- assert (ymd2ord (dt_y b) (dt_m b) (dt_d b) < ymd2ord (dt_y a) (dt_m a) (dt_d a)) by (apply L'; auto 6). lia.
      * assert (ymd2ord (dt_y b) (dt_m b) (dt_d b) < ymd2ord (dt_y a) (dt_m a) (dt_d a)) by (apply L'; auto 6). lia.
    + destruct (I H) as (-> & -> & ->). lia.
Qed.
Lemma not_later_ord a b : day_ok (dt_y a) (dt_m a) (dt_d a) -> day_ok (dt_y b) (dt_m b) (dt_d b) ->
  (not_later a b <-> dt_ord a < dt_ord b \/ dt_ord a = dt_ord b /\ dt_s a <= dt_s b).
Proof.
  intros A B. unfold not_later. rewrite (ord_order a b A B). split.
  - intros [->|H]; lia.
  - intros [H|[H S]]; auto. destruct (Z.eq_dec (dt_s a) (dt_s b)) as [E|]; [left|right; right; lia].
    rewrite <- (at_ord_of a A), <- (at_ord_of b B). rewrite H, E. auto.
Qed.
Lemma sheets_year d en : real_date en -> not_later d en -> dt_y d <= 9999.
Proof. intros (Y & _) [->|H]; [lia|]. unfold earlier in H. lia. Qed.
Lemma real_of a s en : 1 <= a -> 0 <= s < 86400 -> real_date en -> not_later (at_ord a s) en -> real_date (at_ord a s).
Proof.
  intros A S R H. destruct (at_ord_facts a s A) as (K & O & T). apply day_ok_real; auto; [|lia]. split; [|eapply sheets_year; eauto].
  destruct (ord2ymd_ok a A) as (y & m & d & E & _ & _ & Y). unfold at_ord. rewrite E. auto.
Qed.
(** ** days of the week *)
Lemma days_after_iff n a b : day_ok (dt_y a) (dt_m a) (dt_d a) -> day_ok (dt_y b) (dt_m b) (dt_d b) ->
  (days_after n a b <-> dt_ord b = dt_ord a + Z.of_nat n /\ dt_s b = dt_s a).
Proof.
  intros A B. split.
  - intros H. apply days_after_ord in H; auto. tauto.
  - intros [O S]. destruct (days_after_exists n a A) as [c C]. destruct (days_after_ord _ _ _ A C) as (K & O' & S' & _).
    replace b with c; auto. rewrite <- (at_ord_of b B), <- (at_ord_of c K). congruence.
Qed.
Lemma sunday_iff d : day_ok (dt_y d) (dt_m d) (dt_d d) -> (sunday d <-> weekday d = 6).
Proof.
  intros K. unfold sunday, weekday. set (o := mkdt 2000 1 2 (dt_s d)).
  assert (Ko : day_ok (dt_y o) (dt_m o) (dt_d o)) by (unfold o, day_ok; cbn; lia). assert (Oo : dt_ord o = 730121) by reflexivity. split.
  - intros (k & [H|H]); apply days_after_iff in H; auto; lia.
  - intros W. destruct (Z_le_gt_dec (dt_ord d) 730121).
    + exists (Z.to_nat ((730121 - dt_ord d) / 7)). left. apply days_after_iff; auto. split; auto. lia.
    + exists (Z.to_nat ((dt_ord d - 730121) / 7)). right. apply days_after_iff; auto. split; auto. lia.
Qed.
Lemma saturday_iff d : day_ok (dt_y d) (dt_m d) (dt_d d) -> (saturday d <-> weekday d = 5).
Proof.
  intros K. unfold saturday. split.
  - intros (b & N & S). apply next_day_ord in N; auto. destruct N as (Kb & O & _). apply sunday_iff in S; auto. unfold weekday in *. lia.
  - intros W. destruct (next_day_exists d K) as [b B]. exists b. split; auto. apply next_day_ord in B; auto. destruct B as (Kb & O & _). apply sunday_iff; auto. unfold weekday in *. lia.
Qed.
Lemma working_iff d : day_ok (dt_y d) (dt_m d) (dt_d d) -> (working_day d <-> weekday d < 5).
Proof. intros K. unfold working_day. rewrite (saturday_iff d K), (sunday_iff d K). unfold weekday. lia. Qed.
(** every [k] days from [n] on *)
Lemma days_range n s k en fuel : 1 <= n -> 1 <= k -> 0 <= s < 86400 -> real_date en -> dt_ord en - n + 1 <= Z.of_nat fuel ->
  let l := gen_dates fuel (fun d => add_days d k) (at_ord n s) en in
  (exists m, l = map (fun i => at_ord (n + k * Z.of_nat i) s) (seq 0 m)) /\ in_order l /\
  forall d, In d l <-> real_date d /\ dt_s d = s /\ n <= dt_ord d /\ (k | dt_ord d - n) /\ not_later d en.
Proof.
  intros Hn Hk Hs R F l. set (g := fun i => at_ord (n + k * Z.of_nat i) s).
  assert (G : forall i, day_ok (dt_y (g i)) (dt_m (g i)) (dt_d (g i)) /\ dt_ord (g i) = n + k * Z.of_nat i /\ dt_s (g i) = s) by (intros i; apply at_ord_facts; nia).
  assert (D : forall i, day_ok (dt_y (g i)) (dt_m (g i)) (dt_d (g i))) by (intros; apply G). assert (O : forall i, dt_ord (g i) = n + k * Z.of_nat i) by (intros; apply G).
  destruct (gen_facts g (fun d => add_days d k) en) with (fuel := fuel) as (m & E & Or & I).
  - intros i. unfold g. rewrite add_days_ord by nia. f_equal. lia.
  - intros i. apply ord_order; auto. left. rewrite !O. lia.
  - intros i. rewrite !O. lia.
  - intros i H. apply not_later_ord in H; auto; [lia|apply real_day_ok; auto].
  - rewrite O. lia.
  - assert (E0 : g 0%nat = at_ord n s) by (unfold g; f_equal; lia). rewrite E0 in *. fold l in E, Or, I. split; [exists m; auto|]. split; auto. intros d. rewrite I. split.
    + intros (j & -> & L). split; [unfold g in *; eapply real_of; eauto; nia|]. split; [apply G|]. rewrite O. split; [lia|]. split; auto. exists (Z.of_nat j). lia.
    + intros (Rd & S & L & [c Hc] & N). exists (Z.to_nat c). split; auto. unfold g. replace (n + k * Z.of_nat (Z.to_nat c)) with (dt_ord d) by nia. rewrite <- S. symmetry. apply at_ord_of. apply real_day_ok; auto.
Qed.

(** ** dates by months *)
Definition at_month (n s : Z) : datetime := mkdt (n / 12) (n mod 12 + 1) 1 s.
Definition month_no (d : datetime) : Z := dt_y d * 12 + dt_m d - 1.
Lemma at_month_ok n s : day_ok (dt_y (at_month n s)) (dt_m (at_month n s)) (dt_d (at_month n s)).
Proof. unfold at_month, day_ok. cbn [dt_y dt_m dt_d]. pose proof (dim_range (n / 12) (n mod 12 + 1)) as D. split; [lia|]. split; [reflexivity || lia|]. destruct D as [D _]. revert D. generalize (days_in_month (n / 12) (n mod 12 + 1)). intros; lia. Qed.
Lemma at_month_no n s : month_no (at_month n s) = n.
Proof. unfold month_no, at_month. cbn [dt_y dt_m]. lia. Qed.
Lemma at_month_of d : 1 <= dt_m d <= 12 -> dt_d d = 1 -> at_month (month_no d) (dt_s d) = d.
Proof. unfold at_month, month_no. destruct d as [y m d s]. cbn. intros. subst. f_equal; lia. Qed.
Lemma month_begin_at d k : month_begin d k = at_month (month_no d + k) (dt_s d).
Proof. unfold month_begin, at_month, month_no. cbn zeta. replace (dt_y d * 12 + (dt_m d - 1) + k) with (dt_y d * 12 + dt_m d - 1 + k) by lia. auto. Qed.
Lemma at_month_earlier a b s t : a < b -> earlier (at_month a s) (at_month b t).
Proof. intros H. unfold earlier, at_month. cbn [dt_y dt_m dt_d dt_s]. lia. Qed.
Lemma real_month d : real_date d -> 1 <= dt_m d <= 12.
Proof. intros (_ & _ & n & L & _). apply month_length_range in L. lia. Qed.
Lemma month_real a s en : 12 <= a -> 0 <= s < 86400 -> real_date en -> not_later (at_month a s) en -> real_date (at_month a s).
Proof.
  intros A S R H. apply day_ok_real; auto; [apply at_month_ok|]. split; [unfold at_month; cbn; lia|]. eapply sheets_year; eauto.
Qed.
Lemma months_range n s k en fuel : 12 <= n -> 1 <= k -> 0 <= s < 86400 -> real_date en -> dt_ord en - dt_ord (at_month n s) + 1 <= Z.of_nat fuel ->
  let l := gen_dates fuel (fun d => month_begin d k) (at_month n s) en in
  (exists m, l = map (fun i => at_month (n + k * Z.of_nat i) s) (seq 0 m)) /\ in_order l /\
  forall d, In d l <-> real_date d /\ dt_s d = s /\ dt_d d = 1 /\ n <= month_no d /\ (k | month_no d - n) /\ not_later d en.
Proof.
  intros Hn Hk Hs R F l. set (g := fun i => at_month (n + k * Z.of_nat i) s).
  destruct (gen_facts g (fun d => month_begin d k) en) with (fuel := fuel) as (m & E & Or & I).
  - intros i. rewrite month_begin_at. unfold g. rewrite at_month_no. change (dt_s (at_month (n + k * Z.of_nat i) s)) with s. replace (n + k * Z.of_nat i + k) with (n + k * Z.of_nat (S i)) by lia. auto.
  - intros i. apply at_month_earlier. lia.
  - intros i. assert (L : earlier (g i) (g (S i))) by (apply at_month_earlier; lia). apply ord_order in L; try apply at_month_ok. destruct L as [L|[_ L]]; auto. cbn in L. lia.
  - intros i H. apply not_later_ord in H; auto; [lia|apply at_month_ok|apply real_day_ok; auto].
  - unfold g. replace (n + k * Z.of_nat 0) with n by lia. auto.
  - assert (E0 : g 0%nat = at_month n s) by (unfold g; f_equal; lia). rewrite E0 in *. fold l in E, Or, I. split; [exists m; auto|]. split; auto. intros d. rewrite I. split.
    + intros (j & -> & L). unfold g in *. split; [eapply month_real; eauto; nia|]. rewrite at_month_no. unfold at_month at 1 2. cbn [dt_s dt_d]. split; auto. split; auto. split; [lia|]. split; auto.
      exists (Z.of_nat j). lia.
    + intros (Rd & S & D & L & [c Hc] & N). exists (Z.to_nat c). split; auto. unfold g. replace (n + k * Z.of_nat (Z.to_nat c)) with (month_no d) by nia. rewrite <- S. symmetry.
      apply at_month_of; auto. apply real_month; auto.
Qed.
(** the first month start from [s] on whose number has the remainder 0 *)
Lemma month_from s d : real_date s -> real_date d -> dt_d d = 1 -> dt_s d = dt_s s ->
  (not_later s d <-> month_no s + (if dt_d s =? 1 then 0 else 1) <= month_no d).
Proof.
  intros Rs Rd D S. pose proof (real_month s Rs). pose proof (real_month d Rd). assert (1 <= dt_d s) by (destruct Rs as (_ & _ & n & _ & ?); lia).
  unfold not_later, earlier, month_no. destruct (dt_d s =? 1) eqn:E.
  - split.
    + intros [->|H']; lia.
    + intros H'. destruct (Z.eq_dec (dt_y s * 12 + dt_m s) (dt_y d * 12 + dt_m d)); [left; apply dt_ext; lia|right; lia].
  - split.
    + intros [->|H']; lia.
    + intros H'. right. lia.
Qed.

(** ** date_range *)
Lemma roll_month_at s : real_date s -> roll_month s = at_month (month_no s + (if dt_d s =? 1 then 0 else 1)) (dt_s s).
Proof.
  intros R. unfold roll_month. destruct (dt_d s =? 1) eqn:E; [|apply month_begin_at]. rewrite Z.add_0_r. symmetry. apply at_month_of; [apply real_month; auto|lia].
Qed.
Lemma real_month_no s : real_date s -> 12 <= month_no s.
Proof. intros R. pose proof (real_month s R). destruct R as ((Y & _) & _). unfold month_no. lia. Qed.
Lemma fuel_month s n en : real_date s -> month_no s + (if dt_d s =? 1 then 0 else 1) <= n ->
  dt_ord en - dt_ord (at_month n (dt_s s)) + 1 <= Z.of_nat (Z.to_nat (dt_ord en - dt_ord s + 1)).
Proof.
  intros R H. assert (L : not_later s (at_month n (dt_s s))).
  { pose proof (real_month s R). assert (1 <= dt_d s) by (destruct R as (_ & _ & x & _ & ?); lia). unfold month_no in H. unfold not_later, earlier, at_month. cbn [dt_y dt_m dt_d dt_s].
    destruct (dt_d s =? 1) eqn:E; [|right; lia]. destruct (Z.eq_dec (dt_y s * 12 + dt_m s - 1) n); [left; apply dt_ext; cbn [dt_y dt_m dt_d dt_s]; lia|right; lia]. }
  apply not_later_ord in L; [lia|apply real_day_ok; auto|apply at_month_ok].
Qed.
Lemma roll_quarter_at s : real_date s -> exists n, roll_quarter s = at_month n (dt_s s) /\ n mod 3 = 0 /\
  month_no s + (if dt_d s =? 1 then 0 else 1) <= n < month_no s + (if dt_d s =? 1 then 0 else 1) + 3.
Proof.
  intros R. pose proof (real_month s R) as M. unfold roll_quarter. cbn zeta. destruct ((dt_d s =? 1) && ((dt_m s - 1) mod 3 =? 0)) eqn:E.
  - exists (month_no s). split; [symmetry; apply at_month_of; auto; lia|]. unfold month_no. destruct (dt_d s =? 1) eqn:E'; lia.
  - exists (month_no s + (3 - (dt_m s - 1) mod 3)). split; [apply month_begin_at|]. unfold month_no. destruct (dt_d s =? 1) eqn:E'; lia.
Qed.
Lemma roll_year_at s : real_date s -> exists n, roll_year s = at_month n (dt_s s) /\ n mod 12 = 0 /\
  month_no s + (if dt_d s =? 1 then 0 else 1) <= n < month_no s + (if dt_d s =? 1 then 0 else 1) + 12.
Proof.
  intros R. pose proof (real_month s R) as M. unfold roll_year. destruct ((dt_d s =? 1) && (dt_m s =? 1)) eqn:E.
  - exists (month_no s). split; [symmetry; apply at_month_of; auto; lia|]. unfold month_no. destruct (dt_d s =? 1) eqn:E'; lia.
  - exists (month_no s + (13 - dt_m s)). split; [apply month_begin_at|]. unfold month_no. destruct (dt_d s =? 1) eqn:E'; lia.
Qed.
(** how the dates of a range are spaced: every [k] days or months *)
Inductive spacing := Days (k : Z) | Months (k : Z).
Definition at_ (sp : spacing) (n s : Z) (i : nat) : datetime :=
  match sp with Days k => at_ord (n + k * Z.of_nat i) s | Months k => at_month (n + k * Z.of_nat i) s end.
Definition spacing_of (f : string) : option spacing :=
  match f with "D" => Some (Days 1) | "W" => Some (Days 7) | "M" => Some (Months 1) | "Q" => Some (Months 3) | "S" => Some (Months 6) | "A" => Some (Months 12) | _ => None end%string.
Lemma range_covers f s en r : real_date s -> real_date en -> date_range s en (T f) = Ok r ->
  covers f s en r /\ exists sp n m, spacing_of f = Some sp /\ 1 <= n /\ pr_dates r = map (at_ sp n (dt_s s)) (seq 0 m).
Proof.
  intros Rs Re. assert (Ts : 0 <= dt_s s < 86400) by (destruct Rs as (_ & ? & _); auto).
  assert (O1 : 1 <= dt_ord s) by (apply ord_lower; [apply real_day_ok; auto|destruct Rs; lia]).
  assert (N1 : 12 <= month_no s) by (apply real_month_no; auto).
  unfold date_range. cbn zeta.
  destruct (text_eqb (T f) (T "D")) eqn:ED; [|destruct (text_eqb (T f) (T "W")) eqn:EW; [|destruct (text_eqb (T f) (T "M")) eqn:EM; [|destruct (text_eqb (T f) (T "Q")) eqn:EQ; [|destruct (text_eqb (T f) (T "S")) eqn:ES; [|destruct (text_eqb (T f) (T "A")) eqn:EA; [|discriminate]]]]]].
  - apply text_eqb_eq, T_inj in ED. subst f. intros H. injection H as <-. cbn [pr_dates].
    destruct (days_range (dt_ord s) (dt_s s) 1 en (Z.to_nat (dt_ord en - dt_ord s + 1))) as ((m & G) & Or & I); auto; try lia. rewrite at_ord_of in * by (apply real_day_ok; auto).
    split; [|exists (Days 1), (dt_ord s), m; auto]. split; [exists "D"%string; split; [constructor|auto]|]. cbn [pr_dates]. split; auto. intros d. rewrite I. unfold index_date. cbn [period_start string_dec].
    change (if string_dec "D" "S" then _ else ?x) with x. split.
    + intros (Rd & S & L & _ & N). split; auto. split; [cbn; auto|]. split; auto. split; auto. apply not_later_ord; try (apply real_day_ok; auto). lia.
    + intros (Rd & _ & S & L & N). split; auto. split; auto. apply not_later_ord in L; try (apply real_day_ok; auto). split; [lia|]. split; auto. apply Z.divide_1_l.
  - apply text_eqb_eq, T_inj in EW. subst f. intros H. injection H as <-. cbn [pr_dates].
    assert (E : roll_sunday s = at_ord (dt_ord s + (6 - weekday s) mod 7) (dt_s s)). { unfold roll_sunday. rewrite <- (at_ord_of s) at 1 by (apply real_day_ok; auto). apply add_days_ord; auto. }
    destruct (days_range (dt_ord s + (6 - weekday s) mod 7) (dt_s s) 7 en (Z.to_nat (dt_ord en - dt_ord s + 1))) as ((m & G) & Or & I); auto; try lia. rewrite <- E in *.
    split; [|exists (Days 7), (dt_ord s + (6 - weekday s) mod 7), m; split; auto; split; [lia|auto]]. split; [exists "W-SUN"%string; split; [constructor|auto]|]. cbn [pr_dates]. split; auto. intros d. rewrite I.
    unfold index_date. change (if string_dec "W" "S" then _ else ?x) with x. cbn [period_start]. unfold weekday. split.
    + intros (Rd & S & L & [c Hc] & N). split; auto. split; [apply sunday_iff; [apply real_day_ok; auto|unfold weekday in *; lia]|]. split; auto. split; auto. apply not_later_ord; try (apply real_day_ok; auto). lia.
    + intros (Rd & W & S & L & N). split; auto. split; auto. apply sunday_iff in W; [|apply real_day_ok; auto]. unfold weekday in *. apply not_later_ord in L; try (apply real_day_ok; auto). split; [lia|]. split; auto. exists ((dt_ord d - (dt_ord s + (6 - (dt_ord s + 6) mod 7) mod 7)) / 7). lia.
  - apply text_eqb_eq, T_inj in EM. subst f. intros H. injection H as <-. cbn [pr_dates]. set (n := month_no s + (if dt_d s =? 1 then 0 else 1)).
    assert (Hn : 12 <= n) by (unfold n; destruct (dt_d s =? 1); lia).
    destruct (months_range n (dt_s s) 1 en (Z.to_nat (dt_ord en - dt_ord s + 1))) as ((m & G) & Or & I); auto; try lia; [apply fuel_month; auto; lia|]. unfold n in *. rewrite <- roll_month_at in * by auto. fold n in G, I, Hn.
    split; [|exists (Months 1), n, m; split; auto; split; [lia|auto]]. split; [exists "MS"%string; split; [constructor|auto]|]. cbn [pr_dates]. split; auto. intros d. rewrite I.
    unfold index_date. change (if string_dec "M" "S" then _ else ?x) with x. cbn [period_start]. split.
    + intros (Rd & S & D & L & _ & N). split; auto. split; auto. split; auto. split; auto. apply month_from; auto.
    + intros (Rd & D & S & L & N). split; auto. split; auto. split; auto. apply month_from in L; auto. split; auto. split; auto. apply Z.divide_1_l.
  - apply text_eqb_eq, T_inj in EQ. subst f. intros H. injection H as <-. cbn [pr_dates]. destruct (roll_quarter_at s Rs) as (n & E & M3 & B). rewrite E.
    assert (Hn : 12 <= n) by (destruct (dt_d s =? 1); lia).
    destruct (months_range n (dt_s s) 3 en (Z.to_nat (dt_ord en - dt_ord s + 1))) as ((m & G) & Or & I); auto; try lia; [apply fuel_month; auto; lia|].
    split; [|exists (Months 3), n, m; split; auto; split; [lia|auto]]. split; [exists "QS-JAN"%string; split; [constructor|auto]|]. cbn [pr_dates]. split; auto. intros d. rewrite I.
    unfold index_date. change (if string_dec "Q" "S" then _ else ?x) with x. cbn [period_start In]. split.
    + intros (Rd & S & D & L & [c Hc] & N). split; auto. pose proof (real_month d Rd). split; [split; auto; unfold month_no in Hc; lia|]. split; auto. split; auto. apply month_from; auto. lia.
    + intros (Rd & (D & Q) & S & L & N). split; auto. split; auto. split; auto. apply month_from in L; auto. assert (month_no d mod 3 = 0) by (unfold month_no; lia). split; [|split; auto].
      * destruct (Z_lt_le_dec (month_no d) n); auto. exfalso. clear - l B L M3 H. destruct (dt_d s =? 1); lia.
      * exists ((month_no d - n) / 3). lia.
  - apply text_eqb_eq, T_inj in ES. subst f. intros H. injection H as <-. cbn [pr_dates]. set (n := month_no s + (if dt_d s =? 1 then 0 else 1)).
    assert (Hn : 12 <= n) by (unfold n; destruct (dt_d s =? 1); lia).
    destruct (months_range n (dt_s s) 6 en (Z.to_nat (dt_ord en - dt_ord s + 1))) as ((m & G) & Or & I); auto; try lia; [apply fuel_month; auto; lia|]. unfold n in *. rewrite <- roll_month_at in * by auto. fold n in G, I, Hn.
    split; [|exists (Months 6), n, m; split; auto; split; [lia|auto]]. split; [exists "6MS"%string; split; [constructor|auto]|]. cbn [pr_dates]. split; auto. intros d. rewrite I.
    unfold index_date. change (if string_dec "S" "S" then ?x else _) with x. split.
    + intros (Rd & S & D & L & [c Hc] & N). pose proof (real_month d Rd) as Md. exists (at_month n (dt_s s)), c.
      assert (N0 : not_later (at_month n (dt_s s)) d).
      { rewrite <- (at_month_of d), S by (auto; apply real_month; auto). destruct (Z.eq_dec n (month_no d)) as [->|]; [left; auto|right; apply at_month_earlier; lia]. }
      assert (Ne : not_later (at_month n (dt_s s)) en). { destruct N0 as [<-|N0]; auto. right. destruct N as [<-|N]; auto. eapply earlier_trans; eauto. }
      assert (R0 : real_date (at_month n (dt_s s))) by (eapply month_real; eauto).
      split; [split|].
      * split; auto. split; auto. split; auto. apply month_from; auto. rewrite at_month_no. fold n. lia.
      * intros x (Rx & Dx & Sx & Lx). apply month_from in Lx; auto. fold n in Lx. rewrite <- (at_month_of x), Sx by (auto; apply real_month; auto).
        destruct (Z.eq_dec n (month_no x)) as [->|]; [left; auto|right; apply at_month_earlier; lia].
      * split; [lia|]. split; auto. split; [unfold month_no in Hc; unfold at_month; cbn [dt_y dt_m]; lia|]. split; auto. split; [auto|]. destruct Rd as (_ & _ & x & Lx & _). exists x. split; auto. apply month_length_range in Lx. unfold at_month. cbn [dt_d]. lia.
    + intros (d0 & k & ((R0 & D0 & S0 & L0) & Min) & K & (A1 & A2 & A3 & len & A4 & A5) & N).
      assert (E0 : month_no d0 = n).
      { apply month_from in L0; auto. fold n in L0. destruct (Z.eq_dec (month_no d0) n) as [|NE]; auto. exfalso.
        assert (Lt : earlier (at_month n (dt_s s)) d0) by (rewrite <- (at_month_of d0) by (auto; apply real_month; auto); apply at_month_earlier; lia).
        assert (Rn : real_date (at_month n (dt_s s))) by (eapply month_real; eauto; right; auto).
        destruct (Min (at_month n (dt_s s))) as [C|C].
        - split; auto. split; auto. split; auto. apply month_from; auto. rewrite at_month_no. fold n. lia.
        - rewrite <- C in Lt. eapply earlier_irrefl; eauto.
        - eapply earlier_irrefl. eapply earlier_trans; eauto. }
      apply month_length_range in A4 as A4'. unfold month_no in *. assert (Dd : dt_d d = 1) by lia.
      split; [|split; [congruence|]; split; auto; split; [lia|]; split; auto; exists k; lia].
      apply day_ok_real; [|split; [lia|exact (sheets_year d en Re N)]|rewrite A3; destruct R0 as (_ & ? & _); auto].
      apply dim_spec in A4; auto. split; auto. rewrite A4. lia.
  - apply text_eqb_eq, T_inj in EA. subst f. intros H. injection H as <-. cbn [pr_dates]. destruct (roll_year_at s Rs) as (n & E & M3 & B). rewrite E.
    assert (Hn : 12 <= n) by (destruct (dt_d s =? 1); lia).
    destruct (months_range n (dt_s s) 12 en (Z.to_nat (dt_ord en - dt_ord s + 1))) as ((m & G) & Or & I); auto; try lia; [apply fuel_month; auto; lia|].
    split; [|exists (Months 12), n, m; split; auto; split; [lia|auto]]. split; [exists "AS-JAN"%string; split; [constructor|auto]|]. cbn [pr_dates]. split; auto. intros d. rewrite I.
    unfold index_date. change (if string_dec "A" "S" then _ else ?x) with x. cbn [period_start In]. split.
    + intros (Rd & S & D & L & [c Hc] & N). split; auto. pose proof (real_month d Rd). split; [split; auto; unfold month_no in Hc; lia|]. split; auto. split; auto. apply month_from; auto. lia.
    + intros (Rd & (D & Q) & S & L & N). split; auto. split; auto. split; auto. apply month_from in L; auto. assert (month_no d mod 12 = 0) by (unfold month_no; lia). split; [|split; auto].
      * destruct (Z_lt_le_dec (month_no d) n); auto. exfalso. clear - l B L M3 H. destruct (dt_d s =? 1); lia.
      * exists ((month_no d - n) / 12). lia.
Qed.

(** ** a range is known by its frequency, first and last date *)
Lemma hd_map {A B} (f : A -> B) l : hd_error (map f l) = option_map f (hd_error l).
Proof. destruct l; auto. Qed.
Lemma last_seq m : (0 < m)%nat -> hd_error (rev (seq 0 m)) = Some (m - 1)%nat.
Proof. intros H. destruct m as [|m]; [lia|]. rewrite seq_S, rev_app_distr. cbn. f_equal. lia. Qed.
Lemma at_inj sp n s n' s' i j : (exists k, 1 <= k /\ (sp = Days k \/ sp = Months k)) -> 1 <= n -> 1 <= n' -> at_ sp n s i = at_ sp n' s' j ->
  s = s' /\ (n = n' -> i = j) /\ (i = j -> n = n').
Proof.
  intros (k & K & [-> | ->]) N N' E; cbn [at_] in E.
  - destruct (at_ord_facts (n + k * Z.of_nat i) s ltac:(nia)) as (_ & O & S). destruct (at_ord_facts (n' + k * Z.of_nat j) s' ltac:(nia)) as (_ & O' & S').
    rewrite E in O, S. split; [congruence|]. assert (n + k * Z.of_nat i = n' + k * Z.of_nat j) by congruence. split; intros ->; nia.
  - pose proof (at_month_no (n + k * Z.of_nat i) s) as M. pose proof (at_month_no (n' + k * Z.of_nat j) s') as M'. split; [injection E; auto|].
    rewrite E in M. assert (n + k * Z.of_nat i = n' + k * Z.of_nat j) by congruence. split; intros ->; nia.
Qed.
Lemma pandas_one f g n : pandas_name f n -> pandas_name g n -> f = g.
Proof. intros H; inversion H; subst; intros G; inversion G; auto. Qed.
Lemma same_range f s en r g s' en' r' : real_date s -> real_date en -> real_date s' -> real_date en' ->
  date_range s en (T f) = Ok r -> date_range s' en' (T g) = Ok r' -> same_periods r r' -> pr_dates r <> [] -> r = r'.
Proof.
  intros Rs Re Rs' Re' H H' (F & A & B) NE. apply range_covers in H; auto. apply range_covers in H'; auto.
  destruct H as (((nm & P & Q) & _) & sp & n & m & SP & N & E). destruct H' as (((nm' & P' & Q') & _) & sp' & n' & m' & SP' & N' & E').
  rewrite Q, Q' in F. apply T_inj in F. subst nm'. pose proof (pandas_one _ _ _ P P') as ->. rewrite SP in SP'. injection SP' as <-.
  assert (K : exists k, 1 <= k /\ (sp = Days k \/ sp = Months k)).
  { inversion P'; subst g; cbn in SP; injection SP as <-; eexists; (split; [|eauto]); lia. }
  destruct r as [fr l], r' as [fr' l']. cbn [pr_freq pr_dates] in *. rewrite E, E' in A, B. destruct m as [|m]; [cbn in E; congruence|]. destruct m' as [|m']; [cbn in A; discriminate|].
  cbn in A. injection A as A. apply at_inj in A; auto. destruct A as (As & _ & A). specialize (A eq_refl). subst n'. rewrite As in E, B.
  rewrite <- !map_rev, !hd_map, !last_seq in B by lia. cbn [option_map] in B. injection B as B. apply at_inj in B; auto. destruct B as (_ & B & _). specialize (B eq_refl).
  f_equal; [congruence|]. rewrite E, E'. replace (S m') with (S m) by lia. auto.
Qed.

(** ** working days *)
Lemma sorted_filter f l : in_order l -> in_order (filter f l).
Proof.
  unfold in_order. induction 1 as [|x l H IH F]; cbn; [constructor|]. destruct (f x); auto. constructor; auto.
  apply Forall_forall. intros y Y. apply filter_In in Y. rewrite Forall_forall in F. apply F. tauto.
Qed.
Lemma midnight_facts d : real_date d -> real_date (midnight d) /\ dt_ord (midnight d) = dt_ord d /\ dt_s (midnight d) = 0.
Proof. intros (A & B & C). split; [|split; auto]. split; auto. split; [cbn; lia|auto]. Qed.
Lemma roll_business_at d : real_date d -> dt_s d = 0 -> exists n, roll_business d = at_ord n 0 /\ dt_ord d <= n <= dt_ord d + 2 /\ (n + 6) mod 7 < 5 /\
  forall m, dt_ord d <= m -> (m + 6) mod 7 < 5 -> n <= m.
Proof.
  intros R S. assert (K := real_day_ok _ R). assert (O := ord_lower _ _ _ K ltac:(destruct R; lia)). fold (dt_ord d) in O. unfold roll_business. destruct (weekday d <? 5) eqn:W.
  - exists (dt_ord d). rewrite <- S. rewrite at_ord_of by auto. unfold weekday in W. split; auto. split; [lia|]. split; [lia|]. intros; lia.
  - exists (dt_ord d + (7 - weekday d)). split; [rewrite <- (at_ord_of d K) at 1; rewrite S; apply add_days_ord; auto|]. unfold weekday in *. split; [lia|]. split; [lia|]. intros; lia.
Qed.
Lemma at_ord_real n s : 1 <= n <= 3652059 -> 0 <= s < 86400 -> real_date (at_ord n s).
Proof.
  intros N S. destruct (at_ord_facts n s ltac:(lia)) as (K & O & T). apply day_ok_real; auto; [|lia].
  destruct (ord2ymd_ok n ltac:(lia)) as (y & m & d & E & K' & O' & Y). unfold at_ord. rewrite E. cbn. split; auto. eapply ord_year_bound; eauto. lia.
Qed.
Lemma year_ord d : day_ok (dt_y d) (dt_m d) (dt_d d) -> dt_y d < 9999 -> dt_ord d <= 3651694.
Proof.
  intros K Y. assert (L : dt_ord d < dt_ord (mkdt 9999 1 1 0)).
  { apply (ord_lt _ _ _ 9999 1 1); auto. unfold day_ok. cbn. lia. }
  change (dt_ord (mkdt 9999 1 1 0)) with 3651695 in L. lia.
Qed.
Lemma business_covers s en : real_date s -> real_date en -> dt_y s < 9999 -> dt_y en < 9999 -> covers_working s en (business_range s en).
Proof.
  intros Rs Re Ys Ye. unfold business_range. fold (midnight s) (midnight en).
  destruct (midnight_facts s Rs) as (Rs' & Os & Ts). destruct (midnight_facts en Re) as (Re' & Oe & Te).
  destruct (roll_business_at (midnight s) Rs' Ts) as (n & En & Bn & Wn & Mn). destruct (roll_business_at (midnight en) Re' Te) as (m & Em & Bm & Wm & Mm).
  assert (O1 := ord_lower _ _ _ (real_day_ok _ Rs') ltac:(destruct Rs'; lia)). fold (dt_ord (midnight s)) in O1.
  assert (O2 := ord_lower _ _ _ (real_day_ok _ Re') ltac:(destruct Re'; lia)). fold (dt_ord (midnight en)) in O2.
  pose proof (year_ord en (real_day_ok _ Re) Ye) as B2. assert (Rm : real_date (at_ord m 0)) by (apply at_ord_real; lia).
  destruct (at_ord_facts m 0 ltac:(lia)) as (Km & Om & Sm). destruct (at_ord_facts n 0 ltac:(lia)) as (Kn & On & Sn).
  rewrite En, Em. cbn zeta. rewrite Om, On.
  destruct (days_range n 0 1 (at_ord m 0) (Z.to_nat (m - n + 1))) as (_ & Or & I); try lia; auto. split; auto. cbn [pr_dates]. split; [apply sorted_filter; auto|].
  intros d. rewrite filter_In, I. split.
  - intros ((Rd & S & L & _ & N) & W). assert (K := real_day_ok _ Rd). apply not_later_ord in N; auto. split; [|split].
    + split; auto. split; auto. apply working_iff; auto. lia.
    + apply not_later_ord; auto; [apply real_day_ok; auto|]. lia.
    + intros x (Rx & Sx & Wx) Lx. assert (Kx := real_day_ok _ Rx). apply working_iff in Wx; auto. unfold weekday in Wx. apply not_later_ord in Lx; auto; [|apply real_day_ok; auto].
      apply not_later_ord; auto. specialize (Mm (dt_ord x) ltac:(lia) Wx). lia.
  - intros ((Rd & S & W) & L & N). assert (K := real_day_ok _ Rd). apply working_iff in W; auto. split; [|lia]. split; auto. split; auto.
    apply not_later_ord in L; auto; [|apply real_day_ok; auto]. split; [apply Mn; [lia|exact W]|]. split; [apply Z.divide_1_l|].
    apply N.
    + split; auto. split; auto. apply working_iff; auto. unfold weekday. rewrite Om. auto.
    + apply not_later_ord; auto; [apply real_day_ok; auto|]. lia.
Qed.

(** ** lists in order *)
Lemma order_ext l : forall l', in_order l -> in_order l' -> (forall d, In d l <-> In d l') -> l = l'.
Proof.
  unfold in_order. induction l as [|x l IH]; intros [|y l'] S S' E; auto.
  - exfalso. apply (E y). left; auto.
  - exfalso. apply (E x). left; auto.
  - inversion S as [|? ? S1 F]; subst. inversion S' as [|? ? S1' F']; subst. rewrite Forall_forall in F, F'.
    assert (x = y).
    { destruct (proj1 (E x) (or_introl eq_refl)) as [|I]; auto. destruct (proj2 (E y) (or_introl eq_refl)) as [|J]; auto. exfalso. eapply earlier_irrefl. eapply earlier_trans; [apply (F _ J)|apply (F' _ I)]. }
    subst y. f_equal. apply IH; auto. intros d. split; intros I.
    + destruct (proj1 (E d) (or_intror I)) as [<-|]; auto. exfalso. eapply earlier_irrefl. apply (F _ I).
    + destruct (proj2 (E d) (or_intror I)) as [<-|]; auto. exfalso. eapply earlier_irrefl. apply (F' _ I).
Qed.
Lemma covers_one f s en r r' : covers f s en r -> covers f s en r' -> r = r'.
Proof.
  intros ((n & P & F) & O & I) ((n' & P' & F') & O' & I'). assert (n = n') by (inversion P; subst; inversion P'; auto). subst n'.
  destruct r as [fr l], r' as [fr' l']. cbn [pr_freq pr_dates] in *. f_equal; [congruence|]. apply order_ext; auto. intros d. rewrite I, I'. tauto.
Qed.
