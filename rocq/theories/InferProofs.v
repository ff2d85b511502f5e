(** Frequency inference (C49). *)
From Coq Require Import Reals Lra.
From Flocq Require Import Core.
From Verif Require Import Base BaseFacts Cal Comparing Serial SpecCal CalFacts SpecFloats FloatFacts ComparingProofs.
Local Open Scope R_scope.

Lemma tol_finite : finite tol_1e1. Proof. split; reflexivity. Qed.
Lemma tol_value : / 10 <= value tol_1e1 <= / 10 + / 1000000000000.
Proof.
  assert (E : tol_1e1 = S754_finite false 7205759403792794 (-56)) by (vm_compute; reflexivity).
  rewrite E. unfold value, BinarySingleNaN.SF2R, F2R. cbn [cond_Zopp Fnum Fexp].
  change (bpow radix2 (-56)) with (/ IZR (2 ^ 56)). change (2 ^ 56)%Z with 72057594037927936%Z. lra.
Qed.
Definition step_of (s : Z) : Prop := In s (map fst freq_steps).
Lemma step_range s : step_of s -> (1 <= s <= 31536000)%Z.
Proof. unfold step_of. cbn. lia. Qed.
Lemma step_number s : step_of s -> number (VInt s) (IZR s).
Proof. intros H. apply step_range in H. constructor. lia. Qed.

Lemma step_yes s f v : step_of s -> number (VFloat f) v -> 0 < v -> Rabs (IZR s - v) <= IZR s * / 10 ->
  approx_equal (VInt s) (VFloat f) tol_1e1 = Ok true.
Proof.
  intros S N P H. pose proof (step_range _ S) as R. assert (0 < IZR s) by (apply IZR_lt; lia). pose proof tol_value as T.
  eapply c47_accepts; [apply step_number; auto|exact N|apply tol_finite|lra|lra|].
  eapply Rle_trans; [exact H|]. nra.
Qed.
Lemma step_only s f v : step_of s -> number (VFloat f) v ->
  approx_equal (VInt s) (VFloat f) tol_1e1 = Ok true -> Rabs (IZR s - v) <= IZR s * / 10 + / 100.
Proof.
  intros S N H. pose proof (step_range _ S) as R. pose proof tol_value as T.
  assert (P : 1 <= IZR s <= 31536000) by (split; apply IZR_le; lia).
  apply (c47_close _ _ _ _ _ (step_number s S) N tol_finite) in H; [|rewrite Rabs_pos_eq; lra].
  rewrite (Rabs_pos_eq (value tol_1e1 * IZR s)) in H by nra.
  assert (A : bpow radix2 (-51) <= / 1000000000000000).
  { change (bpow radix2 (-51)) with (/ IZR (2 ^ 51)). change (2 ^ 51)%Z with 2251799813685248%Z. lra. }
  assert (B : bpow radix2 (-1073) <= / 1000).
  { apply Rle_trans with (bpow radix2 (-51)); [apply bpow_le; lia|lra]. }
  eapply Rle_trans; [exact H|]. pose proof (bpow_gt_0 radix2 (-51)).
  set (u := bpow radix2 (-51)) in *. set (t := value tol_1e1) in *. set (x := IZR s) in *. clearbody u t x.
  assert (t * x <= x * / 10 + / 10000) by nra. assert (t * x * u <= / 1000) by nra. nra.
Qed.
Lemma step_total s f v : step_of s -> number (VFloat f) v -> v <> 0 -> exists b, approx_equal (VInt s) (VFloat f) tol_1e1 = Ok b.
Proof.
  intros S N V. rewrite (approx_reduce _ _ _ _ _ (step_number s S) N). case Req_bool_spec; eauto. intros _.
  rewrite !Req_bool_false; auto; [|apply step_range in S; apply not_0_IZR; lia]. cbn [orb].
  destruct (num_conv _ _ (step_number s S)) as [fa [CA _]]. destruct (num_conv _ _ N) as [fb [CB _]].
  unfold approx_equal_. rewrite CA, CB. cbn [bind num_int]. eauto.
Qed.
Lemma steps_apart s1 s2 : step_of s1 -> step_of s2 -> (s1 < s2)%Z -> (11 * s1 + 2 <= 9 * s2)%Z.
Proof. unfold step_of. cbn [map fst freq_steps In]. intros A B. destruct A as [<-|[<-|[<-|[<-|[<-|[<-|[<-|[<-|[<-|[]]]]]]]]]]; lia. Qed.
Lemma c49_unambiguous s1 s2 f v : step_of s1 -> step_of s2 -> number (VFloat f) v ->
  approx_equal (VInt s1) (VFloat f) tol_1e1 = Ok true -> approx_equal (VInt s2) (VFloat f) tol_1e1 = Ok true -> s1 = s2.
Proof.
  intros S1 S2 N A B. apply (step_only _ _ _ S1 N) in A. apply (step_only _ _ _ S2 N) in B.
  apply Rabs_le_inv in A, B.
  destruct (Z.lt_trichotomy s1 s2) as [L|[L|L]]; auto; exfalso.
  - apply steps_apart in L; auto. apply IZR_le in L. rewrite plus_IZR, !mult_IZR in L. lra.
  - apply steps_apart in L; auto. apply IZR_le in L. rewrite plus_IZR, !mult_IZR in L. lra.
Qed.
Lemma infer_from steps s name f v : (forall x, In x steps -> step_of (fst x)) -> In (s, name) steps -> NoDup (map fst steps) ->
  number (VFloat f) v -> 0 < v -> approx_equal (VInt s) (VFloat f) tol_1e1 = Ok true ->
  infer_freq_from steps (VFloat f) tol_1e1 = match name with Some t => Ok t | None => Err EOther end.
Proof.
  intros ALL I ND N P A. induction steps as [|[s' name'] steps IH]; [destruct I|].
  cbn [infer_freq_from]. inversion ND; subst. destruct I as [E|I].
  - inversion E; subst. rewrite A. cbn [bind]. reflexivity.
  - destruct (step_total s' f v) as [b Eb]; [apply (ALL (s', name')); left; auto|auto|lra|]. rewrite Eb. cbn [bind].
    destruct b; [|apply IH; auto; intros x Hx; apply ALL; right; auto].
    exfalso. assert (s' = s). { eapply c49_unambiguous; eauto; [apply (ALL (s', name')); left; auto|apply (ALL (s, name)); right; auto]. }
    subst. apply H1. apply in_map_iff. exists (s, name). auto.
Qed.
Lemma c49_infer s name f v : In (s, name) freq_steps -> number (VFloat f) v -> 0 < v -> Rabs (IZR s - v) <= IZR s * / 10 ->
  infer_freq (VFloat f) tol_1e1 = match name with Some t => Ok t | None => Err EOther end.
Proof.
  intros I N P H. assert (S : step_of s) by (unfold step_of; apply in_map_iff; exists (s, name); auto).
  eapply infer_from; eauto.
  - intros x Hx. unfold step_of. apply in_map. auto.
  - cbn. repeat constructor; cbn; lia.
  - eapply step_yes; eauto.
Qed.
Lemma c49_named f v t : number (VFloat f) v -> infer_freq (VFloat f) tol_1e1 = Ok t ->
  exists s, In (s, Some t) freq_steps /\ Rabs (IZR s - v) <= IZR s * / 10 + / 100.
Proof.
  intros N. unfold infer_freq. assert (ALL : forall x, In x freq_steps -> step_of (fst x)) by (intros; apply in_map; auto).
  revert ALL. induction freq_steps as [|[s name] l IH]; cbn [infer_freq_from]; intros ALL H; [discriminate|].
  apply bind_ok in H as [b [E H]]. destruct b.
  - destruct name; inversion H; subst. exists s. split; [left; auto|]. eapply step_only; eauto. apply (ALL (s, Some t)). left. auto.
  - destruct IH as [s' [I J]]; auto; [intros; apply ALL; right; auto|]. exists s'. split; [right|]; auto.
Qed.

(** ** the average step *)
Lemma round_between x n lo hi : (0 < n -> lo * n <= x -> x <= hi * n -> lo <= divide_and_round x n <= hi)%Z.
Proof.
  intros N L H. unfold divide_and_round. cbv zeta. pose proof (Z.div_mod x n) as D. pose proof (Z.mod_pos_bound x n N) as M.
  assert (Q1 : (lo <= x / n)%Z) by (apply Z.div_le_lower_bound; lia).
  assert (Q2 : (x / n <= hi)%Z) by (apply Z.div_le_upper_bound; lia).
  destruct ((n <? 2 * (x mod n)) || ((2 * (x mod n) =? n) && Z.odd (x / n)))%Z eqn:E; [|lia].
  assert (0 < x mod n)%Z by lia. enough (x / n < hi)%Z by lia. nia.
Qed.
Lemma round_nearest x n : (0 < n)%Z ->
  (2 * Z.abs (divide_and_round x n * n - x) <= n /\ (2 * Z.abs (divide_and_round x n * n - x) = n -> Z.even (divide_and_round x n) = true))%Z.
Proof.
  intros N. unfold divide_and_round. cbv zeta. pose proof (Z.div_mod x n) as D. pose proof (Z.mod_pos_bound x n N) as M.
  assert (E : (x = n * (x / n) + x mod n)%Z) by lia. clear D. set (q := (x / n)%Z) in *. set (r := (x mod n)%Z) in *. clearbody q r.
  destruct ((n <? 2 * r) || ((2 * r =? n) && Z.odd q))%Z eqn:C.
  - replace ((q + 1) * n - x)%Z with (n - r)%Z by lia. split; [lia|]. intros T. rewrite Z.even_add. change (Z.even 1) with false. rewrite <- Z.negb_odd. destruct (Z.odd q); [reflexivity|]. lia.
  - replace (q * n - x)%Z with (- r)%Z by lia. split; [lia|]. intros T. rewrite <- Z.negb_odd. destruct (Z.odd q); [|reflexivity]. lia.
Qed.
Lemma average_nearest index a b : hd_error index = Some a -> hd_error (rev index) = Some b ->
  let span := ((dt_secs b - dt_secs a) * 1000000)%Z in let size := Z.of_nat (List.length index) in
  exists us, (2 * Z.abs (us * size - span) <= size /\ (2 * Z.abs (us * size - span) = size -> Z.even us = true))%Z /\
    serial_freq index = infer_freq (VFloat (float_of_dec (us <? 0)%Z (Z.abs us) (-6))) tol_1e1.
Proof.
  intros A B span size. exists (divide_and_round span size).
  destruct index as [|x index]; [discriminate|]. destruct (round_nearest span size) as [R1 R2]; [unfold size; cbn [List.length]; lia|]. split; [split; auto|].
  unfold serial_freq. destruct (rev (x :: index)) as [|y r]; [discriminate|]. injection A as ->. injection B as ->. reflexivity.
Qed.
Lemma average_ok a b n lo hi : (0 < n)%Z -> (0 < lo)%Z -> (hi <= 2 ^ 40)%Z ->
  (lo * n <= dt_secs b - dt_secs a <= hi * n)%Z ->
  exists v, number (VFloat (average_seconds a b n)) v /\ IZR lo <= v <= IZR hi.
Proof.
  intros N L H B. unfold average_seconds. set (us := divide_and_round ((dt_secs b - dt_secs a) * 1000000) n).
  destruct (round_between ((dt_secs b - dt_secs a) * 1000000) n (lo * 1000000) (hi * 1000000)) as [U1 U2]; [lia|lia|lia|]. fold us in U1, U2.
  replace (us <? 0)%Z with false by lia. rewrite Z.abs_eq by lia.
  assert (X : IZR lo <= IZR us / IZR (10 ^ (- -6)) <= IZR hi).
  { change (10 ^ (- -6))%Z with 1000000%Z. apply IZR_le in U1, U2. rewrite mult_IZR in U1, U2. lra. }
  assert (Y : IZR lo <= nearest (IZR us / IZR (10 ^ (- -6))) <= IZR hi) by (split; [apply nearest_ge_int|apply nearest_le_int]; try lia; tauto).
  destruct (of_dec_ok us (-6)) as [F V]; [lia|lia| |].
  - assert (0 < IZR lo) by (apply IZR_lt; lia). rewrite Rabs_pos_eq by lra.
    eapply Rle_lt_trans; [apply Y|]. pose proof (small_big hi). rewrite Rabs_pos_eq in H1 by lra. apply H1. lia.
  - eexists. split; [constructor; exact F|]. rewrite V. exact Y.
Qed.
Lemma serial_ok index a b s name lo hi : hd_error index = Some a -> hd_error (rev index) = Some b ->
  In (s, name) freq_steps -> (9 * s <= 10 * lo)%Z -> (10 * hi <= 11 * s)%Z -> (0 < lo)%Z -> (hi <= 2 ^ 40)%Z ->
  (lo * Z.of_nat (List.length index) <= dt_secs b - dt_secs a <= hi * Z.of_nat (List.length index))%Z ->
  serial_freq index = match name with Some t => Ok t | None => Err EOther end.
Proof.
  intros A B I L1 L2 P Q D. unfold serial_freq. destruct index as [|x index]; [discriminate|].
  cbn [hd_error] in A. inversion A; subst x. destruct (rev (a :: index)) as [|y r] eqn:R; [discriminate|]. cbn in B. inversion B; subst y.
  destruct (average_ok a b (Z.of_nat (List.length (a :: index))) lo hi) as [v [N V]]; auto; [cbn [List.length]; lia|].
  eapply c49_infer; eauto.
  - assert (0 < IZR lo) by (apply IZR_lt; lia). lra.
  - apply IZR_le in L1, L2. rewrite !mult_IZR in L1, L2. apply Rabs_le. lra.
Qed.

(** ** regular series *)
Local Open Scope Z_scope.
Lemma ord_linear y m : 1 <= m <= 12 ->
  -20000 <= 4800 * (ymd2ord y m 1 + 397) - 146097 * (12 * y + m) <= 28000.
Proof.
  intros M. unfold ymd2ord, days_before_month, days_before_year. set (l := if _ && _ then 1 else 0).
  assert (L : 0 <= l <= 1) by (unfold l; destruct (_ && _); lia). clearbody l.
  set (z := y - 1). replace y with (z + 1) by lia. clearbody z. clear y.
  assert (Y : -9600 <= 4800 * (z * 365 + z / 4 - z / 100 + z / 400) - 1753164 * z <= 4800) by divs.
  set (d := z * 365 + z / 4 - z / 100 + z / 400) in *. clearbody d.
  assert (C : In m [1; 2; 3; 4; 5; 6; 7; 8; 9; 10; 11; 12]) by (cbn; lia).
  cbn [In] in C. destruct C as [<-|[<-|[<-|[<-|[<-|[<-|[<-|[<-|[<-|[<-|[<-|[<-|[]]]]]]]]]]]]];
    match goal with |- context [cum_days ?k] => let v := eval vm_compute in (cum_days k) in change (cum_days k) with v end; lia.
Qed.
Lemma months_days k a b : real_date a -> months_after k a b -> 
  146097 * k - 4800 * 13 <= 4800 * (dt_ord b - dt_ord a) <= 146097 * k + 4800 * 10.
Proof.
  intros R [E [M [_ [len [L D]]]]]. pose proof (real_day_ok _ R) as [Ma Da]. pose proof (dim_range (dt_y a) (dt_m a)) as DR.
  pose proof (month_length_range _ _ _ L) as LR.
  pose proof (ord_linear (dt_y a) (dt_m a) Ma) as A. pose proof (ord_linear (dt_y b) (dt_m b) M) as B.
  unfold dt_ord, ymd2ord in *. lia.
Qed.
Lemma months_secs k a b : real_date a -> months_after k a b -> dt_secs b - dt_secs a = 86400 * (dt_ord b - dt_ord a).
Proof. intros R [_ [_ [S _]]]. unfold dt_secs. lia. Qed.
Lemma days_secs k a b : real_date a -> days_after k a b -> dt_secs b - dt_secs a = 86400 * Z.of_nat k.
Proof. intros R H. destruct (days_after_ord _ _ _ (real_day_ok _ R) H) as [_ [O [S _]]]. unfold dt_secs. lia. Qed.

(** first and last dates of a series with [n] dates [k] days (months) apart *)
Lemma regular_days index a b n k name : hd_error index = Some a -> hd_error (rev index) = Some b -> List.length index = S n ->
  (11 <= n)%nat -> real_date a -> days_after (n * k) a b -> (0 < k)%nat -> In (86400 * Z.of_nat k, name) freq_steps ->
  serial_freq index = match name with Some t => Ok t | None => Err EOther end.
Proof.
  intros A B N G R D K I. pose proof (days_secs _ _ _ R D) as S.
  assert (KK : In (86400 * Z.of_nat k) (map fst freq_steps)) by (apply in_map_iff; eexists; split; [|exact I]; auto).
  assert (K2 : Z.of_nat k <= 365) by (cbn [map fst freq_steps In] in KK; lia).
  eapply (serial_ok index a b (86400 * Z.of_nat k) name (77760 * Z.of_nat k) (86400 * Z.of_nat k)); auto; try lia.
  rewrite N, S. nia.
Qed.
Lemma regular_months index a b n k s name : hd_error index = Some a -> hd_error (rev index) = Some b -> List.length index = S n ->
  (11 <= n)%nat -> real_date a -> months_after (Z.of_nat n * k) a b ->
  In (k, s, name) [(1, 2419200, Some (T "MS")); (3, 7776000, Some (T "QS")); (6, 15552000, None); (12, 31536000, Some (T "AS"))] ->
  serial_freq index = match name with Some t => Ok t | None => Err EOther end.
Proof.
  intros A B N G R D I. pose proof (months_secs _ _ _ R D) as S. pose proof (months_days _ _ _ R D) as O.
  assert (J : In (s, name) freq_steps). { cbn [In] in I. destruct I as [I|[I|[I|[I|[]]]]]; inversion I; subst; cbn; tauto. }
  cbn [In] in I. destruct I as [I|[I|[I|[I|[]]]]]; inversion I; subst k s name.
  - apply (serial_ok index a b 2419200 (Some (T "MS")) 2177280 2661120); auto; lia.
  - apply (serial_ok index a b 7776000 (Some (T "QS")) 6998400 8553600); auto; lia.
  - apply (serial_ok index a b 15552000 None 13996800 17107200); auto; lia.
  - apply (serial_ok index a b 31536000 (Some (T "AS")) 28382400 34689600); auto; lia.
Qed.
