(** Approximate comparison of numbers (C47). *)
From Coq Require Import Reals Lra.
From Flocq Require Import Core Relative.
From Flocq Require Import IEEE754.BinarySingleNaN.
From Verif Require Import Base BaseFacts Comparing SpecFloats FloatFacts.
Local Open Scope R_scope.

Lemma float_eq_ok z f : finite f -> (float_eq_Z f z = true <-> value f = IZR z).
Proof.
  intros F. unfold float_eq_Z, value, SF2R. destruct f as [s|s| |s m e]; try (destruct F; discriminate).
  - rewrite Z.eqb_eq. split; [intros ->; auto|intros H; apply eq_IZR in H; auto].
  - rewrite F2R_cond_Zopp. unfold F2R. cbn [Fnum Fexp].
    assert (S : IZR (if s then Zneg m else Zpos m) = cond_Ropp s (IZR (Zpos m))) by (destruct s; reflexivity).
    set (sm := if s then Zneg m else Zpos m) in *.
    replace (cond_Ropp s (IZR (Zpos m) * bpow radix2 e)) with (IZR sm * bpow radix2 e) by (rewrite S; destruct s; cbn; ring).
    destruct (Z.leb_spec 0 e).
    + rewrite Z.eqb_eq. rewrite <- (IZR_Zpower radix2 e) by lia. rewrite <- mult_IZR. change (radix2 ^ e)%Z with (2 ^ e)%Z.
      split; [intros ->; auto|intros X; apply eq_IZR in X; auto].
    + rewrite Z.eqb_eq.
      assert (P : 0 < bpow radix2 (- e)) by apply bpow_gt_0.
      assert (Q : bpow radix2 e * bpow radix2 (- e) = 1) by (rewrite <- bpow_plus; replace (e + - e)%Z with 0%Z by lia; reflexivity).
      split; intros L.
      * rewrite L, mult_IZR. change (2 ^ - e)%Z with (radix2 ^ - e)%Z. rewrite IZR_Zpower by lia.
        rewrite Rmult_assoc, (Rmult_comm (bpow _ _)), Q. ring.
      * apply eq_IZR. rewrite mult_IZR. change (2 ^ - e)%Z with (radix2 ^ - e)%Z. rewrite IZR_Zpower by lia.
        rewrite <- L, Rmult_assoc, Q. ring.
Qed.
Lemma eqb_ok f g : finite f -> finite g -> (SFeqb f g = true <-> value f = value g).
Proof.
  intros F G. pose proof (Beqb_correct _ _ (toB f F) (toB g G) (toB_fin _ _) (toB_fin _ _)) as H.
  unfold Beqb in H. rewrite !toB_R, !toB_SF in H. rewrite H. case Req_bool_spec; intros; split; intros; auto; try discriminate; lra.
Qed.

Lemma num_conv v x : number v x -> exists f, num_float v = Ok f /\ finite f /\ value f = x.
Proof.
  intros N. inversion N; subst.
  - exists f. auto.
  - destruct (of_Z_small z) as [A B]; [lia|]. exists (float_of_Z z). split; auto. unfold num_float, py_float.
    replace (finite_or_zero (float_of_Z z)) with true; auto. destruct A as [_ A]. destruct (float_of_Z z); auto; discriminate.
  - destruct (of_Z_small (bZ b)) as [A B]; [destruct b; cbn; lia|]. exists (float_of_Z (bZ b)). split; auto. split; auto.
    rewrite B. destruct b; auto.
Qed.
Lemma num_eq a b x y : number a x -> number b y -> (py_eq a b = true <-> x = y).
Proof.
  intros A B. inversion A; inversion B; subst; cbn [py_eq].
  - apply eqb_ok; auto.
  - apply float_eq_ok; auto.
  - rewrite float_eq_ok by auto. destruct b0; cbn; tauto.
  - rewrite float_eq_ok by auto. intuition.
  - rewrite Z.eqb_eq. split; [intros ->; auto|apply eq_IZR].
  - rewrite Z.eqb_eq. destruct b0; cbn; (split; [intros ->; auto|intros X; apply eq_IZR in X; auto]).
  - rewrite float_eq_ok by auto. destruct b0; cbn; intuition.
  - rewrite Z.eqb_eq. destruct b0; cbn; (split; [intros <-; auto|intros X; apply eq_IZR in X; auto]).
  - destruct b0, b1; cbn; split; auto; intros; try discriminate; lra.
Qed.
Lemma num_truthy a x : number a x -> (truthy a = true <-> x <> 0).
Proof.
  intros A. inversion A; subst; cbn [truthy].
  - destruct f as [s|s| |s m e]; try (destruct H; discriminate).
    + cbn. split; [discriminate|tauto].
    + split; auto. intros _. unfold value, SF2R. apply F2R_neq_0. destruct s; discriminate.
  - rewrite negb_true_iff, Z.eqb_neq. split; intros X Y; apply X; [apply eq_IZR in Y; auto|subst; auto].
  - destruct b; split; intros; auto; try discriminate; try lra.
Qed.
Lemma num_nostr a x : number a x -> is_str a = false.
Proof. intros A; inversion A; auto. Qed.
Lemma num_nan a x : number a x -> np_isnan a = Ok false.
Proof. intros A; inversion A; subst; auto. cbn. destruct f; auto. destruct H; discriminate. Qed.

(** what remains once the special cases are out of the way *)
Lemma approx_reduce a b x y tol : number a x -> number b y ->
  approx_equal a b tol = (if Req_bool x y then Ok true else if Req_bool x 0 || Req_bool y 0 then Err ENotImpl else approx_equal_ a b tol).
Proof.
  intros A B. unfold approx_equal. pose proof (num_eq _ _ _ _ A B) as E. case Req_bool_spec; intros X.
  - replace (py_eq a b) with true by (symmetry; apply E; auto). auto.
  - replace (py_eq a b) with false by (symmetry; apply not_true_iff_false; rewrite E; auto).
    rewrite (num_nostr _ _ A). cbn [andb]. pose proof (num_truthy _ _ A) as TA. pose proof (num_truthy _ _ B) as TB.
    rewrite (num_nan _ _ A). cbn [bind].
    case Req_bool_spec; intros X0; case Req_bool_spec; intros Y0; cbn [orb].
    + lra.
    + replace (truthy a) with false by (symmetry; apply not_true_iff_false; tauto).
      replace (truthy b) with true by (symmetry; tauto). auto.
    + replace (truthy b) with false by (symmetry; apply not_true_iff_false; tauto).
      replace (truthy a) with true by (symmetry; tauto). auto.
    + replace (truthy b) with true by (symmetry; tauto).
      replace (truthy a) with true by (symmetry; tauto). auto.
Qed.

Lemma sign_neg f : finite f -> sign_SF f = true -> value f <= 0.
Proof.
  intros F S. destruct f as [s|s| |s m e]; try (destruct F; discriminate); cbn in S; subst s; unfold value, SF2R; [lra|].
  apply F2R_le_0. cbn. lia.
Qed.
Lemma sign_pos f : finite f -> sign_SF f = false -> 0 <= value f.
Proof.
  intros F S. destruct f as [s|s| |s m e]; try (destruct F; discriminate); cbn in S; subst s; unfold value, SF2R; [lra|].
  apply F2R_ge_0. cbn. lia.
Qed.
Lemma mul_over f g : finite f -> finite g -> 0 < value f * value g -> big <= nearest (value f * value g) ->
  SFmul prec emax f g = S754_infinity false.
Proof.
  intros F G P B. destruct (mul_ok f g F G) as [_ H]. rewrite H.
  - f_equal. destruct (sign_SF f) eqn:S1, (sign_SF g) eqn:S2; auto; exfalso.
    + apply sign_neg in S1; auto. apply sign_pos in S2; auto. nra.
    + apply sign_neg in S2; auto. apply sign_pos in S1; auto. nra.
  - pose proof (Rle_abs (nearest (value f * value g))). lra.
Qed.
Lemma big_pos : 0 < big. Proof. apply bpow_gt_0. Qed.
Lemma nearest_big_pos x : big <= nearest x -> 0 < x.
Proof.
  intros H. destruct (Rlt_le_dec 0 x); auto. apply nearest_le in r. rewrite nearest_0 in r. pose proof big_pos. lra.
Qed.

Lemma approx__accepts a b x y tol : number a x -> number b y -> finite tol ->
  Rabs (x - y) <= value tol * x -> approx_equal_ a b tol = Ok true.
Proof.
  intros A B FT L. destruct (num_conv _ _ A) as [fa [CA [FA VA]]]. destruct (num_conv _ _ B) as [fb [CB [FB VB]]].
  unfold approx_equal_. rewrite CA, CB. cbn [bind].
  assert (P : 0 <= value tol * x) by (pose proof (Rabs_pos (x - y)); lra).
  assert (PN : 0 <= nearest (value tol * x)) by (rewrite <- nearest_0; apply nearest_le; auto).
  assert (I : forall p q, x = IZR p -> y = IZR q -> (- 2 ^ 52 <= p <= 2 ^ 52)%Z -> (- 2 ^ 52 <= q <= 2 ^ 52)%Z ->
    Z_le_float (Z.abs (p - q)) (SFmul prec emax tol fa) = true).
  { intros p q -> -> Hp Hq. rewrite <- minus_IZR, <- abs_IZR in L.
    assert (M : IZR (Z.abs (p - q)) <= nearest (value tol * IZR p)) by (apply nearest_ge_int; auto; lia).
    destruct (Rlt_le_dec (nearest (value tol * IZR p)) big) as [S|S].
    - destruct (mul_ok tol fa FT FA) as [H _]. rewrite VA in H. rewrite Rabs_pos_eq in H by auto.
      destruct (H S) as [H1 H2]. apply Z_le_ok; auto. rewrite H2. auto.
    - rewrite mul_over; auto; rewrite VA; auto. apply nearest_big_pos; auto. }
  assert (F : SFleb (SFabs (SFsub prec emax fa fb)) (SFmul prec emax tol fa) = true).
  { assert (M : nearest (Rabs (x - y)) <= nearest (value tol * x)) by (apply nearest_le; auto).
    rewrite <- nearest_abs in M.
    destruct (Rlt_le_dec (nearest (value tol * x)) big) as [S|S].
    - destruct (mul_ok tol fa FT FA) as [H _]. rewrite VA in H. rewrite Rabs_pos_eq in H by auto. destruct (H S) as [H1 H2].
      destruct (sub_ok fa fb FA FB) as [K _]. rewrite VA, VB in K. destruct K as [K1 K2]; [lra|].
      destruct (abs_ok _ K1) as [B1 B2]. apply leb_ok; auto. rewrite H2, B2, K2. auto.
    - rewrite mul_over; auto; [| |rewrite VA; auto]; [|rewrite VA; apply nearest_big_pos; auto].
      destruct (sub_ok fa fb FA FB) as [K1 K2]. rewrite VA, VB in *.
      destruct (Rlt_le_dec (Rabs (nearest (x - y))) big) as [Q|Q].
      + destruct (K1 Q) as [Q1 _]. apply abs_ok in Q1 as [[_ Q1] _]. destruct (SFabs _) as [s|s| |[] m e]; auto; discriminate.
      + destruct (K2 Q) as [s ->]. reflexivity. }
  inversion A; inversion B; subst; cbn [num_int]; rewrite ?F; auto; f_equal; apply I; auto; try (destruct b0; cbn; auto; lia); try (destruct b1; cbn; auto; lia).
Qed.
Lemma c47_accepts a b x y tol : number a x -> number b y -> finite tol -> x <> 0 -> y <> 0 ->
  Rabs (x - y) <= value tol * x -> approx_equal a b tol = Ok true.
Proof.
  intros A B F X Y L. rewrite (approx_reduce _ _ _ _ _ A B). case Req_bool_spec; auto. intros _.
  rewrite !Req_bool_false by auto. cbn [orb]. eapply approx__accepts; eauto.
Qed.

(** ** what acceptance says *)
Lemma nearest_err x : exists eps eta, Rabs eps <= bpow radix2 (-53) /\ Rabs eta <= bpow radix2 (-1075) /\
  nearest x = x * (1 + eps) + eta.
Proof.
  destruct (relative_error_N_FLT'_ex radix2 (-1074) 53 eq_refl (fun x => negb (Z.even x)) x) as [eps [eta [A [B [_ C]]]]].
  exists eps, eta. split; [|split; auto].
  - eapply Rle_trans; [exact A|]. pose proof (u_ro_pos radix2 53) as U.
    assert (E : u_ro radix2 53 = bpow radix2 (-53)). { unfold u_ro. change (/ 2) with (bpow radix2 (-1)). rewrite <- bpow_plus. reflexivity. }
    rewrite E in *. set (u := bpow radix2 (-53)) in *. clearbody u. unfold Rdiv. apply Rle_trans with (u * 1); [|lra]. apply Rmult_le_compat_l; [lra|]. rewrite <- Rinv_1 at 2. apply Rinv_le; lra.
  - eapply Rle_trans; [exact B|]. change (/ 2) with (bpow radix2 (-1)). rewrite <- bpow_plus. apply Rle_refl.
Qed.
Lemma nearest_close p q : 0 <= p -> nearest p <= nearest q -> p <= Rabs q * (1 + bpow radix2 (-51)) + bpow radix2 (-1073).
Proof.
  intros P L. destruct (nearest_err p) as [e1 [t1 [A1 [B1 C1]]]]. destruct (nearest_err q) as [e2 [t2 [A2 [B2 C2]]]].
  rewrite C1, C2 in L. pose proof (Rle_abs q) as Q. pose proof (Rabs_pos q) as Q0.
  assert (U : bpow radix2 (-51) = 4 * bpow radix2 (-53)). { change 4 with (bpow radix2 2). rewrite <- bpow_plus. reflexivity. }
  assert (V : bpow radix2 (-1073) = 4 * bpow radix2 (-1075)). { change 4 with (bpow radix2 2). rewrite <- bpow_plus. reflexivity. }
  assert (W : bpow radix2 (-53) <= / 1024). { change (/ 1024) with (bpow radix2 (-10)). apply bpow_le. lia. }
  pose proof (bpow_gt_0 radix2 (-53)). pose proof (bpow_gt_0 radix2 (-1075)).
  rewrite U, V. set (u := bpow radix2 (-53)) in *. set (v := bpow radix2 (-1075)) in *. clearbody u v.
  apply Rabs_le_inv in A1, A2, B1, B2.
  assert (L1 : p * (1 - u) - v <= Rabs q * (1 + u) + v).
  { assert (p * e1 >= - (p * u)) by nra. assert (q * e2 <= Rabs q * u). 
    { eapply Rle_trans; [apply Rle_abs|]. rewrite Rabs_mult. apply Rmult_le_compat_l; auto. apply Rabs_le. lra. }
    nra. }
  assert (L2 : (Rabs q * (1 + u) + 2 * v) <= (Rabs q * (1 + 4 * u) + 4 * v) * (1 - u)).
  { assert (0 <= Rabs q * (2 * u - 4 * u * u)) by (apply Rmult_le_pos; nra). nra. }
  apply Rmult_le_reg_r with (1 - u); lra.
Qed.

Lemma big_nearest x f : finite f -> Rabs x <= Rabs (value f) -> Rabs (nearest x) < big.
Proof.
  intros F L. rewrite nearest_abs. apply nearest_le in L. rewrite <- (nearest_abs (value f)), nearest_finite in L by auto.
  eapply Rle_lt_trans; [exact L|]. rewrite <- (toB_R f F). apply (abs_B2R_lt_emax prec emax (toB f F)).
Qed.

Lemma num_cases v x : number v x -> (exists p, num_int v = Some p /\ x = IZR p /\ (- 2 ^ 52 <= p <= 2 ^ 52)%Z) \/ num_int v = None.
Proof.
  intros N. inversion N; subst; cbn [num_int]; auto; left; eexists; (split; [reflexivity|]); auto.
  destruct b; cbn; split; auto; lia.
Qed.
Lemma c47_close a b x y tol : number a x -> number b y -> finite tol -> Rabs (value tol) <= 1 ->
  approx_equal a b tol = Ok true ->
  Rabs (x - y) <= Rabs (value tol * x) * (1 + bpow radix2 (-51)) + bpow radix2 (-1073).
Proof.
  intros A B FT T H.
  assert (POS : 0 <= Rabs (value tol * x) * (1 + bpow radix2 (-51)) + bpow radix2 (-1073)).
  { pose proof (Rabs_pos (value tol * x)). pose proof (bpow_gt_0 radix2 (-51)). pose proof (bpow_gt_0 radix2 (-1073)). nra. }
  rewrite (approx_reduce _ _ _ _ _ A B) in H. revert H. case Req_bool_spec; intros X.
  { intros _. subst y. rewrite Rminus_diag_eq by auto. rewrite Rabs_R0. auto. }
  destruct (_ || _); [discriminate|]. intros H.
  destruct (num_conv _ _ A) as [fa [CA [FA VA]]]. destruct (num_conv _ _ B) as [fb [CB [FB VB]]].
  assert (SM : Rabs (nearest (value tol * x)) < big).
  { apply big_nearest with fa; auto. rewrite VA, Rabs_mult. pose proof (Rabs_pos x). nra. }
  destruct (mul_ok tol fa FT FA) as [M _]. rewrite VA in M. destruct (M SM) as [M1 M2].
  assert (I : forall p q, x = IZR p -> y = IZR q -> (- 2 ^ 52 <= p <= 2 ^ 52)%Z -> (- 2 ^ 52 <= q <= 2 ^ 52)%Z ->
    Z_le_float (Z.abs (p - q)) (SFmul prec emax tol fa) = true ->
    Rabs (x - y) <= Rabs (value tol * x) * (1 + bpow radix2 (-51)) + bpow radix2 (-1073)).
  { intros p q -> -> Hp Hq Z. apply Z_le_ok in Z; auto. rewrite M2 in Z. rewrite <- minus_IZR, <- abs_IZR.
    apply nearest_close; [apply (IZR_le 0); lia|]. rewrite (nearest_int (Z.abs (p - q))) by lia. auto. }
  assert (F : SFleb (SFabs (SFsub prec emax fa fb)) (SFmul prec emax tol fa) = true ->
    Rabs (x - y) <= Rabs (value tol * x) * (1 + bpow radix2 (-51)) + bpow radix2 (-1073)).
  { intros Z. destruct (sub_ok fa fb FA FB) as [K1 K2]. rewrite VA, VB in *.
    destruct (Rlt_le_dec (Rabs (nearest (x - y))) big) as [Q|Q].
    - destruct (K1 Q) as [Q1 Q2]. destruct (abs_ok _ Q1) as [Q3 Q4]. apply leb_ok in Z; auto.
      rewrite M2, Q4, Q2, nearest_abs in Z. apply nearest_close; auto. apply Rabs_pos.
    - exfalso. destruct (K2 Q) as [s E]. rewrite E in Z. destruct M1 as [_ M1].
      destruct (SFmul prec emax tol fa) as [z|z| |z m e]; try discriminate; destruct z; discriminate. }
  unfold approx_equal_ in H. rewrite CA, CB in H. cbn [bind] in H.
  destruct (num_cases _ _ A) as [[p [Np [Xp Bp]]]|Np]; [destruct (num_cases _ _ B) as [[q [Nq [Xq Bq]]]|Nq]|];
    rewrite ?Np, ?Nq in H; inversion H as [HH]; [eapply I; eauto|apply F; auto|apply F; auto].
Qed.

(** ** swapping *)
Lemma c47_swap a b x y tol tol2 : number a x -> number b y -> finite tol -> finite tol2 ->
  bpow radix2 (-100) <= value tol <= / 4 -> 2 * value tol <= value tol2 -> bpow radix2 (-900) <= x ->
  approx_equal a b tol = Ok true -> approx_equal b a tol2 = Ok true.
Proof.
  intros A B F F2 T T2 X H.
  pose proof (bpow_gt_0 radix2 (-100)) as P1. pose proof (bpow_gt_0 radix2 (-900)) as P2.
  apply (c47_close _ _ _ _ _ A B F) in H; [|rewrite Rabs_pos_eq; lra].
  rewrite (Rabs_pos_eq (value tol * x)) in H by (apply Rmult_le_pos; lra).
  assert (U : bpow radix2 (-51) <= / 1024) by (change (/ 1024) with (bpow radix2 (-10)); apply bpow_le; lia).
  assert (V : bpow radix2 (-1073) <= value tol * x * / 1024).
  { assert (W : bpow radix2 (-100) * bpow radix2 (-900) <= value tol * x) by (apply Rmult_le_compat; lra).
    rewrite <- bpow_plus in W. change (/ 1024) with (bpow radix2 (-10)).
    eapply Rle_trans; [|apply Rmult_le_compat_r; [apply bpow_ge_0|exact W]]. rewrite <- bpow_plus. apply bpow_le. lia. }
  pose proof (bpow_gt_0 radix2 (-51)). pose proof (bpow_gt_0 radix2 (-1073)).
  set (t := value tol) in *. set (t2 := value tol2) in *. set (u := bpow radix2 (-51)) in *. set (v := bpow radix2 (-1073)) in *.
  set (w := bpow radix2 (-100)) in *. set (w2 := bpow radix2 (-900)) in *. clearbody u v w w2.
  assert (TX : 0 < t * x) by (apply Rmult_lt_0_compat; lra).
  assert (D : Rabs (x - y) <= t * x * (1 + / 512)) by nra. clear H U V.
  pose proof (Rabs_le_inv _ _ D) as D2. assert (Y : (3 / 4 - / 512) * x <= y) by nra.
  assert (LY : Rabs (y - x) <= t2 * y); [|eapply (c47_accepts b a y x); eauto; lra].
  rewrite Rabs_minus_sym. eapply Rle_trans; [exact D|]. 
  assert (2 * t * ((3 / 4 - / 512) * x) <= t2 * y) by (apply Rmult_le_compat; nra). nra.
Qed.
