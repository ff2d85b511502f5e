(** Numbers written in cells are read as the closest float (C53). *)
From Coq Require Import Reals Lra.
From Flocq Require Import Core.
From Flocq Require Import IEEE754.BinarySingleNaN.
From Verif Require Import Base Comparing SpecFloats FloatFacts SpecRound.
Local Open Scope R_scope.

Lemma closest_nearest x f : finite f -> value f = nearest x -> closest x f.
Proof.
  intros F E. split; auto. intros g G. rewrite E.
  pose proof (round_N_pt radix2 (FLT_exp (-1074) 53) (fun n => negb (Z.even n)) x) as [_ N].
  apply N. rewrite <- (toB_R g G). apply (generic_format_B2R prec emax (toB g G)).
Qed.
Lemma beyond_nearest x : big <= Rabs (nearest x) -> forall g, finite g -> Rabs (value g) <= Rabs x.
Proof.
  intros B g G. destruct (Rle_lt_dec (Rabs (value g)) (Rabs x)) as [|L]; auto. exfalso.
  rewrite nearest_abs in B. pose proof (nearest_le _ _ (Rlt_le _ _ L)) as N.
  rewrite <- (nearest_abs (value g)), (nearest_finite g G) in N.
  pose proof (abs_B2R_lt_emax prec emax (toB g G)) as U. rewrite toB_R in U. change (bpow radix2 emax) with big in U. lra.
Qed.
Lemma overflow_shape s : binary_overflow prec emax mode_NE s = S754_infinity s.
Proof. destruct s; reflexivity. Qed.
Lemma of_Z_rounded z szero : best (IZR z) (SpecFloat.binary_normalize prec emax z 0 szero).
Proof.
  rewrite bn_eq.
  pose proof (binary_normalize_correct prec emax Hp Hm mode_NE z 0 szero) as C. cbv zeta in C.
  assert (E : F2R (Float radix2 z 0) = IZR z) by (unfold F2R; cbn; ring). rewrite E in C.
  change (round radix2 (SpecFloat.fexp prec emax) (round_mode mode_NE)) with nearest in C. change (bpow radix2 emax) with big in C.
  destruct (Rlt_bool_spec (Rabs (nearest (IZR z))) big) as [L|L].
  - destruct C as [C1 [C2 _]]. left. apply closest_nearest; [apply finite_B2SF; auto|rewrite value_B2SF; auto].
  - rewrite overflow_shape in C. rewrite C. destruct (Rlt_bool_spec (IZR z) 0) as [N|N].
    + right. right. split; auto. split; auto. apply beyond_nearest; auto.
    + right. left. split; auto. split; [|apply beyond_nearest; auto]. destruct N as [N|N]; auto. exfalso.
      rewrite <- N, nearest_0, Rabs_R0 in L. pose proof (bpow_gt_0 radix2 1024). unfold big in L. lra.
Qed.
Lemma pow10_pos e : (0 <= e)%Z -> IZR (10 ^ e) = powerRZ 10 e.
Proof. intros E. rewrite <- (Z2Nat.id e) by auto. rewrite <- pow_IZR. rewrite <- pow_powerRZ. reflexivity. Qed.
Lemma best_zero s : closest 0 (S754_zero s).
Proof. apply closest_nearest; [split; reflexivity|]. rewrite nearest_0. reflexivity. Qed.
Lemma of_dec_rounded neg m e : (0 <= m)%Z -> best (decimal_value neg m e) (float_of_dec neg m e).
Proof.
  intros M. unfold decimal_value, float_of_dec. destruct m as [|m|m]; [|clear M|lia].
  { left. rewrite Rmult_0_r, Rmult_0_l. apply best_zero. }
  destruct (Z.leb_spec 0 e) as [E|E].
  - replace ((if neg then -1 else 1) * IZR (Zpos m) * powerRZ 10 e) with (IZR (if neg then - (Zpos m * 10 ^ e) else Zpos m * 10 ^ e)).
    + apply of_Z_rounded.
    + rewrite <- pow10_pos by auto. destruct neg; [rewrite opp_IZR|]; rewrite mult_IZR; ring.
  - assert (T : (0 < 10 ^ (- e))%Z) by (apply Z.pow_pos_nonneg; lia).
    set (x := (if neg then -1 else 1) * IZR (Zpos m) * powerRZ 10 e).
    assert (X : x = (if neg then -1 else 1) * IZR (Zpos m) / IZR (10 ^ (- e))).
    { unfold x. rewrite pow10_pos by lia. unfold Rdiv. f_equal. rewrite powerRZ_neg' . rewrite Rinv_inv. reflexivity. }
    set (d := (10 ^ (- e))%Z) in *. destruct d as [|d|d]; try lia.
    pose proof (Bdiv_correct_aux prec emax Hp Hm mode_NE neg m 0 false d 0) as C. cbv zeta in C. rewrite xorb_false_r in C.
    assert (X' : F2R (Float radix2 (cond_Zopp neg (Zpos m)) 0) / F2R (Float radix2 (cond_Zopp false (Zpos d)) 0) = x).
    { rewrite X. unfold F2R. cbn [Fnum Fexp bpow cond_Zopp]. rewrite !Rmult_1_r. f_equal. destruct neg; cbn [cond_Zopp]; [rewrite opp_IZR|]; ring. }
    rewrite X' in C. change (round radix2 (SpecFloat.fexp prec emax) (round_mode mode_NE)) with nearest in C.
    change (bpow radix2 emax) with big in C.
    destruct (SFdiv_core_binary prec emax (Zpos m) 0 (Zpos d) 0) as [[mz ez] lz]. rewrite bra_eq.
    destruct C as [CV C]. destruct (Rlt_bool_spec (Rabs (nearest x)) big) as [L|L].
    + destruct C as [C1 [C2 _]]. left. apply closest_nearest; auto. split; auto.
    + rewrite overflow_shape in C. rewrite C.
      assert (PX : 0 < IZR (Zpos m) / IZR (Zpos d)) by (apply Rdiv_lt_0_compat; apply IZR_lt; reflexivity).
      unfold Rdiv in *. rewrite Rmult_assoc in X. destruct neg; right; [right|left]; (split; [reflexivity|]; split; [|apply beyond_nearest; auto]); rewrite X; lra.
Qed.
