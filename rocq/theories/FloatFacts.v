(** Float operations are correctly rounded (from Flocq). *)
From Coq Require Import Reals Lra.
From Flocq Require Import Core.
From Flocq Require Import IEEE754.BinarySingleNaN.
From Verif Require Import Base Comparing SpecFloats.
Local Open Scope R_scope.

Lemma Hp : Prec_gt_0 prec. Proof. reflexivity. Qed.
Lemma Hm : Prec_lt_emax prec emax. Proof. reflexivity. Qed.
Global Existing Instance Hp.
Global Existing Instance Hm.

Lemma rne_eq s m l : round_nearest_even m l = choice_mode mode_NE s m l.
Proof. case l; [reflexivity|intro c]. case c; [|reflexivity..]. now simpl; unfold Round.cond_incr; case Z.even. Qed.
Lemma bra_eq sx mx ex lx :
  SpecFloat.binary_round_aux prec emax sx mx ex lx = BinarySingleNaN.binary_round_aux prec emax mode_NE sx mx ex lx.
Proof.
  unfold SpecFloat.binary_round_aux, BinarySingleNaN.binary_round_aux.
  set (mrse' := shr_fexp _ _ _). case mrse'; intros mrs' e'; simpl. now rewrite (rne_eq sx).
Qed.
Lemma br_eq s m e : SpecFloat.binary_round prec emax s m e = BinarySingleNaN.binary_round prec emax mode_NE s m e.
Proof.
  unfold SpecFloat.binary_round, BinarySingleNaN.binary_round, shl_align_fexp.
  set (mez := shl_align _ _ _); case mez as [mz ez]. apply bra_eq.
Qed.
Lemma bn_eq m e szero : SpecFloat.binary_normalize prec emax m e szero =
  B2SF (BinarySingleNaN.binary_normalize prec emax Hp Hm mode_NE m e szero).
Proof. case m as [|p|p]; simpl; [reflexivity| |]; rewrite B2SF_SF2B; apply br_eq. Qed.
Lemma mul_eq x y : SFmul prec emax (B2SF x) (B2SF y) = B2SF (Bmult mode_NE x y).
Proof.
  case x as [sx|sx| |sx mx ex Bx]; case y as [sy|sy| |sy my ey By]; [now trivial..|].
  simpl. rewrite B2SF_SF2B. apply bra_eq.
Qed.
Lemma sub_eq x y : SFsub prec emax (B2SF x) (B2SF y) = B2SF (Bminus mode_NE x y).
Proof.
  case x as [sx|sx| |sx mx ex Bx]; case y as [sy|sy| |sy my ey By];
    [now (trivial || simpl; case Bool.eqb)..|].
  simpl. unfold Zminus. rewrite <- cond_Zopp_negb. apply bn_eq.
Qed.

(** a finite float as one of Flocq's *)
Definition toB f (H : finite f) : binary_float prec emax := SF2B f (proj1 H).
Lemma toB_SF f H : B2SF (toB f H) = f. Proof. apply B2SF_SF2B. Qed.
Lemma toB_R f H : B2R (toB f H) = value f. Proof. apply B2R_SF2B. Qed.
Lemma toB_fin f (H : finite f) : is_finite (toB f H) = true.
Proof. unfold toB. rewrite is_finite_SF2B. apply H. Qed.
Lemma finite_B2SF (x : binary_float prec emax) : is_finite x = true -> finite (B2SF x).
Proof. intros H. split; [apply valid_binary_B2SF|]. now rewrite is_finite_SF_B2SF. Qed.
Lemma value_B2SF (x : binary_float prec emax) : value (B2SF x) = B2R x. Proof. apply SF2R_B2SF. Qed.

Definition big : R := bpow radix2 1024.

Lemma sub_ok f g : finite f -> finite g ->
  let z := SFsub prec emax f g in
  (Rabs (nearest (value f - value g)) < big -> finite z /\ value z = nearest (value f - value g)) /\
  (big <= Rabs (nearest (value f - value g)) -> exists s, z = S754_infinity s).
Proof.
  intros F G z. pose proof (Bminus_correct prec emax Hp Hm mode_NE (toB f F) (toB g G) (toB_fin _ _) (toB_fin _ _)) as H.
  rewrite !toB_R in H. unfold z.
  assert (E : SFsub prec emax f g = B2SF (Bminus mode_NE (toB f F) (toB g G))) by (rewrite <- sub_eq, !toB_SF; auto).
  rewrite E. change (round radix2 (SpecFloat.fexp prec emax) (round_mode mode_NE)) with nearest in H.
  change (bpow radix2 emax) with big in H. split; intros K.
  - rewrite Rlt_bool_true in H by auto. destruct H as [H1 [H2 _]]. split; [apply finite_B2SF; auto|]. rewrite value_B2SF. auto.
  - rewrite Rlt_bool_false in H by auto. destruct H as [H _]. rewrite H. eexists. reflexivity.
Qed.
Lemma mul_ok f g : finite f -> finite g ->
  let z := SFmul prec emax f g in
  (Rabs (nearest (value f * value g)) < big -> finite z /\ value z = nearest (value f * value g)) /\
  (big <= Rabs (nearest (value f * value g)) -> z = S754_infinity (xorb (sign_SF f) (sign_SF g))).
Proof.
  intros F G z. pose proof (Bmult_correct prec emax Hp Hm mode_NE (toB f F) (toB g G)) as H.
  rewrite !toB_R in H. unfold z. 
  assert (E : SFmul prec emax f g = B2SF (Bmult mode_NE (toB f F) (toB g G))) by (rewrite <- mul_eq, !toB_SF; auto).
  rewrite E. change (round radix2 (SpecFloat.fexp prec emax) (round_mode mode_NE)) with nearest in H.
  change (bpow radix2 emax) with big in H. split; intros K.
  - rewrite Rlt_bool_true in H by auto. destruct H as [H1 [H2 _]]. rewrite !toB_fin in H2. split; [apply finite_B2SF; auto|]. rewrite value_B2SF. auto.
  - rewrite Rlt_bool_false in H by auto. rewrite H. unfold toB. rewrite !Bsign_SF2B. reflexivity.
Qed.
Lemma leb_ok f g : finite f -> finite g -> (SFleb f g = true <-> value f <= value g).
Proof.
  intros F G. pose proof (Bleb_correct _ _ (toB f F) (toB g G) (toB_fin _ _) (toB_fin _ _)) as H.
  unfold Bleb in H. rewrite !toB_R, !toB_SF in H. rewrite H. case Rle_bool_spec; intros; split; intros; auto; try discriminate; lra.
Qed.
Lemma abs_ok f : finite f -> finite (SFabs f) /\ value (SFabs f) = Rabs (value f).
Proof.
  intros F. assert (E : SFabs f = B2SF (Babs (toB f F))).
  { unfold toB. pose proof (B2SF_SF2B _ _ f (proj1 F)) as X. set (b := SF2B f (proj1 F)) in *. clearbody b. subst f. destruct b; reflexivity. }
  rewrite E. split; [apply finite_B2SF; rewrite is_finite_Babs; apply toB_fin|].
  rewrite value_B2SF, B2R_Babs, toB_R. auto.
Qed.

(** ** rounding *)
Lemma nearest_le x y : x <= y -> nearest x <= nearest y.
Proof. intros H. apply round_le; auto with typeclass_instances. Qed.
Lemma nearest_abs x : Rabs (nearest x) = nearest (Rabs x).
Proof. unfold nearest. symmetry. apply round_NE_abs; typeclasses eauto. Qed.
Lemma nearest_finite f : finite f -> nearest (value f) = value f.
Proof.
  intros F. rewrite <- (toB_R f F). apply round_generic; [auto with typeclass_instances|].
  apply (generic_format_B2R prec emax (toB f F)).
Qed.
Lemma small_int_format z : (Z.abs z <= 2 ^ 53)%Z -> generic_format radix2 (FLT_exp (-1074) 53) (IZR z).
Proof.
  intros H. destruct (Z.eq_dec (Z.abs z) (2 ^ 53)) as [E|E].
  - assert (P : generic_format radix2 (FLT_exp (-1074) 53) (bpow radix2 53)) by (apply generic_format_bpow; unfold FLT_exp; lia).
    change (bpow radix2 53) with (IZR (2 ^ 53)) in P.
    destruct (Z.abs_eq_or_opp z) as [A|A]; rewrite E in A; [rewrite <- A; auto|].
    replace z with (- 2 ^ 53)%Z by lia. rewrite opp_IZR. apply generic_format_opp. auto.
  - apply generic_format_FLT. exists (Float radix2 z 0); [|cbn; change (Zpower_pos 2 53) with (2 ^ 53)%Z; lia|cbn; lia].
    unfold F2R. cbn. ring.
Qed.
Lemma nearest_int z : (Z.abs z <= 2 ^ 53)%Z -> nearest (IZR z) = IZR z.
Proof. intros H. apply round_generic; [auto with typeclass_instances|apply small_int_format; auto]. Qed.
Lemma nearest_ge_int z x : (Z.abs z <= 2 ^ 53)%Z -> IZR z <= x -> IZR z <= nearest x.
Proof. intros H L. rewrite <- (nearest_int z) by auto. apply nearest_le. auto. Qed.
Lemma nearest_le_int z x : (Z.abs z <= 2 ^ 53)%Z -> x <= IZR z -> nearest x <= IZR z.
Proof. intros H L. rewrite <- (nearest_int z) by auto. apply nearest_le. auto. Qed.
Lemma nearest_0 : nearest 0 = 0.
Proof. apply (nearest_int 0). lia. Qed.
Lemma small_big z : (Z.abs z <= 2 ^ 53)%Z -> Rabs (IZR z) < big.
Proof.
  intros H. rewrite <- abs_IZR. apply Rle_lt_trans with (IZR (2 ^ 53)); [apply IZR_le; auto|].
  change (IZR (2 ^ 53)) with (bpow radix2 53). apply bpow_lt. lia.
Qed.

(** ** conversions *)
Lemma of_Z_small z : (Z.abs z <= 2 ^ 53)%Z -> finite (float_of_Z z) /\ value (float_of_Z z) = IZR z.
Proof.
  intros H. unfold float_of_Z. rewrite bn_eq.
  pose proof (binary_normalize_correct prec emax Hp Hm mode_NE z 0 false) as C. cbv zeta in C.
  assert (E : F2R (Float radix2 z 0) = IZR z) by (unfold F2R; cbn; ring). rewrite E in C.
  change (round radix2 (SpecFloat.fexp prec emax) (round_mode mode_NE)) with nearest in C. change (bpow radix2 emax) with big in C.
  rewrite nearest_int in C by auto. rewrite Rlt_bool_true in C by (apply small_big; auto).
  destruct C as [C1 [C2 _]]. split; [apply finite_B2SF; auto|rewrite value_B2SF; auto].
Qed.
Lemma Z_le_ok z f : finite f -> (Z_le_float z f = true <-> IZR z <= value f).
Proof.
  intros F. unfold Z_le_float, value, SF2R. destruct f as [s|s| |s m e]; try (destruct F; discriminate).
  - rewrite Z.leb_le. split; [apply IZR_le|apply le_IZR].
  - rewrite F2R_cond_Zopp. unfold F2R. cbn [Fnum Fexp].
    assert (S : IZR (if s then Zneg m else Zpos m) = cond_Ropp s (IZR (Zpos m))) by (destruct s; reflexivity).
    set (sm := if s then Zneg m else Zpos m) in *.
    replace (cond_Ropp s (IZR (Zpos m) * bpow radix2 e)) with (IZR sm * bpow radix2 e) by (rewrite S; destruct s; cbn; ring).
    destruct (Z.leb_spec 0 e).
    + rewrite Z.leb_le. rewrite <- (IZR_Zpower radix2 e) by lia. rewrite <- mult_IZR. change (radix2 ^ e)%Z with (2 ^ e)%Z.
      split; [apply IZR_le|apply le_IZR].
    + rewrite Z.leb_le. 
      assert (P : 0 < bpow radix2 (- e)) by apply bpow_gt_0.
      assert (Q : bpow radix2 e * bpow radix2 (- e) = 1) by (rewrite <- bpow_plus; replace (e + - e)%Z with 0%Z by lia; reflexivity).
      split; intros L.
      * apply IZR_le in L. rewrite mult_IZR in L. change (2 ^ - e)%Z with (radix2 ^ - e)%Z in L. rewrite IZR_Zpower in L by lia.
        apply Rmult_le_reg_r with (bpow radix2 (- e)); auto. rewrite Rmult_assoc, Q, Rmult_1_r. auto.
      * apply le_IZR. rewrite mult_IZR. change (2 ^ - e)%Z with (radix2 ^ - e)%Z. rewrite IZR_Zpower by lia.
        apply Rmult_le_compat_r with (r := bpow radix2 (- e)) in L; [|lra]. rewrite Rmult_assoc, Q, Rmult_1_r in L. auto.
Qed.

(** a decimal with at most so many digits is correctly rounded *)
Lemma of_dec_ok m e : (0 < m)%Z -> (e < 0)%Z ->
  let x := IZR m / IZR (10 ^ (- e)) in
  Rabs (nearest x) < big -> finite (float_of_dec false m e) /\ value (float_of_dec false m e) = nearest x.
Proof.
  intros M E x B. destruct m as [|m|m]; try lia. unfold float_of_dec.
  destruct (Z.leb_spec 0 e); [lia|]. 
  assert (T : (0 < 10 ^ (- e))%Z) by (apply Z.pow_pos_nonneg; lia).
  set (d := (10 ^ (- e))%Z) in *. destruct d as [|d|d]; try lia.
  pose proof (Bdiv_correct_aux prec emax Hp Hm mode_NE false m 0 false d 0) as C. cbv zeta in C. cbn [cond_Zopp xorb] in C.
  assert (X : F2R (Float radix2 (Zpos m) 0) / F2R (Float radix2 (Zpos d) 0) = x) by (unfold F2R, x; cbn; rewrite !Rmult_1_r; auto).
  rewrite X in C. change (round radix2 (SpecFloat.fexp prec emax) (round_mode mode_NE)) with nearest in C.
  change (bpow radix2 emax) with big in C. rewrite Rlt_bool_true in C by auto.
  destruct (SFdiv_core_binary prec emax (Zpos m) 0 (Zpos d) 0) as [[mz ez] lz]. rewrite bra_eq.
  destruct C as [C1 [C2 [C3 _]]]. split; [split; auto|]. exact C2.
Qed.
