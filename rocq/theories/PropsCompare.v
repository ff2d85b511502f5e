(** Theorems about comparing numbers and frames, and about inferring
    frequencies (C47 - C49).  They use the real numbers of the standard
    library, whose axioms Print Assumptions lists. *)
From Coq Require Import Reals Lra.
From Flocq Require Import Core.
From Verif Require Import Base BaseFacts Cal Comparing PeriodRange DataFrame Serial SpecCal SpecFloats SpecCompare
  CalFacts FloatFacts ComparingProofs InferProofs CompareProofs ScrapeProofs.
Local Open Scope R_scope.

Definition fl (m e : Z) : spec_float := float_of_dec false m e.

(** ** C47: approximate comparison *)

Definition scalar (v : pyval) : Prop :=
  match v with VNone | VBool _ | VInt _ | VFloat _ | VStr _ => True | _ => False end.
Theorem C47_reflexive : forall v tol, scalar v -> approx_equal v v tol = Ok true.
Proof.
  intros v tol S. destruct v; try (destruct S); try apply approx_refl; unfold approx_equal; cbn [py_eq].
  - reflexivity.
  - rewrite Bool.eqb_reflx. auto.
  - rewrite Z.eqb_refl. auto.
  - rewrite text_eqb_refl. auto.
Qed.
Print Assumptions C47_reflexive.
Example C47_reflexive_case : approx_equal (VFloat S754_nan) (VFloat S754_nan) tol_1e5 = Ok true.
Proof. reflexivity. Qed.

(** two numbers (floats, or ints up to 2^52) whose difference is within the
    tolerance times the first one are equal *)
Theorem C47_accepts : forall a b x y tol, number a x -> number b y -> finite tol -> x <> 0 -> y <> 0 ->
  Rabs (x - y) <= value tol * x -> approx_equal a b tol = Ok true.
Proof. exact c47_accepts. Qed.
Print Assumptions C47_accepts.

(** and nothing else is, up to the rounding of one subtraction and one product *)
Theorem C47_only_close : forall a b x y tol, number a x -> number b y -> finite tol -> Rabs (value tol) <= 1 ->
  approx_equal a b tol = Ok true ->
  Rabs (x - y) <= Rabs (value tol * x) * (1 + bpow radix2 (-51)) + bpow radix2 (-1073).
Proof. exact c47_close. Qed.
Print Assumptions C47_only_close.
Example C47_accepts_case : approx_equal (VInt 100000) (VFloat (fl 999995 (-1))) tol_1e5 = Ok true /\
  approx_equal (VInt 100000) (VFloat (fl 999985 (-1))) tol_1e5 = Ok false.
Proof. split; vm_compute; reflexivity. Qed.

(** symmetric up to doubling the tolerance, for positive numbers.  Missing for
    symmetry: it is false with the same tolerance, see the refutation. *)
Theorem C47_symmetric_partial : forall a b x y tol tol2, number a x -> number b y -> finite tol -> finite tol2 ->
  bpow radix2 (-100) <= value tol <= / 4 -> 2 * value tol <= value tol2 -> bpow radix2 (-900) <= x ->
  approx_equal a b tol = Ok true -> approx_equal b a tol2 = Ok true.
Proof. exact c47_swap. Qed.
Print Assumptions C47_symmetric_partial.
Example C47_symmetric_partial_case : approx_equal (VInt 10) (VInt 9) tol_1e1 = Ok true /\
  approx_equal (VInt 9) (VInt 10) (fl 2 (-1)) = Ok true.
Proof. split; vm_compute; reflexivity. Qed.

Theorem C47_symmetry_refuted : exists a b tol, finite tol /\
  approx_equal a b tol = Ok true /\ approx_equal b a tol = Ok false.
Proof. exists (VInt 10), (VInt 9), tol_1e1. split; [split; reflexivity|]. split; vm_compute; reflexivity. Qed.
Print Assumptions C47_symmetry_refuted.

(** negative numbers are only equal to themselves *)
Theorem C47_negative_refuted : exists a b x y, number a x /\ number b y /\
  Rabs (x - y) <= value tol_1e5 * Rabs x /\ approx_equal a b tol_1e5 = Ok false.
Proof.
  exists (VInt (-1000000)), (VInt (-1000001)), (IZR (-1000000)), (IZR (-1000001)).
  split; [constructor; lia|]. split; [constructor; lia|]. split; [|vm_compute; reflexivity].
  assert (E : tol_1e5 = S754_finite false 5902958103587057 (-69)) by (vm_compute; reflexivity).
  rewrite E. unfold value, BinarySingleNaN.SF2R, F2R. cbn [cond_Zopp Fnum Fexp].
  change (bpow radix2 (-69)) with (/ IZR (2 ^ 69)). change (2 ^ 69)%Z with 590295810358705651712%Z.
  rewrite Rabs_pos_eq by lra. rewrite Rabs_left by lra. lra.
Qed.
Print Assumptions C47_negative_refuted.

(** zero and anything else is an error, not a difference *)
Theorem C47_zero_refuted : exists a b x y, number a x /\ number b y /\ approx_equal a b tol_1e5 = Err ENotImpl.
Proof. exists (VInt 0), (VInt 1), 0, 1. split; [apply (n_int 0); lia|]. split; [apply (n_int 1); lia|reflexivity]. Qed.
Print Assumptions C47_zero_refuted.

(** ** C48: comparing frames *)

Theorem C48_itself : forall d, compare_data_frames d d = Ok true.
Proof. exact compare_refl. Qed.
Print Assumptions C48_itself.

(** it returns only for frames that agree on everything *)
Theorem C48_detects : forall d1 d2 x, frame d1 -> frame d2 -> compare_data_frames d1 d2 = Ok x ->
  x = true /\ pr_dates (df_index d1) = pr_dates (df_index d2) /\ pr_freq (df_index d1) = pr_freq (df_index d2) /\
  same_names (df_cols d1) (df_cols d2) /\
  forall c r f g, entry d1 c r f -> entry d2 c r g -> agree f g.
Proof. exact c48_detects. Qed.
Print Assumptions C48_detects.

(** the order of the columns does not matter *)
Theorem C48_equal : forall d1 d2, frame d1 -> frame d2 ->
  pr_dates (df_index d1) = pr_dates (df_index d2) -> pr_freq (df_index d1) = pr_freq (df_index d2) ->
  same_names (df_cols d1) (df_cols d2) -> (forall c r f g, entry d1 c r f -> entry d2 c r g -> f = g) ->
  compare_data_frames d1 d2 = Ok true.
Proof. exact c48_equal. Qed.
Print Assumptions C48_equal.

Definition two_days : prange := mkpr (T "D") [mkdt 2000 1 1 0; mkdt 2000 1 2 0].
Definition frame_of (v : list spec_float) : df := mkdf two_days [T "gdp"; T "cpi"] [v; [fl 3 0; S754_nan]].
Lemma frame_of_frame a b : valid_binary prec emax a = true -> valid_binary prec emax b = true -> frame (frame_of [a; b]).
Proof.
  intros A B. split; [repeat constructor; cbn; intuition discriminate|]. split; auto.
  intros v [<-|[<-|[]]]; (split; [reflexivity|]); intros f [<-|[<-|[]]]; auto.
Qed.
Example C48_case : frame (frame_of [fl 1 0; fl 2 0]) /\
  compare_data_frames (frame_of [fl 1 0; fl 2 0]) (frame_of [fl 100001 (-5); fl 2 0]) = Ok true /\
  compare_data_frames (frame_of [fl 1 0; fl 2 0]) (frame_of [fl 1001 (-3); fl 2 0]) = Err EAssert /\
  compare_data_frames (frame_of [fl 1 0; fl 2 0]) (mkdf two_days [T "cpi"; T "gdp"] [[fl 3 0; S754_nan]; [fl 1 0; fl 2 0]]) = Ok true.
Proof. split; [apply frame_of_frame; reflexivity|]. split; [|split]; vm_compute; reflexivity. Qed.

(** an infinite value in the first frame hides any difference *)
Theorem C48_infinity_refuted : exists d1 d2 c r f g, frame d1 /\ frame d2 /\ entry d1 c r f /\ entry d2 c r g /\
  f <> g /\ finite g /\ compare_data_frames d1 d2 = Ok true.
Proof.
  exists (frame_of [S754_infinity false; fl 2 0]), (frame_of [fl 1 0; fl 2 0]), (T "gdp"), O, (S754_infinity false), (fl 1 0).
  split; [apply frame_of_frame; reflexivity|]. split; [apply frame_of_frame; reflexivity|].
  split; [exists O, [S754_infinity false; fl 2 0]; auto|]. split; [exists O, [fl 1 0; fl 2 0]; auto|].
  split; [discriminate|]. split; [split; reflexivity|vm_compute; reflexivity].
Qed.
Print Assumptions C48_infinity_refuted.

(** ** C49: inferring the frequency *)

(** at most one of the frequencies is within the tolerance of an average step *)
Theorem C49_unambiguous : forall s1 s2 f v, In s1 [1; 60; 3600; 86400; 604800; 2419200; 7776000; 15552000; 31536000]%Z ->
  In s2 [1; 60; 3600; 86400; 604800; 2419200; 7776000; 15552000; 31536000]%Z -> number (VFloat f) v ->
  approx_equal (VInt s1) (VFloat f) tol_1e1 = Ok true -> approx_equal (VInt s2) (VFloat f) tol_1e1 = Ok true -> s1 = s2.
Proof. exact c49_unambiguous. Qed.
Print Assumptions C49_unambiguous.

(** the seconds of each frequency that has a name *)
Definition named : list (string * Z) :=
  [("S"%string, 1%Z); ("T"%string, 60%Z); ("H"%string, 3600%Z); ("D"%string, 86400%Z); ("W"%string, 604800%Z);
   ("MS"%string, 2419200%Z); ("QS"%string, 7776000%Z); ("AS"%string, 31536000%Z)].
(** the frequency named is the one within a tenth of the average step *)
Theorem C49_infers : forall f v name s, number (VFloat f) v -> In (name, s) named ->
  (0 < v -> Rabs (IZR s - v) <= IZR s * / 10 -> infer_freq (VFloat f) tol_1e1 = Ok (T name)) /\
  (infer_freq (VFloat f) tol_1e1 = Ok (T name) -> Rabs (IZR s - v) <= IZR s * / 10 + / 100).
Proof.
  intros f v name s N I. assert (J : In (s, Some (T name)) freq_steps).
  { cbn [In named] in I. destruct I as [I|[I|[I|[I|[I|[I|[I|[I|[]]]]]]]]]; injection I as <- <-; cbn; tauto. }
  split.
  - intros P H. exact (c49_infer s (Some (T name)) f v J N P H).
  - intros H. apply (c49_named f v (T name) N) in H as [s' [I' H]].
    assert (s' = s); [|subst; auto]. clear - I I'. cbn [In named] in I. cbn [In freq_steps] in I'.
    destruct I as [I|[I|[I|[I|[I|[I|[I|[I|[]]]]]]]]]; injection I as <- <-;
      (destruct I' as [I'|[I'|[I'|[I'|[I'|[I'|[I'|[I'|[I'|[]]]]]]]]]]; inversion I'; auto).
Qed.
Print Assumptions C49_infers.

(** a regular series of a dozen dates or more gets its frequency: daily and
    weekly ones, and those every month, quarter or year *)
Theorem C49_regular_days : forall index a b n f name k, hd_error index = Some a -> hd_error (rev index) = Some b ->
  List.length index = S n -> (11 <= n)%nat -> real_date a -> In (f, name) [("D", "D"); ("W", "W")]%string ->
  period_days f = Some k -> days_after (n * k) a b -> serial_freq index = Ok (T name).
Proof.
  intros index a b n f name k A B L N R I P D. 
  assert (J : (0 < k)%nat /\ In ((86400 * Z.of_nat k)%Z, Some (T name)) freq_steps).
  { destruct I as [I|[I|[]]]; injection I as <- <-; cbn in P; injection P as <-; split; try lia; cbn; tauto. }
  exact (regular_days index a b n k (Some (T name)) A B L N R D (proj1 J) (proj2 J)).
Qed.
Print Assumptions C49_regular_days.
Theorem C49_regular_months : forall index a b n f name k, hd_error index = Some a -> hd_error (rev index) = Some b ->
  List.length index = S n -> (11 <= n)%nat -> real_date a -> In (f, name) [("M", "MS"); ("Q", "QS"); ("A", "AS")]%string ->
  period_months f = Some k -> months_after (Z.of_nat n * k) a b -> serial_freq index = Ok (T name).
Proof.
  intros index a b n f name k A B L N R I P D.
  destruct I as [I|[I|[I|[]]]]; injection I as <- <-; cbn in P; injection P as <-.
  - apply (regular_months index a b n 1 2419200 (Some (T "MS")) A B L N R D); cbn; tauto.
  - apply (regular_months index a b n 3 7776000 (Some (T "QS")) A B L N R D); cbn; tauto.
  - apply (regular_months index a b n 12 31536000 (Some (T "AS")) A B L N R D); cbn; tauto.
Qed.
Print Assumptions C49_regular_months.
Example C49_regular_case : serial_freq (map (fun m => mkdt 2000 m 1 0) [1; 2; 3; 4; 5; 6; 7; 8; 9; 10; 11; 12]%Z) = Ok (T "MS").
Proof. vm_compute. reflexivity. Qed.

(** for any series, the frequency is that of the time from the first date to the
    last one over the number of dates, to the nearest microsecond (the even one
    of two) *)
Theorem C49_average : forall index a b, hd_error index = Some a -> hd_error (rev index) = Some b ->
  let span := ((dt_secs b - dt_secs a) * 1000000)%Z in let size := Z.of_nat (List.length index) in
  exists us, (2 * Z.abs (us * size - span) <= size /\ (2 * Z.abs (us * size - span) = size -> Z.even us = true))%Z /\
    serial_freq index = infer_freq (VFloat (float_of_dec (us <? 0)%Z (Z.abs us) (-6))) tol_1e1.
Proof. exact average_nearest. Qed.
Print Assumptions C49_average.
(** a second over 128 dates is 7812 and a half microseconds *)
Example C49_average_case : let index := mkdt 2000 1 1 0 :: repeat (mkdt 2000 1 1 1) 127 in
  hd_error index = Some (mkdt 2000 1 1 0) /\ hd_error (rev index) = Some (mkdt 2000 1 1 1) /\
  average_seconds (mkdt 2000 1 1 0) (mkdt 2000 1 1 1) (Z.of_nat (List.length index)) = float_of_dec false 7812 (-6) /\
  average_seconds (mkdt 2000 1 1 0) (mkdt 2000 1 1 3) (Z.of_nat (List.length index)) = float_of_dec false 23438 (-6).
Proof. vm_compute. auto. Qed.

(** shorter series may get none: the average divides by the number of dates
    and not of steps, so a tenth is missing below ten dates *)
Theorem C49_short_refuted : exists index a b n, hd_error index = Some a /\ hd_error (rev index) = Some b /\
  List.length index = S n /\ real_date a /\ days_after (n * 1) a b /\ serial_freq index = Err EOther.
Proof.
  exists [mkdt 2000 1 1 0; mkdt 2000 1 2 0; mkdt 2000 1 3 0], (mkdt 2000 1 1 0), (mkdt 2000 1 3 0), 2%nat.
  split; [reflexivity|]. split; [reflexivity|]. split; [reflexivity|]. split; [|split].
  - split; [cbn; lia|]. split; [cbn; lia|]. exists 31%Z. split; [apply ml_31; cbn; auto|cbn; lia].
  - eapply da_S; [eapply da_S; [apply da_0|]|].
    + apply (nd_same_month 2000 1 1 0 31); [apply ml_31; cbn; auto|lia].
    + apply (nd_same_month 2000 1 2 0 31); [apply ml_31; cbn; auto|lia].
  - vm_compute. reflexivity.
Qed.
Print Assumptions C49_short_refuted.

(** a series every six months never gets one *)
Theorem C49_semesters_never : forall index a b n, hd_error index = Some a -> hd_error (rev index) = Some b ->
  List.length index = S n -> (11 <= n)%nat -> real_date a -> months_after (Z.of_nat n * 6) a b ->
  serial_freq index = Err EOther.
Proof.
  intros index a b n A B L N R D. apply (regular_months index a b n 6 15552000 None A B L N R D); cbn; tauto.
Qed.
Print Assumptions C49_semesters_never.
