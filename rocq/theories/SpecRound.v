(** Correct rounding (C53). *)
From Coq Require Import Reals.
From Verif Require Import Base SpecFloats.
Local Open Scope R_scope.

(** no finite float is closer *)
Definition closest (x : R) (f : spec_float) : Prop :=
  finite f /\ forall g, finite g -> Rabs (value f - x) <= Rabs (value g - x).
(** the closest float, or infinity for the numbers beyond all of them *)
Definition best (x : R) (f : spec_float) : Prop :=
  closest x f \/
  (f = S754_infinity false /\ 0 < x /\ forall g, finite g -> Rabs (value g) <= Rabs x) \/
  (f = S754_infinity true /\ x < 0 /\ forall g, finite g -> Rabs (value g) <= Rabs x).
(** (-1)^neg * m * 10^e *)
Definition decimal_value (neg : bool) (m e : Z) : R :=
  (if neg then -1 else 1) * IZR m * powerRZ 10 e.
