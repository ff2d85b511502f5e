(** The real numbers behind floats (C47, C49), with Flocq's definitions of the
    value of a float and of rounding to the nearest one. *)
From Coq Require Import Reals.
From Flocq Require Import Core.
From Flocq Require IEEE754.BinarySingleNaN.
From Verif Require Import Base.
Local Open Scope R_scope.

(** the number a finite float stands for *)
Definition value (f : spec_float) : R := BinarySingleNaN.SF2R radix2 f.
Definition finite (f : spec_float) : Prop :=
  valid_binary prec emax f = true /\ BinarySingleNaN.is_finite_SF f = true.
(** the double nearest to a real, ties to even *)
Definition nearest (x : R) : R := round radix2 (FLT_exp (-1074) 53) ZnearestE x.

(** a number of the interpreter (a float, an int or a bool) and its value *)
Inductive number : pyval -> R -> Prop :=
| n_float f : finite f -> number (VFloat f) (value f)
| n_int z : (- 2 ^ 52 <= z <= 2 ^ 52)%Z -> number (VInt z) (IZR z)
| n_bool b : number (VBool b) (if b then 1 else 0).
