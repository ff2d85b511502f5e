(** Comparing frames (C48): what two frames that compare equal agree on. *)
From Coq Require Import Reals.
From Verif Require Import Base PeriodRange DataFrame SpecFloats.
Local Open Scope R_scope.

(** a frame as pandas builds it, with distinct column names and doubles *)
Definition frame (d : df) : Prop :=
  NoDup (df_cols d) /\ List.length (df_cols d) = List.length (df_data d) /\
  (forall v, In v (df_data d) -> List.length v = List.length (pr_dates (df_index d)) /\
     forall f, In f v -> valid_binary prec emax f = true).
Definition same_names (c1 c2 : list text) : Prop := forall c, In c c1 <-> In c c2.
(** the value of the column named [c] in row [r] *)
Definition entry (d : df) (c : text) (r : nat) (f : spec_float) : Prop :=
  exists i v, nth_error (df_cols d) i = Some c /\ nth_error (df_data d) i = Some v /\ nth_error v r = Some f.

(** two values that agree: both missing, or two numbers within a relative
    difference of 0.0001 (up to rounding).  The first one infinite agrees with
    anything but a missing value: see [C48_infinity_refuted]. *)
Definition agree (f g : spec_float) : Prop :=
  (f = S754_nan /\ g = S754_nan) \/
  (finite f /\ finite g /\ Rabs (value f - value g) <= Rabs (value f) * (100001 / 1000000000) + / 10 ^ 300) \/
  (exists s, f = S754_infinity s) /\ g <> S754_nan.
