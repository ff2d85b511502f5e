(** The same series read up to an earlier end (C88). *)
From Verif Require Import Base Cal Coord SpecCoord Params TimeIndex PeriodRange DataFrame Scrape SpecParams SpecEnd SpecReach SpecSelect.
Local Open Scope Z_scope.

(** two objects for [n] series that differ only in where the data ends: at [m],
    or at [m'], not before *)
Definition sooner (n : nat) (m m' : Z) (p p' : dict) : Prop :=
  (forall k, k <> pname "data_ends" -> dget k p' = dget k p) /\
  dget (pname "data_ends") p = Some (VList (repeat (VInt m) n)) /\ dget (pname "data_ends") p' = Some (VList (repeat (VInt m') n)) /\
  0 < m <= m'.
(** the headers are not after the end *)
Definition headers_before (m : Z) (p : dict) : Prop :=
  forall k i t al r c, k = pname "headers_coord" \/ k = pname "composed_headers_coord" -> coordinate p k i t -> layout p i al -> cell_named t r c -> depth_of al (r, c) <= m.
(** the dates are not after their values, or come just after values that have no gaps *)
Definition dates_in_time (n : nat) (p : dict) : Prop :=
  exists ta, dget (pname "time_alignment") p = Some (VList (repeat (VInt ta) n)) /\
    (ta <= 0 \/ (ta = 1 /\ dget (pname "continuity") p = Some (VList (repeat (VBool true) n)))).

Definition begins {A} (l l' : list A) : Prop := exists r, l' = l ++ r.
(** the same columns, that go on, and so does the index; a daily index may become
    one of working days, or the other way round, when it goes on *)
Definition goes_on (d d' : df) : Prop :=
  df_cols d' = df_cols d /\ Forall2 begins (df_data d) (df_data d') /\
  (pr_freq (df_index d) <> T "D" -> pr_freq (df_index d) <> T "B" -> pr_freq (df_index d') = pr_freq (df_index d)) /\
  (pr_freq (df_index d') = pr_freq (df_index d) -> begins (pr_dates (df_index d)) (pr_dates (df_index d'))).
