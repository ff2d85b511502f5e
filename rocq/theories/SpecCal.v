(** The calendar, and what moving a date by periods should do (C37, C46). *)
From Verif Require Import Base.
Local Open Scope Z_scope.

Definition leap (y : Z) : Prop := (4 | y) /\ (~ (100 | y) \/ (400 | y)).
(** length of month [m] of year [y] *)
Inductive month_length (y : Z) : Z -> Z -> Prop :=
| ml_feb_leap : leap y -> month_length y 2 29
| ml_feb : ~ leap y -> month_length y 2 28
| ml_30 m : In m [4; 6; 9; 11] -> month_length y m 30
| ml_31 m : In m [1; 3; 5; 7; 8; 10; 12] -> month_length y m 31.

(** dates datetime can hold *)
Definition real_date (t : datetime) : Prop :=
  1 <= dt_y t <= 9999 /\ 0 <= dt_s t < 86400 /\
  exists n, month_length (dt_y t) (dt_m t) n /\ 1 <= dt_d t <= n.

(** the same time of the next day *)
Inductive next_day : datetime -> datetime -> Prop :=
| nd_same_month y m d s n : month_length y m n -> 1 <= d < n -> next_day (mkdt y m d s) (mkdt y m (d + 1) s)
| nd_next_month y m d s : month_length y m d -> m < 12 -> next_day (mkdt y m d s) (mkdt y (m + 1) 1 s)
| nd_next_year y s : next_day (mkdt y 12 31 s) (mkdt (y + 1) 1 1 s).
Inductive days_after : nat -> datetime -> datetime -> Prop :=
| da_0 t : days_after 0 t t
| da_S n a b c : days_after n a b -> next_day b c -> days_after (S n) a c.

(** [n] months later: that month, the same day or the last of the month if
    there is no such day *)
Definition months_after (n : Z) (a b : datetime) : Prop :=
  dt_y b * 12 + dt_m b = dt_y a * 12 + dt_m a + n /\ 1 <= dt_m b <= 12 /\ dt_s b = dt_s a /\
  exists len, month_length (dt_y b) (dt_m b) len /\ dt_d b = Z.min (dt_d a) len.

(** chronological order *)
Definition earlier (a b : datetime) : Prop :=
  dt_y a < dt_y b \/ dt_y a = dt_y b /\
  (dt_m a < dt_m b \/ dt_m a = dt_m b /\
   (dt_d a < dt_d b \/ dt_d a = dt_d b /\ dt_s a < dt_s b)).

(** the length of a period, in months or in days *)
Definition period_months (freq : string) : option Z :=
  if string_dec freq "M" then Some 1
  else if string_dec freq "Q" then Some 3
  else if string_dec freq "A" then Some 12 else None.
Definition period_days (freq : string) : option nat :=
  if string_dec freq "D" then Some 1%nat else if string_dec freq "W" then Some 7%nat else None.
