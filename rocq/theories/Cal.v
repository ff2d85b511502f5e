(** Dates: the proleptic Gregorian calendar of Python's datetime module,
    relativedelta month arithmetic and /repo's [increment_time]. *)
From Verif Require Import Base.
Local Open Scope Z_scope.

(** CPython Lib/datetime.py _is_leap, _days_in_month, _days_before_year,
    _days_before_month, _ymd2ord, _ord2ymd (the library /repo's dates live in). *)
Definition is_leap (y : Z) : bool :=
  (y mod 4 =? 0) && (negb (y mod 100 =? 0) || (y mod 400 =? 0)).

Definition days_in_month (y m : Z) : Z :=
  if m =? 2 then (if is_leap y then 29 else 28)
  else if (m =? 4) || (m =? 6) || (m =? 9) || (m =? 11) then 30
  else 31.

Definition days_before_year (y : Z) : Z :=
  let y' := y - 1 in y' * 365 + y' / 4 - y' / 100 + y' / 400.

Definition cum_days (m : Z) : Z :=
  if m =? 1 then 0 else if m =? 2 then 31 else if m =? 3 then 59
  else if m =? 4 then 90 else if m =? 5 then 120 else if m =? 6 then 151
  else if m =? 7 then 181 else if m =? 8 then 212 else if m =? 9 then 243
  else if m =? 10 then 273 else if m =? 11 then 304 else 334.

Definition days_before_month (y m : Z) : Z :=
  cum_days m + (if (2 <? m) && is_leap y then 1 else 0).

Definition ymd2ord (y m d : Z) : Z :=
  days_before_year y + days_before_month y m + d.

Definition ord2ymd (n : Z) : Z * Z * Z :=
  let n := n - 1 in
  let n400 := n / 146097 in let n := n mod 146097 in
  let n100 := n / 36524 in let n := n mod 36524 in
  let n4 := n / 1461 in let n := n mod 1461 in
  let n1 := n / 365 in let n := n mod 365 in
  let year := n400 * 400 + 1 + n100 * 100 + n4 * 4 + n1 in
  if (n1 =? 4) || (n100 =? 4) then (year - 1, 12, 31)
  else
    let month := (n + 50) / 32 in
    let preceding := days_before_month year month in
    if n <? preceding then
      (year, month - 1, n - (preceding - days_in_month year (month - 1)) + 1)
    else (year, month, n - preceding + 1).

(** the fields datetime.datetime accepts *)
Definition valid_ymd (y m d : Z) : bool :=
  (1 <=? y) && (y <=? 9999) && (1 <=? m) && (m <=? 12) &&
  (1 <=? d) && (d <=? days_in_month y m).

Definition valid_dt (t : datetime) : bool :=
  valid_ymd (dt_y t) (dt_m t) (dt_d t) && (0 <=? dt_s t) && (dt_s t <? 86400).

(** arrow.get(y, m, d): ValueError when out of range *)
Definition make_date (y m d : Z) : res datetime :=
  if valid_ymd y m d then Ok (mkdt y m d 0) else Err EValue.

(** comparison of two datetimes in the same timezone: lexicographic *)
Definition dt_ltb (a b : datetime) : bool :=
  (dt_y a <? dt_y b) || (dt_y a =? dt_y b) && (
  (dt_m a <? dt_m b) || (dt_m a =? dt_m b) && (
  (dt_d a <? dt_d b) || (dt_d a =? dt_d b) && (dt_s a <? dt_s b))).
Definition dt_leb (a b : datetime) : bool := negb (dt_ltb b a).

Definition dt_ord (t : datetime) : Z := ymd2ord (dt_y t) (dt_m t) (dt_d t).
(** seconds since 0001-01-01 *)
Definition dt_secs (t : datetime) : Z := dt_ord t * 86400 + dt_s t.

(** datetime + timedelta(seconds=n): OverflowError outside years 1..9999 *)
Definition add_seconds (t : datetime) (n : Z) : res datetime :=
  let total := dt_secs t + n in
  let o := total / 86400 in
  if (1 <=? o) && (o <=? 3652059) then
    let '(y, m, d) := ord2ymd o in Ok (mkdt y m d (total mod 86400))
  else Err EOverflow.

(** datetime + relativedelta(months=n): the day is clamped to the month length;
    ValueError outside years 1..9999 *)
Definition add_months (t : datetime) (n : Z) : res datetime :=
  let total := dt_y t * 12 + (dt_m t - 1) + n in
  let y := total / 12 in
  let m := total mod 12 + 1 in
  if (1 <=? y) && (y <=? 9999) then
    Ok (mkdt y m (Z.min (dt_d t) (days_in_month y m)) (dt_s t))
  else Err EValue.

(** utils/time_manipulation.py:26-59 increment_time.  arrow 0.5's
    replace(<plural>=n) adds a relativedelta; years=n is 12*n months. *)
Definition increment_time (t : datetime) (num : Z) (freq : text) : res datetime :=
  match freq with
  | [c] =>
      if ch_eqb c "S" then add_seconds t num
      else if ch_eqb c "T" then add_seconds t (num * 60)
      else if ch_eqb c "H" then add_seconds t (num * 3600)
      else if ch_eqb c "D" then add_seconds t (num * 86400)
      else if ch_eqb c "W" then add_seconds t (num * 604800)
      else if ch_eqb c "M" then add_months t num
      else if ch_eqb c "Q" then add_months t (num * 3)
      else if ch_eqb c "A" then add_months t (num * 12)
      else Err EInvalidFreq
  | _ => Err EInvalidFreq
  end.

(** day of the week, Monday = 0 (datetime.weekday()) *)
Definition weekday (t : datetime) : Z := (dt_ord t + 6) mod 7.
