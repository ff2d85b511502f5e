(** Theorems about moving dates by periods (C46). *)
From Verif Require Import Base Cal SpecCal CalFacts CalProofs.
Local Open Scope Z_scope.
Local Notation ymd y m d := (mkdt y m d 0).

(** ** C46: time increments are exact *)

(** days and weeks: moving [n] periods forward is taking the next day as many
    times, and it fails exactly when that leaves year 9999 *)
Theorem C46_days : forall f k t n t', period_days f = Some k -> real_date t ->
  (increment_time t (Z.of_nat n) (T f) = Ok t' <-> days_after (n * k) t t' /\ dt_y t' <= 9999).
Proof. exact days_iff. Qed.
Print Assumptions C46_days.
Example C46_days_case : increment_time (ymd 2000 2 25) 1 (T "W") = Ok (ymd 2000 3 3).
Proof. reflexivity. Qed.

(** months, quarters and years, forwards or backwards *)
Theorem C46_months : forall f k t n t', period_months f = Some k -> real_date t ->
  (increment_time t n (T f) = Ok t' <-> months_after (n * k) t t' /\ 1 <= dt_y t' <= 9999).
Proof. exact months_iff. Qed.
Print Assumptions C46_months.
Example C46_months_case : increment_time (ymd 1999 11 30) 1 (T "Q") = Ok (ymd 2000 2 29).
Proof. reflexivity. Qed.

(** the result is a date of the calendar *)
Theorem C46_real : forall f t n t', real_date t -> increment_time t n f = Ok t' -> real_date t'.
Proof. intros f t n t'. exact (increment_real t n f t'). Qed.
Print Assumptions C46_real.
Example C46_real_case : increment_time (ymd 2000 2 29) (-1) (T "A") = Ok (ymd 1999 2 28).
Proof. reflexivity. Qed.

(** strictly increasing in the number of periods, for every frequency *)
Theorem C46_increasing : forall f t m n a b, real_date t -> m < n ->
  increment_time t m f = Ok a -> increment_time t n f = Ok b -> earlier a b.
Proof. exact increment_mono. Qed.
Print Assumptions C46_increasing.
Example C46_increasing_case : increment_time (ymd 2000 1 31) 1 (T "M") = Ok (ymd 2000 2 29) /\
  increment_time (ymd 2000 1 31) 2 (T "M") = Ok (ymd 2000 3 31).
Proof. split; reflexivity. Qed.

(** moving by [m] and then by [n] is moving by [m + n]: always for the periods
    with a fixed length, and up to day 28 for months, quarters and years *)
Theorem C46_composition : forall f t m n a b, real_date t ->
  (period_months f <> None -> dt_d t <= 28) ->
  increment_time t m (T f) = Ok a -> increment_time a n (T f) = Ok b ->
  increment_time t (m + n) (T f) = Ok b.
Proof. exact increment_add. Qed.
Print Assumptions C46_composition.
Example C46_composition_case : increment_time (ymd 1999 12 1) 3 (T "M") = Ok (ymd 2000 3 1) /\
  increment_time (ymd 2000 3 1) 10 (T "M") = Ok (ymd 2001 1 1).
Proof. split; reflexivity. Qed.

(** from the end of a month the days drift: 31 January plus one month plus one
    month is 29 March, but plus two months is 31 March *)
Theorem C46_month_end_refuted : exists t a b, real_date t /\
  increment_time t 1 (T "M") = Ok a /\ increment_time a 1 (T "M") = Ok b /\
  increment_time t 2 (T "M") <> Ok b.
Proof.
  exists (ymd 2000 1 31), (ymd 2000 2 29), (ymd 2000 3 29). split.
  - split; [cbn; lia|]. split; [cbn; lia|]. exists 31. split; [apply ml_31; cbn; auto|cbn; lia].
  - split; [reflexivity|]. split; [reflexivity|discriminate].
Qed.
Print Assumptions C46_month_end_refuted.

(** "S" documents semesters (six months) but moves one second *)
Theorem C46_semester_refuted : exists t t', real_date t /\
  increment_time t 1 (T "S") = Ok t' /\ ~ months_after 6 t t'.
Proof.
  exists (ymd 2000 1 1), (mkdt 2000 1 1 1). split.
  - split; [cbn; lia|]. split; [cbn; lia|]. exists 31. split; [apply ml_31; cbn; auto|cbn; lia].
  - split; [reflexivity|]. intros [H _]. cbn in H. lia.
Qed.
Print Assumptions C46_semester_refuted.
