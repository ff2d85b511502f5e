(** What is expected of the dates of the numbers of an answer (C66). *)
From Verif Require Import Base SpecCal SpecCoord Coord Params ParseTime TimeIndex SpecTime SpecParams SpecData SpecFrames.
From Coq Require Import Sorted.
Local Open Scope Z_scope.

(** what a cell is read as: the number in it, or NaN if it may be missing *)
Definition read_as (s : sp) (v : pyval) (x : spec_float) : Prop :=
  cell_number v x \/ sp_missings s = true /\ x = S754_nan.
(** every value is read from a row of the series (or a column, if it is
    horizontal) and dated with the date of the time index in that row (the one
    time_alignment rows away); the rows are different and in order *)
Definition dated_by_row (s : sp) (w : worksheet) (en : Z) (dates : list datetime) (vs : list spec_float) : Prop :=
  List.length dates = List.length vs /\
  exists rows, StronglySorted Z.lt rows /\ List.length rows = List.length vs /\
  forall k q d x, nth_error rows k = Some q -> nth_error dates k = Some d -> nth_error vs k = Some x ->
    sp_starts s <= q <= en /\ holds s w (q + sp_ta s) (VDate d) /\ exists v, in_series s w q v /\ read_as s v x.

(** the dates of the time index are in order *)
Definition index_in_order (s : sp) (w : worksheet) (en : Z) : Prop :=
  forall i j x y, sp_starts s <= i -> i < j -> j <= en -> holds s w (i + sp_ta s) (VDate x) -> holds s w (j + sp_ta s) (VDate y) -> earlier x y.
(** they are first dates of periods, all at the same time of the day; those of
    daily data are working days *)
Definition index_of_starts (s : sp) (f : string) (w : worksheet) (en : Z) : Prop :=
  exists t, forall i x, sp_starts s <= i <= en -> holds s w (i + sp_ta s) (VDate x) ->
    period_start f x /\ dt_s x = t /\ (f = "D"%string -> working_day x /\ t = 0).
(** and there is one in every row with a number; rows without a date are left
    out of a non continuous series *)
Definition rows_dated (s : sp) (w : worksheet) (en : Z) : Prop :=
  sp_cont s = true -> forall i, sp_starts s <= i <= en -> ~ (sp_blank s = true /\ in_series s w i VNone) -> holds_date s w (i + sp_ta s).

(** a date in every row, each one period after the one before *)
Definition row_by_row (s : sp) (f : string) (w : worksheet) (en : Z) (dates : list datetime) : Prop :=
  Z.of_nat (List.length dates) = en - sp_starts s + 1 /\
  (forall k d, nth_error dates k = Some d -> holds s w (sp_starts s + Z.of_nat k + sp_ta s) (VDate d)) /\
  (forall k a b, nth_error dates k = Some a -> nth_error dates (S k) = Some b -> one_period f a b).

(** one time index for all the [n] series, whose end is not given *)
Definition one_index (p : dict) (n : nat) (t : text) : Prop :=
  (0 < n)%nat /\ (forall k, In k PARAM_NAMES -> exists l, dgetN k p = VList l /\ List.length l = n) /\
  (forall j, (j < n)%nat -> series_value p n_time_header j (VStr t) /\ series_value p n_data_ends j VNone) /\
  series_value p n_time_multicolumn 0 (VBool false).
(** two series read the same positions of it *)
Definition same_rows (s s' : sp) : Prop :=
  sp_th s = sp_th s' /\ sp_al s = sp_al s' /\ sp_starts s = sp_starts s' /\ sp_ta s = sp_ta s' /\ sp_freq s = sp_freq s'.
