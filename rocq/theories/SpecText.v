(** What is expected of a whole call on a table whose dates are written as texts
    (C59). *)
From Verif Require Import Base Cal SpecCal SpecCoord SpecParams Coord XlMethods Params ParseTime TimeIndex PeriodRange DataFrame Scrape Xlseries
  SpecTime SpecData SpecFrames SpecScrape SpecParse SpecSimple SpecEnd.
Local Open Scope Z_scope.

(** the date before the k-th one *)
Definition date_before (ds : list datetime) (k : nat) : option datetime := match k with O => None | S j => nth_error ds j end.
Definition one_by_one (R : pyval -> option datetime -> datetime -> Prop) (vs : list pyval) (ds : list datetime) : Prop :=
  List.length vs = List.length ds /\
  forall k v x, nth_error vs k = Some v -> nth_error ds k = Some x -> R v (date_before ds k) x.
(** the cells [vs] of an index, followed by [after], say the dates [ds]: quarters,
    months or years in one of the styles of composed texts (time_composed), or
    dates with day, month and year *)
Inductive written_index (e : env) (f : string) (composed : bool) (vs : list pyval) (after : pyval) (ds : list datetime) : Prop :=
| wi_quarters st : f = "Q"%string -> composed = true -> one_by_one (quarter_cell st) vs ds -> written_index e f composed vs after ds
| wi_months st : f = "M"%string -> composed = true -> one_by_one (month_cell e st) vs ds -> written_index e f composed vs after ds
| wi_years st : f = "A"%string -> composed = true -> one_by_one (fun v _ x => ~ blank_cell v /\ year_cell st v x) vs ds ->
    written_index e f composed vs after ds
| wi_days : composed = false -> one_by_one (fun v _ x => written e v x) vs ds -> nothing after -> written_index e f composed vs after ds.

(** consecutive period starts written along a line from position [starts] on,
    ending with the sheet or (in a column) before blanks, and one value beside every date for each header *)
Record text_table (e : env) (d : dict) (w : worksheet) (cells : list (Z * Z)) (time : Z * Z) (starts ends : Z) (f : string) (se : settings)
    (ds : list datetime) (data : list (list spec_float)) : Prop := {
  tt_ends : ends = starts + Z.of_nat (List.length ds) - 1;
  tt_many : (2 <= List.length ds)%nat;
  tt_index : exists vs, (forall k v, nth_error vs k = Some v -> along (se_align se) w (line_of (se_align se) time) (starts + Z.of_nat k) = v) /\
    written_index e f (se_composed se) vs (along (se_align se) w (line_of (se_align se) time) (ends + 1)) ds;
  tt_consecutive : consecutive f ds;
  tt_start : exists x, hd_error ds = Some x /\ period_start f x;
  tt_years : Forall (fun x => real_date x /\ 1678 <= dt_y x <= 2261) ds;
  tt_after : forall rc, hd_error cells = Some rc -> depth_of (se_align se) rc < starts;
  tt_inside : 1 <= starts /\ (se_align se = Horiz -> ends < 18278);
  tt_stop : stops d w time ends se;
  tt_apart : Forall (fun rc => line_of (se_align se) rc <> line_of (se_align se) time) cells;
  tt_values : Forall2 (fun rc vs => List.length vs = List.length ds /\
    forall k x, nth_error vs k = Some x ->
      stands_for (se_missings se) (se_markers se) (along (se_align se) w (line_of (se_align se) rc) (starts + Z.of_nat k)) x) cells data
}.
