(** What is expected of a whole call on a table with periods left out, or with
    blank rows between the dates (C61, C62). *)
From Verif Require Import Base Cal SpecCal SpecCoord SpecParams Coord XlMethods Params ParseTime TimeIndex PeriodRange DataFrame Scrape Xlseries
  SpecTime SpecData SpecFrames SpecScrape SpecParse SpecSimple SpecEnd SpecText.
Local Open Scope Z_scope.

(** ** C61 Periods left out *)

(** the values [vs] of the dates [xs], put at their places among the dates [ds],
    with NaN at the others; the last date is not left out *)
Inductive spread : list datetime -> list datetime -> list spec_float -> list spec_float -> Prop :=
| sp_last x v : spread [x] [x] [v] [v]
| sp_there x v ds xs vs full : spread ds xs vs full -> spread (x :: ds) (x :: xs) (v :: vs) (v :: full)
| sp_gap x ds xs vs full : spread ds xs vs full -> spread (x :: ds) xs vs (S754_nan :: full).

(** dates [xs] along a line from position [starts] on, the first and the last of
    the consecutive period starts [ds] and some of those between them, and one
    value beside every date for each header; left out periods are declared *)
Record gap_table (d : dict) (w : worksheet) (cells : list (Z * Z)) (time : Z * Z) (starts ends : Z) (f : string) (se : settings)
    (xs ds : list datetime) (data : list (list spec_float)) : Prop := {
  gt_ends : ends = starts + Z.of_nat (List.length xs) - 1;
  gt_plain : se_composed se = false;
  gt_many : (2 <= List.length xs)%nat;
  gt_implicit : se_missings se = true /\ In (VStr (pname "Implicit")) (se_markers se);
  gt_dates : forall k x, nth_error xs k = Some x -> along (se_align se) w (line_of (se_align se) time) (starts + Z.of_nat k) = VDate x;
  gt_consecutive : consecutive f ds;
  gt_start : exists x, hd_error ds = Some x /\ hd_error xs = Some x /\ period_start f x;
  gt_years : Forall (fun x => real_date x /\ 1678 <= dt_y x <= 2261) ds;
  gt_after : forall rc, hd_error cells = Some rc -> depth_of (se_align se) rc < starts;
  gt_inside : 1 <= starts /\ (se_align se = Horiz -> ends < 18278);
  gt_stop : stops d w time ends se;
  gt_values : Forall2 (fun rc full => exists vs, spread ds xs vs full /\
    forall k x, nth_error vs k = Some x ->
      stands_for (se_missings se) (se_markers se) (along (se_align se) w (line_of (se_align se) rc) (starts + Z.of_nat k)) x) cells data
}.

(** ** C62 Blank rows between the dates *)

(** the rows (columns) of the table: [Some x] has the date [x], [None] a blank *)
Inductive the_dates : list (option datetime) -> list datetime -> Prop :=
| td_nil : the_dates [] []
| td_date x rows ds : the_dates rows ds -> the_dates (Some x :: rows) (x :: ds)
| td_blank rows ds : the_dates rows ds -> the_dates (None :: rows) ds.
(** the values beside the dates; beside the blanks there is nothing, or
    anything when the series are not continuous *)
Inductive beside (continuous : bool) (stands : pyval -> spec_float -> Prop) : list (option datetime) -> list pyval -> list spec_float -> Prop :=
| be_nil : beside continuous stands [] [] []
| be_date x v y rows l vs : stands v y -> beside continuous stands rows l vs -> beside continuous stands (Some x :: rows) (v :: l) (y :: vs)
| be_blank v rows l vs : (continuous = true -> v = VNone) -> beside continuous stands rows l vs -> beside continuous stands (None :: rows) (v :: l) vs.

(** the dates are consecutive period starts, the first and the last row have
    one, and no more than 40 blanks follow each other *)
Record spaced_table (d : dict) (w : worksheet) (cells : list (Z * Z)) (time : Z * Z) (starts ends : Z) (f : string) (se : settings)
    (rows : list (option datetime)) (ds : list datetime) (data : list (list spec_float)) : Prop := {
  st_ends : ends = starts + Z.of_nat (List.length rows) - 1;
  st_plain : se_composed se = false;
  st_tolerant : se_continuity se = false \/ se_blanks se = true;
  st_rows : forall k r, nth_error rows k = Some r -> let v := along (se_align se) w (line_of (se_align se) time) (starts + Z.of_nat k) in
    match r with Some x => v = VDate x | None => blank_cell v end;
  st_dates : the_dates rows ds;
  st_many : (2 <= List.length ds)%nat;
  st_consecutive : consecutive f ds;
  st_start : exists x, hd_error ds = Some x /\ hd_error rows = Some (Some x) /\ period_start f x;
  st_last : exists x, List.last rows None = Some x;
  st_runs : forall k, (k + 40 < List.length rows)%nat -> exists j x, (k <= j <= k + 40)%nat /\ nth_error rows j = Some (Some x);
  st_years : Forall (fun x => 1678 <= dt_y x <= 2261) ds;
  st_after : forall rc, hd_error cells = Some rc -> depth_of (se_align se) rc < starts;
  st_inside : 1 <= starts /\ (se_align se = Horiz -> ends < 18278);
  st_stop : stops d w time ends se;
  st_values : Forall2 (fun rc vs => exists l,
    (forall k v, nth_error l k = Some v -> along (se_align se) w (line_of (se_align se) rc) (starts + Z.of_nat k) = v) /\
    beside (se_continuity se) (stands_for (se_missings se) (se_markers se)) rows l vs) cells data
}.
