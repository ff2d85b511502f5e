(** What is expected of typing mistakes in the dates of an index (C63). *)
From Verif Require Import Base Cal SpecCal SpecCoord SpecParams Coord XlMethods Params ParseTime TimeIndex PeriodRange DataFrame Scrape Xlseries
  SpecTime SpecData SpecFrames SpecScrape SpecParse SpecSimple SpecEnd SpecText.
Local Open Scope Z_scope.

(** exactly one of day, month and year is wrong *)
Inductive one_wrong (c x : datetime) : Prop :=
| ow_day : dt_d c <> dt_d x -> dt_m c = dt_m x -> dt_y c = dt_y x -> one_wrong c x
| ow_month : dt_d c = dt_d x -> dt_m c <> dt_m x -> dt_y c = dt_y x -> one_wrong c x
| ow_year : dt_d c = dt_d x -> dt_m c = dt_m x -> dt_y c <> dt_y x -> one_wrong c x.
Definition same_day (c x : datetime) : Prop := dt_d c = dt_d x /\ dt_m c = dt_m x /\ dt_y c = dt_y x.

(** the date [x] that follows [before] is typed as [c]: rightly, or with one
    mistake that puts it before the last date, or, if no value is missing,
    anywhere but at the last date *)
Inductive typed (missings : bool) (c : datetime) (before : option datetime) (x : datetime) : Prop :=
| ty_right : c = x -> typed missings c before x
| ty_back l : before = Some l -> one_wrong c x -> earlier c l -> typed missings c before x
| ty_forth l : before = Some l -> one_wrong c x -> missings = false -> earlier l c -> typed missings c before x.

(** consecutive period starts typed along a line from position [starts] on *)
Record typo_table (d : dict) (w : worksheet) (cells : list (Z * Z)) (time : Z * Z) (starts ends : Z) (f : string) (se : settings)
    (ds : list datetime) (data : list (list spec_float)) : Prop := {
  yt_ends : ends = starts + Z.of_nat (List.length ds) - 1;
  yt_many : (2 <= List.length ds)%nat;
  yt_simple : se_composed se = false;
  yt_index : forall k x, nth_error ds k = Some x -> exists c,
    along (se_align se) w (line_of (se_align se) time) (starts + Z.of_nat k) = VDate c /\ typed (se_missings se) c (date_before ds k) x;
  yt_consecutive : consecutive f ds;
  yt_start : exists x, hd_error ds = Some x /\ period_start f x;
  yt_years : Forall (fun x => real_date x /\ 1678 <= dt_y x <= 2261) ds;
  yt_after : forall rc, hd_error cells = Some rc -> depth_of (se_align se) rc < starts;
  yt_inside : 1 <= starts /\ (se_align se = Horiz -> ends < 18278);
  yt_stop : stops d w time ends se;
  yt_apart : Forall (fun rc => line_of (se_align se) rc <> line_of (se_align se) time) cells;
  yt_values : Forall2 (fun rc vs => List.length vs = List.length ds /\
    forall k x, nth_error vs k = Some x ->
      stands_for (se_missings se) (se_markers se) (along (se_align se) w (line_of (se_align se) rc) (starts + Z.of_nat k)) x) cells data
}.
