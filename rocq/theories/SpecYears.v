(** What is expected of a table of years and quarters whose time index is
    written (C78). *)
From Verif Require Import Base Cal SpecCal SpecCoord SpecParams Coord XlMethods Params ParseTime TimeIndex PeriodRange DataFrame Scrape Xlseries
  SpecTime SpecData SpecParse SpecFrames SpecScrape SpecAttempts SpecEnd SpecCycles.
Local Open Scope Z_scope.

(** *** Texts *)

(** a text that says a year, with four digits and no other ones: "2008 Year *",
    "2003 I" *)
Inductive year_said : text -> Z -> Prop :=
| ys_of a yt b y : no_digit a -> year4 yt y -> no_digit b -> year_said (a ++ yt ++ b) y.
(** one that says a quarter: "Quarter I *", "II * (2)" *)
Inductive quarter_said : text -> Z -> Prop :=
| qs_of a k s q : filler a -> roman k q -> notes s -> quarter_said (a ++ k ++ s) q.
(** one that says neither, with at most a note at the end: "Total (1)" *)
Inductive nothing_said : text -> Prop :=
| ns_plain a : a <> [] -> filler a -> nothing_said a
| ns_note a n : filler a -> note n -> nothing_said (a ++ n).

(** *** Rows *)

(** what the [k]-th row of a table stands for: a year or one of its quarters *)
Inductive period_row (f : string) (k : nat) : option Z -> Prop :=
| row_year_first : f = "AQQQQ"%string -> (k mod 5 = 0)%nat -> period_row f k None
| row_quarter_after : f = "AQQQQ"%string -> (0 < k mod 5)%nat -> period_row f k (Some (Z.of_nat (k mod 5)))
| row_quarter_before : f = "QQQQA"%string -> (k mod 5 < 4)%nat -> period_row f k (Some (Z.of_nat (k mod 5) + 1))
| row_year_last : f = "QQQQA"%string -> (k mod 5 = 4)%nat -> period_row f k None.
(** the first day of a year, or of a quarter of it *)
Inductive first_day (y : Z) : option Z -> datetime -> Prop :=
| fd_year : first_day y None (mkdt y 1 1 0)
| fd_quarter q m : quarter_month q m -> first_day y (Some q) (mkdt y m 1 0).
(** the years go up one by one from [y0] *)
Definition row_year (y0 : Z) (k : nat) : Z := y0 + Z.of_nat (k / 5).
Definition row_dates (f : string) (y0 : Z) (ds : list datetime) : Prop :=
  forall k d, nth_error ds k = Some d -> exists o, period_row f k o /\ first_day (row_year y0 k) o d.
(** the text of a row: the first row of every five says the year (and may have
    anything else but digits), the others their quarter, and the year after its
    quarters nothing *)
Inductive row_text (f : string) (y0 : Z) (k : nat) (u : text) : Prop :=
| rt_first : (k mod 5 = 0)%nat -> year_said u (row_year y0 k) -> row_text f y0 k u
| rt_quarter q : (0 < k mod 5)%nat -> period_row f k (Some q) -> quarter_said u q -> row_text f y0 k u
| rt_year : (0 < k mod 5)%nat -> period_row f k None -> nothing_said u -> row_text f y0 k u.

(** *** The table: as that of several frequencies, with texts instead of dates *)
Record year_table (d : dict) (w : worksheet) (cells : list (Z * Z)) (time : Z * Z) (starts ends : Z) (f : string) (se : settings)
    (y0 : Z) (ds : list datetime) (data : list (list spec_float)) : Prop := {
  yt_ends : ends = starts + Z.of_nat (List.length ds) - 1;
  yt_composed : se_composed se = true;
  yt_freq : f = "AQQQQ"%string /\ se_missings se = false \/ f = "QQQQA"%string;
  yt_cycles : stops_well (se_align se) (T f) (List.length ds);
  yt_index : forall k, (k < List.length ds)%nat -> exists u,
    SpecParse.says (along (se_align se) w (line_of (se_align se) time) (starts + Z.of_nat k)) u /\ row_text f y0 k u;
  yt_dates : row_dates f y0 ds;
  yt_years : 1678 <= y0 /\ row_year y0 (List.length ds) <= 2261;
  yt_after : forall rc, hd_error cells = Some rc -> depth_of (se_align se) rc < starts;
  yt_inside : 1 <= starts /\ (se_align se = Horiz -> ends < 18278);
  yt_stop : SpecEnd.stops d w time ends se;
  yt_apart : Forall (fun rc => line_of (se_align se) rc <> line_of (se_align se) time) cells;
  yt_values : Forall2 (fun rc vs => List.length vs = List.length ds /\
    forall k x, nth_error vs k = Some x ->
      stands_for (se_missings se) (se_markers se) (along (se_align se) w (line_of (se_align se) rc) (starts + Z.of_nat k)) x) cells data
}.
