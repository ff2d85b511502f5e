(** What is expected of a whole call on a table with a note right below its last
    date (C65). *)
From Verif Require Import Base Cal SpecCal SpecCoord SpecParams Coord XlMethods Params ParseTime TimeIndex PeriodRange DataFrame Scrape Xlseries
  SpecTime SpecData SpecFrames SpecScrape SpecParse SpecSimple SpecEnd SpecText SpecColumns SpecNotes.
Local Open Scope Z_scope.

(** the cells [vs] say the dates [ds] and [note] is a note below them *)
Inductive noted_cells (e : env) (f : string) (composed : bool) (vs : list pyval) (ds : list datetime) (note : pyval) : Prop :=
| nc_texts R : composed = true -> composed_style e f R -> one_by_one (fun v before x => ~ blank_cell v /\ R v before x) vs ds ->
    note_cell e f note -> noted_cells e f composed vs ds note
| nc_dates x : composed = false -> vs = map VDate ds -> nth_error ds (List.length ds - 1) = Some x -> dt_d x = 1 -> dt_s x = 0 ->
    note_below_dates e note -> noted_cells e f composed vs ds note.

(** consecutive period starts written along a column from row [starts] on, with a
    note right below, and one value beside every date for each header *)
Record noted_table (e : env) (d : dict) (w : worksheet) (cells : list (Z * Z)) (time : Z * Z) (starts ends : Z) (f : string) (se : settings)
    (ds : list datetime) (data : list (list spec_float)) : Prop := {
  no_column : se_align se = Vert;
  no_open : ~ given (pname "data_ends") d;
  no_ends : ends = starts + Z.of_nat (List.length ds) - 1;
  no_many : (2 <= List.length ds)%nat;
  no_index : exists vs, (forall k v, nth_error vs k = Some v -> cell w (starts + Z.of_nat k) (snd time) = v) /\
    noted_cells e f (se_composed se) vs ds (cell w (ends + 1) (snd time));
  no_consecutive : consecutive f ds;
  no_start : exists x, hd_error ds = Some x /\ period_start f x;
  no_years : Forall (fun x => real_date x /\ 1678 <= dt_y x <= 2261) ds;
  no_after : forall rc, hd_error cells = Some rc -> fst rc < starts;
  no_inside : 1 <= starts /\ ends < max_row w;
  no_apart : Forall (fun rc => snd rc <> snd time) cells;
  no_values : Forall2 (fun rc vs => List.length vs = List.length ds /\
    forall k x, nth_error vs k = Some x -> stands_for (se_missings se) (se_markers se) (cell w (starts + Z.of_nat k) (snd rc)) x) cells data
}.
