(** What is expected of a whole call on a table whose time index is in several
    columns or rows (C73). *)
From Verif Require Import Base Cal SpecCal SpecCoord SpecParams Coord XlMethods Params ParseTime TimeIndex PeriodRange DataFrame Scrape Xlseries
  SpecTime SpecData SpecFrames SpecScrape SpecAttempts SpecParse SpecColumns SpecEnd SpecText.
Local Open Scope Z_scope.

(** the time headers are the columns of one index: stated, or seen from there
    being another number of them than of headers, or from them being one beside
    the other *)
Definition asks_columns (d : dict) (cells times : list (Z * Z)) : Prop :=
  given_once (pname "time_multicolumn") d (VBool true) \/
  (~ given (pname "time_multicolumn") d \/ dget (pname "time_multicolumn") d = Some (VBool false)) /\
  (List.length times <> List.length cells \/ row_run times \/ column_run times).

(** the request: plain headers, two time headers or more,
    the first row (column) of the data, a frequency; the other parameters left
    out, or as stated *)
Record columns_request (d : dict) (cells times : list (Z * Z)) (starts ends : Z) (f : string) (se : settings) : Prop := {
  cq_once : NoDup (map fst d);
  cq_known : forall k, In k (map fst d) -> In k parameter_names;
  cq_headers : exists v, dget (pname "headers_coord") d = Some v /\ value_cells v cells /\ cells <> [];
  cq_time : exists v, dget (pname "time_header_coord") d = Some v /\ value_cells v times;
  cq_starts : given_once (pname "data_starts") d (VInt starts);
  cq_frequency : exists u, given_once (pname "frequency") d (VStr u) /\ freq_reading u = pname f;
  cq_ends : ~ given (pname "data_ends") d \/ given_once (pname "data_ends") d (VInt ends);
  cq_layout : layout d cells (se_align se);
  cq_continuity : says d (pname "continuity") (VBool (se_continuity se));
  cq_blanks : says d (pname "blank_rows") (VBool (se_blanks se));
  cq_missings : says d (pname "missings") (VBool (se_missings se));
  cq_markers : markers d (se_markers se);
  cq_composed : says d (pname "time_composed") (VBool (se_composed se));
  cq_aligned : says d (pname "time_alignment") (VInt 0);
  cq_columns : asks_columns d cells times;
  cq_parents : ~ given (pname "composed_headers_coord") d;
  cq_context : ~ given (pname "context") d;
  cq_several : (2 <= List.length times)%nat /\ NoDup times
}.

(** what the columns (rows) of the index say at a position, put together *)
Definition columns_say (al : align) (w : worksheet) (times : list (Z * Z)) (pos : Z) (v : pyval) : Prop :=
  exists tss, Forall2 (fun rc ts => piece (along al w (line_of al rc) pos) ts) times tss /\ said (List.concat tss) v.
(** there is no date in them at a position *)
Definition columns_dateless (al : align) (w : worksheet) (times : list (Z * Z)) (pos : Z) : Prop :=
  Forall (fun rc => plain_cell (along al w (line_of al rc) pos)) times.

(** the index ends at [ends]: it is the last position there is, or, in columns,
    rows follow that say nothing *)
Definition columns_stop (d : dict) (w : worksheet) (times : list (Z * Z)) (ends : Z) (se : settings) : Prop :=
  exists last, limit d w (se_align se) ends last /\
    (ends = last /\ columns_dateless (se_align se) w times (ends + 1) \/
     se_align se = Vert /\ ends < last /\
     (se_continuity se = true /\ se_blanks se = false /\ columns_say Vert w times (ends + 1) VNone /\ columns_dateless Vert w times (ends + 2) \/
      (forall q, ends < q <= last -> columns_say Vert w times q VNone) /\ columns_dateless Vert w times (last + 1))).

(** consecutive period starts said by several columns (rows) from position
    [starts] on, and one value beside every date for each header *)
Record columns_table (e : env) (d : dict) (w : worksheet) (cells times : list (Z * Z)) (starts ends : Z) (f : string) (se : settings)
    (ds : list datetime) (data : list (list spec_float)) : Prop := {
  lt_ends : ends = starts + Z.of_nat (List.length ds) - 1;
  lt_many : (2 <= List.length ds)%nat;
  lt_composed : se_composed se = true;
  lt_index : exists st, f = style_letter st /\
    forall k x, nth_error ds k = Some x ->
      exists v, columns_say (se_align se) w times (starts + Z.of_nat k) v /\ style_cell e st v (date_before ds k) x;
  lt_consecutive : consecutive f ds;
  lt_start : exists x, hd_error ds = Some x /\ period_start f x;
  lt_years : Forall (fun x => real_date x /\ 1678 <= dt_y x <= 2261) ds;
  lt_after : forall rc, hd_error cells = Some rc -> depth_of (se_align se) rc < starts;
  lt_inside : 1 <= starts /\ (se_align se = Horiz -> ends < 18278);
  lt_stop : columns_stop d w times ends se;
  lt_apart : forall time, hd_error times = Some time -> Forall (fun rc => line_of (se_align se) rc <> line_of (se_align se) time) cells;
  lt_values : Forall2 (fun rc vs => List.length vs = List.length ds /\
    forall k x, nth_error vs k = Some x ->
      stands_for (se_missings se) (se_markers se) (along (se_align se) w (line_of (se_align se) rc) (starts + Z.of_nat k)) x) cells data
}.
