(** What is expected of a whole call on a clean sheet (C38, C55). *)
From Verif Require Import Base Cal SpecCal SpecCoord SpecParams Coord XlMethods Params ParseTime TimeIndex PeriodRange DataFrame Scrape Xlseries
  SpecTime SpecData SpecFrames SpecScrape SpecAttempts.
Local Open Scope Z_scope.

(** dates one period after the other *)
Inductive consecutive (f : string) : list datetime -> Prop :=
| con_one d : consecutive f [d]
| con_more a b l : one_period f a b -> consecutive f (b :: l) -> consecutive f (a :: b :: l).

(** ** C55 A dictionary of parameters that is well formed *)
Definition parameter_names : list text :=
  map pname ["alignment"; "series_names"; "headers_coord"; "composed_headers_coord"; "context";
             "data_starts"; "data_ends"; "continuity"; "blank_rows"; "missings"; "missing_value";
             "time_alignment"; "time_multicolumn"; "time_header_coord"; "time_composed"; "frequency"]%string.

(** no context, or texts given to horizontal ranges of cells *)
Definition context_fits (d : dict) : Prop :=
  ~ given (pname "context") d \/
  exists entries : list ctx_entry,
    dget (pname "context") d = Some (VDict (map fst entries)) /\
    Forall (fun e => value_cells (snd (fst e)) (ce_cells e)) entries /\
    Forall (fun e => (2 <= List.length (ce_cells e))%nat /\ in_one_row (ce_cells e)) entries.

(** names known and given once, values of the right kind, the cells of the
    headers and of the time header readable, the first data row or column an
    integer, the missing value markers not given series by series *)
Record well_formed (d : dict) (headers : list (Z * Z)) (starts : Z) : Prop := {
  wf_once : NoDup (map fst d);
  wf_values : forall k v, In (k, v) d -> In k parameter_names /\ acceptable k v;
  wf_headers : exists v, dget (pname "headers_coord") d = Some v /\ header_cells v headers;
  wf_time : exists v cells, dget (pname "time_header_coord") d = Some v /\ value_cells v cells /\ cells <> [];
  wf_starts : first_data d starts;
  wf_frequency : given (pname "frequency") d;
  wf_markers : forall m l, dget (pname "missing_value") d <> Some (VList (VList m :: l));
  wf_context : context_fits d
}.

(** the data are declared after the first header: below it in a vertical
    layout, to its right in a horizontal one (stated, or seen from the headers
    being in one row or in one column) *)
Definition data_after_header (d : dict) (headers : list (Z * Z)) (starts : Z) : Prop :=
  match headers with
  | [] => False
  | (r0, c0) :: others =>
      (dget (pname "alignment") d = Some (VStr (pname "vertical")) \/
       dget (pname "alignment") d = None /\ others <> [] /\
         in_one_row headers /\ NoDup (map snd headers) -> r0 < starts) /\
      (dget (pname "alignment") d = Some (VStr (pname "horizontal")) \/
       dget (pname "alignment") d = None /\ others <> [] /\
         in_one_column headers /\ NoDup (map fst headers) -> c0 < starts)
  end.

(** ** C38 A clean table and a request for it *)

(** a value given for all the series, or left to its default *)
Definition says (d : dict) (k : text) (v : pyval) : Prop :=
  given_once k d v \/ ~ given k d /\ exists vv, In (k, vv, v) searchable.
(** where the series are: given, or seen from the headers *)
Inductive layout (d : dict) (cells : list (Z * Z)) : align -> Prop :=
| ly_vertical : given_once (pname "alignment") d (VStr (pname "vertical")) -> layout d cells Vert
| ly_horizontal : given_once (pname "alignment") d (VStr (pname "horizontal")) -> layout d cells Horiz
| ly_default : ~ given (pname "alignment") d ->
    ~ ((2 <= List.length cells)%nat /\ in_one_column cells /\ NoDup (map fst cells)) -> layout d cells Vert
| ly_column : ~ given (pname "alignment") d -> (2 <= List.length cells)%nat ->
    (4 <= List.length cells)%nat /\ in_one_column cells /\ NoDup (map fst cells) \/ column_run cells -> layout d cells Horiz.
(** the markers of missing values *)
Inductive markers (d : dict) : list pyval -> Prop :=
| mk_one v : dget (pname "missing_value") d = Some v -> v <> VNone -> ~ is_list_value v -> markers d [v]
| mk_list l : dget (pname "missing_value") d = Some (VList l) -> (forall x l', l <> VList x :: l') -> markers d l
| mk_default : ~ given (pname "missing_value") d ->
    markers d [VNone; VStr (pname "-"); VStr (pname "..."); VStr (pname "."); VStr (pname "/"); VStr (pname "///"); VStr (pname "");
               VStr (pname "s.d."); VStr (pname "s/d"); VStr (pname "n,d,"); VStr (pname "s.d"); VStr (pname " ")].

Record settings := mkset { se_align : align; se_continuity : bool; se_blanks : bool; se_missings : bool; se_markers : list pyval;
  se_composed : bool }.

(** the request: plain headers, one time header, the first row (column) of the
    data, a frequency; the other parameters left out, or as stated *)
Record request (d : dict) (cells : list (Z * Z)) (time : Z * Z) (starts ends : Z) (f : string) (se : settings) : Prop := {
  rq_once : NoDup (map fst d);
  rq_known : forall k, In k (map fst d) -> In k parameter_names;
  rq_headers : exists v, dget (pname "headers_coord") d = Some v /\ value_cells v cells /\ cells <> [];
  rq_time : exists t, given_once (pname "time_header_coord") d (VStr t) /\ cell_named t (fst time) (snd time);
  rq_starts : given_once (pname "data_starts") d (VInt starts);
  rq_frequency : exists u, given_once (pname "frequency") d (VStr u) /\ freq_reading u = pname f;
  rq_ends : ~ given (pname "data_ends") d \/ given_once (pname "data_ends") d (VInt ends);
  rq_layout : layout d cells (se_align se);
  rq_continuity : says d (pname "continuity") (VBool (se_continuity se));
  rq_blanks : says d (pname "blank_rows") (VBool (se_blanks se));
  rq_missings : says d (pname "missings") (VBool (se_missings se));
  rq_markers : markers d (se_markers se);
  rq_composed : says d (pname "time_composed") (VBool (se_composed se));
  rq_aligned : says d (pname "time_alignment") (VInt 0);
  rq_one_column : ~ given (pname "time_multicolumn") d \/ dget (pname "time_multicolumn") d = Some (VBool false);
  rq_parents : ~ given (pname "composed_headers_coord") d;
  rq_context : ~ given (pname "context") d
}.
(** nothing but the critical parameters *)
Definition only_critical (d : dict) : Prop := forall k, In k (map fst d) -> In k critical_names.

(** the column (row) of a cell, the row (column) it is in, and the cells of one *)
Definition line_of (al : align) (rc : Z * Z) : Z := match al with Vert => snd rc | Horiz => fst rc end.
Definition depth_of (al : align) (rc : Z * Z) : Z := match al with Vert => fst rc | Horiz => snd rc end.
Definition along (al : align) (w : worksheet) (line pos : Z) : pyval :=
  match al with Vert => cell w pos line | Horiz => cell w line pos end.
Definition blank_cell (v : pyval) : Prop := v = VNone \/ exists t, v = VStr t /\ Forall white t.

(** what a cell stands for: its number, or NaN when it is one of the markers *)
Inductive stands_for (missings : bool) (ms : list pyval) (v : pyval) : spec_float -> Prop :=
| sf_number x : cell_number v x ->
    (missings = true -> forall u k, v = u \/ stripped v u -> In k ms -> py_eq u k = false) -> stands_for missings ms v x
| sf_marker k : missings = true -> v <> VNone -> v <> VStr [] -> stripped v v -> In k ms -> py_eq v k = true ->
    stands_for missings ms v S754_nan.

(** the last position the index can have *)
Inductive limit (d : dict) (w : worksheet) (al : align) (ends : Z) : Z -> Prop :=
| li_given : given (pname "data_ends") d -> limit d w al ends ends
| li_sheet : ~ given (pname "data_ends") d -> limit d w al ends (match al with Vert => max_row w | Horiz => max_col w end).

(** the index ends at [ends]: it is the last position there is, or, in a column,
    blanks follow *)
Definition stops (d : dict) (w : worksheet) (time : Z * Z) (ends : Z) (se : settings) : Prop :=
  exists last, limit d w (se_align se) ends last /\
    (ends = last \/
     se_align se = Vert /\ ends < last /\
     (se_continuity se = true /\ se_blanks se = false /\ blank_cell (cell w (ends + 1) (snd time)) \/
      forall q, ends < q <= last -> blank_cell (cell w q (snd time)))).

(** consecutive period starts along a line from position [starts] on, ending
    with the sheet or (in a column) before blanks, and one value beside every
    date for each header *)
Record clean_table (d : dict) (w : worksheet) (cells : list (Z * Z)) (time : Z * Z) (starts ends : Z) (f : string) (se : settings)
    (ds : list datetime) (data : list (list spec_float)) : Prop := {
  ct_ends : ends = starts + Z.of_nat (List.length ds) - 1;
  ct_plain : se_composed se = false;
  ct_many : (2 <= List.length ds)%nat;
  ct_dates : forall k x, nth_error ds k = Some x -> along (se_align se) w (line_of (se_align se) time) (starts + Z.of_nat k) = VDate x;
  ct_consecutive : consecutive f ds;
  ct_start : exists x, hd_error ds = Some x /\ period_start f x;
  ct_years : Forall (fun x => 1678 <= dt_y x <= 2261) ds;
  ct_after : forall rc, hd_error cells = Some rc -> depth_of (se_align se) rc < starts;
  ct_inside : 1 <= starts /\ (se_align se = Horiz -> ends < 18278);
  ct_stop : stops d w time ends se;
  ct_values : Forall2 (fun rc vs => List.length vs = List.length ds /\
    forall k x, nth_error vs k = Some x ->
      stands_for (se_missings se) (se_markers se) (along (se_align se) w (line_of (se_align se) rc) (starts + Z.of_nat k)) x) cells data
}.

(** the names: given, or the texts of the headers without the blanks around them *)
Inductive table_names (e : env) (d : dict) (w : worksheet) (cells : list (Z * Z)) (names : list text) : Prop :=
| tn_given : dget (pname "series_names") d = Some (VList (map VStr names)) -> List.length names = List.length cells ->
    Forall (fun n => n <> []) names -> table_names e d w cells names
| tn_headers : ~ given (pname "series_names") d ->
    Forall2 (fun rc n => exists u, written_as e (cell w (fst rc) (snd rc)) u /\ stripped (VStr u) (VStr n)) cells names ->
    table_names e d w cells names.

(** the request with nothing but the critical parameters *)
Record critical_request (d : dict) (cells : list (Z * Z)) (time : Z * Z) (starts : Z) (f : string) : Prop := {
  cr_once : NoDup (map fst d);
  cr_only : only_critical d;
  cr_headers : exists v, dget (pname "headers_coord") d = Some v /\ value_cells v cells /\ cells <> [];
  cr_time : exists t, given_once (pname "time_header_coord") d (VStr t) /\ cell_named t (fst time) (snd time);
  cr_starts : given_once (pname "data_starts") d (VInt starts);
  cr_frequency : exists u, given_once (pname "frequency") d (VStr u) /\ freq_reading u = pname f;
  cr_layout : ~ ((2 <= List.length cells)%nat /\ in_one_column cells /\ NoDup (map fst cells))
}.
(** dates one period after the other in the time column from the first data row
    on, a number beside each of them in the column of every header, and nothing
    but blanks below the dates *)
Record clean_columns (w : worksheet) (cells : list (Z * Z)) (time : Z * Z) (starts : Z) (f : string)
    (ds : list datetime) (data : list (list spec_float)) : Prop := {
  cc_many : (2 <= List.length ds)%nat;
  cc_first : 1 <= starts /\ forall rc, hd_error cells = Some rc -> fst rc < starts;
  cc_dates : forall k x, nth_error ds k = Some x -> cell w (starts + Z.of_nat k) (snd time) = VDate x;
  cc_consecutive : consecutive f ds;
  cc_start : exists x, hd_error ds = Some x /\ period_start f x;
  cc_years : Forall (fun x => 1678 <= dt_y x <= 2261) ds;
  cc_below : starts + Z.of_nat (List.length ds) - 1 <= max_row w /\
    (starts + Z.of_nat (List.length ds) - 1 < max_row w -> blank_cell (cell w (starts + Z.of_nat (List.length ds)) (snd time)));
  cc_values : Forall2 (fun rc vs => List.length vs = List.length ds /\
    forall k x, nth_error vs k = Some x -> cell_number (cell w (starts + Z.of_nat k) (snd rc)) x) cells data
}.
