(** What is expected of the cleaning of a time index (C24 - C29). *)
From Verif Require Import Base SpecCal SpecCoord Coord Params ParseTime TimeIndex.
Local Open Scope Z_scope.

(** the coordinate of the header of the time index; the clean dates of an index
    in several columns (rows) go to the first one *)
Inductive index_header (p : sp) : text -> Prop :=
| ih_one t : sp_th p = ThStr t -> index_header p t
| ih_first t ts : sp_th p = ThList (t :: ts) -> index_header p t.

(** the cell of the time index at a position: that row of the header's column,
    or that column of the header's row *)
Inductive index_cell (p : sp) (pos : Z) : Z -> Z -> Prop :=
| ic_column t r c : sp_al p = Vert -> index_header p t -> cell_named t r c -> index_cell p pos pos c
| ic_row t r c : sp_al p = Horiz -> index_header p t -> cell_named t r c -> index_cell p pos r pos.
(** what the time index holds at a position *)
Definition holds (p : sp) (w : worksheet) (pos : Z) (v : pyval) : Prop :=
  exists r c, index_cell p pos r c /\ cell w r c = v.
Definition holds_date (p : sp) (w : worksheet) (pos : Z) : Prop := exists d, holds p w pos (VDate d).

(** every date of the sheet is a date of the calendar, as datetime guarantees *)
Definition real_dates (w : worksheet) : Prop := forall r c d, cell w r c = VDate d -> real_date d.

Definition single_frequency (p : sp) : Prop := List.length (sp_freq p) = 1%nat.
(** the marker of missing data is not the bare text "Implicit"; Parameters
    always makes a list of the marker of a series *)
Definition explicit_marker (p : sp) : Prop := sp_mv p <> VStr (T "Implicit").

(** the last position that can belong to the index: data_ends, or the last row
    (column) of the sheet *)
Inductive last_one (p : sp) (w : worksheet) : Z -> Prop :=
| lo_given z : sp_ends p = Some z -> last_one p w z
| lo_rows : sp_ends p = None -> sp_al p = Vert -> last_one p w (max_row w)
| lo_cols : sp_ends p = None -> sp_al p = Horiz -> last_one p w (max_col w).

(** exactly one period later *)
Inductive one_period (f : string) (a b : datetime) : Prop :=
| op_days k : period_days f = Some k -> days_after k a b -> one_period f a b
| op_months k : period_months f = Some k -> months_after k a b -> one_period f a b.
Definition periodic (f : string) : Prop := In f ["D"; "W"; "M"; "Q"; "A"]%string.

(** blank characters and cells without a time value; numbers with decimals are
    values, not dates, when the index is not aligned with the data *)
Definition white (c : ascii) : Prop := In (nat_of_ascii c) [9; 10; 11; 12; 13; 28; 29; 30; 31; 32]%nat.
Inductive no_time (p : sp) : pyval -> Prop :=
| nt_empty : no_time p VNone
| nt_white t : Forall white t -> no_time p (VStr t)
| nt_float f : sp_ta p <> 0 -> no_time p (VFloat f).
Definition blank_at (p : sp) (w : worksheet) (pos : Z) : Prop := exists v, holds p w pos v /\ no_time p v.
(** the index is in one column (row) *)
Definition one_line (p : sp) : Prop := sp_multi p = false.
Definition tolerates_blanks (p : sp) : Prop := sp_cont p = false \/ sp_blank p = true.
(** the time index ends at position [m]: it is the last one of the sheet (or the
    data_ends), or, in a column, only blanks follow, or one does and blanks are
    not skipped *)
Definition index_ends (p : sp) (w : worksheet) (m : Z) : Prop :=
  exists last, last_one p w last /\
    (m = last \/
     sp_al p = Vert /\ m < last /\
     ((blank_at p w (m + 1) /\ ~ tolerates_blanks p) \/ forall q, m < q <= last -> blank_at p w q)).

(** the reading of the index of [w] stopped at [stop] leaving [w']: the cells
    before it with something in them became dates (or were emptied, when the
    month is impossible), the blanks and the cells after it are as they were *)
Definition read_until (p : sp) (w w' : worksheet) (stop : Z) : Prop :=
  (forall q, sp_starts p <= q < stop -> blank_at p w q \/ holds_date p w' q \/ holds p w' q VNone) /\
  (forall q v, sp_starts p <= q -> blank_at p w q \/ stop < q -> holds p w q v -> holds p w' q v).

(** the index holds, between two positions, only dates and blanks, the dates in
    chronological order *)
Definition dated (p : sp) (w : worksheet) (a b : Z) : Prop :=
  (forall q, a <= q <= b -> blank_at p w q \/ holds_date p w q) /\
  (forall i j x y, a <= i -> i < j -> j <= b -> holds p w i (VDate x) -> holds p w j (VDate y) -> earlier x y).
(** and every date is one period after the one before *)
Definition stepwise (p : sp) (f : string) (w : worksheet) (a b : Z) : Prop :=
  forall i j x y, a <= i -> i < j -> j <= b -> holds p w i (VDate x) -> holds p w j (VDate y) ->
  (forall k, i < k < j -> ~ holds_date p w k) -> one_period f x y.
(** dates with room for some more periods before year 10000 *)
Definition before_9999 (p : sp) (w : worksheet) (a b : Z) : Prop :=
  forall q d, a <= q <= b -> holds p w q (VDate d) -> dt_y d < 9999.
Definition frequency_letter (f : string) : Prop := In f ["D"; "W"; "M"; "Q"; "S"; "A"]%string.
(** every date may be kept as it is: gaps allowed, or none *)
Definition no_typos (p : sp) (f : string) (w : worksheet) (a b : Z) : Prop :=
  sp_missings p = true /\ explicit_marker p \/ sp_missings p = false /\ stepwise p f w a b.
(** no run of more than 40 blanks, or of none at all *)
Definition short_runs (p : sp) (w : worksheet) (a b : Z) : Prop :=
  (tolerates_blanks p /\ forall q, a <= q -> q + 40 <= b -> exists k, q <= k <= q + 40 /\ holds_date p w k) \/
  (forall q, a <= q <= b -> holds_date p w q).
(** all the positions of the index are cells of a worksheet: openpyxl has no
    row or column 0 and no column after ZZZ; the cell after the last one is
    looked at too *)
Definition within_sheet (p : sp) (a b : Z) : Prop :=
  1 <= a /\ match sp_al p with Vert => True | Horiz => b < 18278 end.
