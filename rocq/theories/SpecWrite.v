(** The values and the marks of a table written in another way (C91). *)
From Verif Require Import Base Cal Coord SpecCoord Params TimeIndex SpecParams SpecReach SpecData SpecValue SpecNaming.
Local Open Scope Z_scope.

(** a header of the table, something a header is composed with, or a cell in the
    row or column of a time index *)
Inductive labels (p : dict) (r c : Z) : Prop :=
| la_header i t : coordinate p (pname "headers_coord") i t -> cell_named t r c -> labels p r c
| la_composed i t : coordinate p (pname "composed_headers_coord") i t -> cell_named t r c -> labels p r c
| la_time i t al pos : coordinate p (pname "time_header_coord") i t -> layout p i al -> lies al t (r, c) pos -> labels p r c.

(** the marks for missing values of series [i]: texts, or the empty cell *)
Definition marks (p : dict) (i : nat) (ms : list pyval) : Prop :=
  series_value p (pname "missing_value") i (VList ms) /\ forall m, In m ms -> m = VNone \/ exists t, m = VStr t.
(** the same parameters, the marks apart; both or none have "Implicit", or the
    empty cell, for a mark *)
Definition other_marks (n : nat) (p p' : dict) : Prop :=
  (forall k, k <> pname "missing_value" -> dget k p' = dget k p) /\
  forall i, (i < n)%nat -> exists ms ms', marks p i ms /\ marks p' i ms' /\ forall m, m = VNone \/ m = VStr (pname "Implicit") -> (In m ms' <-> In m ms).

(** a cell that is not empty, without white space around a text *)
Definition tidy (v : pyval) : Prop := v <> VNone /\ v <> VStr [] /\ stripped v v.
(** what is read from a cell: nan for a mark, float() of anything else *)
Inductive reads (missings : bool) (ms : list pyval) (v : pyval) : spec_float -> Prop :=
| reads_mark : missings = true -> In v ms -> reads missings ms v S754_nan
| reads_number y : (missings = true -> ~ In v ms) -> py_float v = Ok y -> reads missings ms v y.
(** the same is read for series [i] from [v] with the first parameters as from
    [v'] with the second ones *)
Inductive same_reading (p p' : dict) (i : nat) (v v' : pyval) : Prop :=
| sr_same ms ms' : marks p i ms -> marks p' i ms' -> v' = v -> ms' = ms \/ (stripped v v /\ v <> VStr [] /\ (In v ms' <-> In v ms)) -> same_reading p p' i v v'
| sr_read b ms ms' y : series_value p (pname "missings") i (VBool b) -> marks p i ms -> marks p' i ms' -> tidy v -> tidy v' ->
    reads b ms v y -> reads b ms' v' y -> same_reading p p' i v v'.
(** the cell is in the row or column of the header of series [i], where its data
    starts or after it *)
Definition on_values (p : dict) (i : nat) (r c : Z) : Prop :=
  exists t al pos s, coordinate p (pname "headers_coord") i t /\ layout p i al /\ lies al t (r, c) pos /\ starts_at p i s /\ s <= pos.
(** two sheets with the same labels where the values of the series are read the
    same; everything else may differ *)
Record rewritten (n : nat) (p p' : dict) (w w' : worksheet) : Prop := {
  rw_size : same_size w w';
  rw_labels : forall r c, labels p r c -> cell w' r c = cell w r c;
  rw_values : forall i r c, (i < n)%nat -> on_values p i r c -> same_reading p p' i (cell w r c) (cell w' r c)
}.
