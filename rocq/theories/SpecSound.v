(** What is expected of the numbers of an answer, whatever the sheet (C60). *)
From Verif Require Import Base SpecCoord SpecParams Coord Params ParseTime TimeIndex DataFrame Scrape SpecData SpecEnd.
Local Open Scope Z_scope.

(** values drawn from the cells of a line from position [a] to [last]: every
    one is the number in a cell after the cell of the one before it, or NaN if
    there can be missing values *)
Inductive drawn (w : worksheet) (al : align) (line last : Z) (holes : bool) : Z -> list spec_float -> Prop :=
| dw_end a : drawn w al line last holes a []
| dw_missing a vs : holes = true -> drawn w al line last holes a vs -> drawn w al line last holes a (S754_nan :: vs)
| dw_number a q x vs : a <= q <= last -> cell_number (along al w line q) x -> drawn w al line last holes (q + 1) vs ->
    drawn w al line last holes a (x :: vs).

(** the headers and the first positions of the data are lists, one entry per
    series, as a Parameters object always has them *)
Definition series_lists (p : dict) : Prop :=
  forall k, In k [pname "headers_coord"; pname "data_starts"] -> dgetN k p = VNone \/ exists l, dgetN k p = VList l.
(** all the series have a last position *)
Definition ends_given (p : dict) : Prop :=
  exists l, dgetN (pname "data_ends") p = VList l /\ Forall (fun v => exists z, v = VInt z /\ z <> 0) l.

(** values drawn from the column (or row) of the header of the j-th series, from
    data_starts on: in the alignment stated, until the data_ends stated, without
    missing values if there are said to be none *)
Definition from_header (p : dict) (w : worksheet) (j : nat) (vs : list spec_float) : Prop :=
  exists h rc al v starts last holes,
    series_value p (pname "headers_coord") j (VStr h) /\ cell_named h (fst rc) (snd rc) /\
    (series_value p (pname "alignment") j (VStr (pname "vertical")) -> al = Vert) /\
    (series_value p (pname "alignment") j (VStr (pname "horizontal")) -> al = Horiz) /\
    series_value p (pname "data_starts") j v /\ (forall z, v = VInt z -> starts = z) /\
    (ends_given p -> series_value p (pname "data_ends") j (VInt last)) /\
    (series_value p (pname "missings") j (VBool false) -> holes = false) /\
    drawn w al (line_of al rc) last holes starts vs.
