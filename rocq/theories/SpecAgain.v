(** Calling again on a sheet that a call has cleaned (C85). *)
From Verif Require Import Base Cal Coord SpecCoord Params TimeIndex SpecParams SpecReach.
Local Open Scope Z_scope.

(** what the object says of its [n] series: a time index in one row or column,
    under (or beside) the cell called [t], whose dates are not composed; the
    first position [s]; the last one [en], that may be missing when it is a
    column; and the marks that stand for missing values *)
Definition says_all (n : nat) (p : dict) (k : string) (v : pyval) : Prop := dget (pname k) p = Some (VList (repeat v n)).
Record plain_index (n : nat) (p : dict) (al : align) (t : text) (s : Z) (en : option Z) : Prop := {
  pi_align : says_all n p "alignment" (VStr (pname match al with Vert => "vertical" | Horiz => "horizontal" end));
  pi_header : says_all n p "time_header_coord" (VStr t);
  pi_column : says_all n p "time_multicolumn" (VBool false);
  pi_composed : says_all n p "time_composed" (VBool false);
  pi_starts : says_all n p "data_starts" (VInt s);
  pi_ends : says_all n p "data_ends" (match en with Some z => VInt z | None => VNone end);
  pi_marks : exists l, says_all n p "missing_value" (VList l);
  pi_known : en <> Some 0 /\ (al = Horiz -> en <> None)
}.

(** nothing, or only white space *)
Definition empty_cell (v : pyval) : Prop := v = VNone \/ exists t, v = VStr t /\ strip t = [].
(** a call on [w] left [w']: it put a date in every cell of the index that was
    not empty, down to the last position *)
Definition all_dated (al : align) (t : text) (s : Z) (en : option Z) (w w' : worksheet) : Prop :=
  forall r c pos, lies al t (r, c) pos -> s <= pos <= match en with Some z => z | None => max_row w end ->
    (exists d, cell w' r c = VDate d) \/ empty_cell (cell w r c).
