(** What it is to put the columns of a sheet in other places (C84). *)
From Verif Require Import Base Coord SpecCoord Params TimeIndex SpecParams SpecMove.
Local Open Scope Z_scope.

(** the lines of series in columns are columns, and those of series in rows
    are rows: the cells of a line, how long the lines are and how many *)
Definition at_line (al : align) (w : worksheet) (l q : Z) : pyval := match al with Vert => cell w q l | Horiz => cell w l q end.
Definition length_of (al : align) (w : worksheet) : Z := match al with Vert => max_row w | Horiz => max_col w end.
Definition lines_of (al : align) (w : worksheet) : Z := match al with Vert => max_col w | Horiz => max_row w end.

(** [u l l'] says that line [l] of a sheet is line [l'] of another one *)
Definition one_to_one (u : Z -> Z -> Prop) : Prop := forall a a' b b', u a a' -> u b b' -> (a = b <-> a' = b').
Record rearranged (al : align) (u : Z -> Z -> Prop) (w w' : worksheet) : Prop := {
  re_length : length_of al w' = length_of al w;
  re_inside : forall l l', u l l' -> 1 <= l <= lines_of al w /\ 1 <= l' <= lines_of al w';
  re_cells : forall l l' q, u l l' -> at_line al w' l' q = at_line al w l q }.

(** the usual name of a cell and that of the cell it goes to *)
Definition placed_name (al : align) (u : Z -> Z -> Prop) (t t' : text) : Prop :=
  exists r c r' c', cell_named t r c /\ canonical_name t /\ cell_named t' r' c' /\ canonical_name t' /\
    match al with Vert => r' = r /\ u c c' | Horiz => c' = c /\ u r r' end.
(** names, lists of names and nothing *)
Inductive placed_entry (al : align) (u : Z -> Z -> Prop) : pyval -> pyval -> Prop :=
| pe_name t t' : placed_name al u t t' -> placed_entry al u (VStr t) (VStr t')
| pe_none : placed_entry al u VNone VNone
| pe_list l l' : Forall2 (placed_entry al u) l l' -> placed_entry al u (VList l) (VList l').
(** the value of parameter [k] before and after: all the series are in columns,
    or all in rows, and only the coordinates change *)
Inductive placed_param (al : align) (u : Z -> Z -> Prop) (k : text) : pyval -> pyval -> Prop :=
| pp_layout n : k = pname "alignment" -> placed_param al u k (VList (repeat (VStr (layout_word al)) n)) (VList (repeat (VStr (layout_word al)) n))
| pp_coords l l' : In k coord_params -> Forall2 (placed_entry al u) l l' -> placed_param al u k (VList l) (VList l')
| pp_nothing : In k coord_params -> placed_param al u k VNone VNone
| pp_same v : k <> pname "alignment" -> ~ In k coord_params -> placed_param al u k v v.
Definition placed_params (al : align) (u : Z -> Z -> Prop) (p p' : dict) : Prop :=
  Forall2 (fun a b => fst a = fst b /\ placed_param al u (fst a) (snd a) (snd b)) p p'.
