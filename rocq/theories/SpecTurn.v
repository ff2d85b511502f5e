(** What it is to turn a sheet and its parameters (C39). *)
From Verif Require Import Base Coord SpecCoord Params TimeIndex SpecParams SpecEnd.
Local Open Scope Z_scope.

(** rows become columns *)
Definition turned (w w' : worksheet) : Prop :=
  max_row w' = max_col w /\ max_col w' = max_row w /\ forall r c, cell w' c r = cell w r c.
(** the usual name of a cell and that of the cell it goes to *)
Definition turned_name (t t' : text) : Prop :=
  exists r c, cell_named t r c /\ canonical_name t /\ cell_named t' c r /\ canonical_name t'.
(** names, lists of names and nothing *)
Inductive turned_entry : pyval -> pyval -> Prop :=
| te_name t t' : turned_name t t' -> turned_entry (VStr t) (VStr t')
| te_none : turned_entry VNone VNone
| te_list l l' : Forall2 turned_entry l l' -> turned_entry (VList l) (VList l').

Definition coord_names : list text := [pname "headers_coord"; pname "composed_headers_coord"; pname "time_header_coord"].
(** the value of parameter [k] in rows, and in columns *)
Inductive turned_param (k : text) : pyval -> pyval -> Prop :=
| tp_layout n : k = pname "alignment" ->
    turned_param k (VList (repeat (VStr (pname "horizontal")) n)) (VList (repeat (VStr (pname "vertical")) n))
| tp_coords l l' : In k coord_names -> Forall2 turned_entry l l' -> turned_param k (VList l) (VList l')
| tp_no_coords : In k coord_names -> turned_param k VNone VNone
| tp_same v : k <> pname "alignment" -> ~ In k coord_names -> turned_param k v v.
(** an object for series in rows, and the one for the same series in columns *)
Definition turned_params (p p' : dict) : Prop :=
  Forall2 (fun a b => fst a = fst b /\ turned_param (fst a) (snd a) (snd b)) p p'.

(** every frequency is one letter *)
Definition single_letters (p : dict) : Prop :=
  exists l, dget (pname "frequency") p = Some (VList l) /\ Forall (fun v => exists c, v = VStr [c]) l.

(** the other place of a cell, the other layout *)
Definition across (rc : Z * Z) : Z * Z := (snd rc, fst rc).
Definition in_columns (se : settings) : settings := mkset Vert (se_continuity se) (se_blanks se) (se_missings se) (se_markers se) (se_composed se).
