(** What it is to move a table down a sheet (C82). *)
From Verif Require Import Base Coord SpecCoord Params TimeIndex SpecParams.
Local Open Scope Z_scope.

(** [d] rows were put above the first one; what they hold does not matter *)
Definition moved_down (d : Z) (w w' : worksheet) : Prop :=
  0 <= max_row w /\ max_row w' = max_row w + d /\ max_col w' = max_col w /\ forall r c, 1 <= r -> cell w' (r + d) c = cell w r c.
(** the usual name of a cell and that of the cell it goes to *)
Definition moved_name (d : Z) (t t' : text) : Prop :=
  exists r c, cell_named t r c /\ canonical_name t /\ cell_named t' (r + d) c /\ canonical_name t'.
(** names, lists of names and nothing *)
Inductive moved_entry (d : Z) : pyval -> pyval -> Prop :=
| me_name t t' : moved_name d t t' -> moved_entry d (VStr t) (VStr t')
| me_none : moved_entry d VNone VNone
| me_list l l' : Forall2 (moved_entry d) l l' -> moved_entry d (VList l) (VList l').
(** the number of a row, not above row [lo], or nothing *)
Inductive moved_row (d lo : Z) : pyval -> pyval -> Prop :=
| mr_row z : lo <= z -> moved_row d lo (VInt z) (VInt (z + d))
| mr_none : moved_row d lo VNone VNone.

Definition coord_params : list text := [pname "headers_coord"; pname "composed_headers_coord"; pname "time_header_coord"].
Definition row_params : list text := [pname "data_starts"; pname "data_ends"].
Definition layout_word (al : align) : text := pname match al with Vert => "vertical" | Horiz => "horizontal" end.
(** the value of parameter [k] before and after; series in columns start on
    row 2 or below, and those in rows keep the columns where they start and end *)
Inductive moved_param (al : align) (d : Z) (k : text) : pyval -> pyval -> Prop :=
| mp_layout n : k = pname "alignment" -> moved_param al d k (VList (repeat (VStr (layout_word al)) n)) (VList (repeat (VStr (layout_word al)) n))
| mp_coords l l' : In k coord_params -> Forall2 (moved_entry d) l l' -> moved_param al d k (VList l) (VList l')
| mp_starts l l' : k = pname "data_starts" -> al = Vert -> Forall2 (moved_row d 2) l l' -> moved_param al d k (VList l) (VList l')
| mp_ends l l' : k = pname "data_ends" -> al = Vert -> Forall2 (moved_row d 1) l l' -> moved_param al d k (VList l) (VList l')
| mp_number z : k = pname "data_ends" -> al = Vert -> 1 <= z -> moved_param al d k (VInt z) (VInt (z + d))
| mp_nothing : In k (coord_params ++ row_params) -> moved_param al d k VNone VNone
| mp_same v : k <> pname "alignment" -> ~ In k coord_params -> al = Horiz \/ ~ In k row_params -> moved_param al d k v v.
(** an object, and the one for the same series [d] rows below *)
Definition moved_params (al : align) (d : Z) (p p' : dict) : Prop :=
  Forall2 (fun a b => fst a = fst b /\ moved_param al d (fst a) (snd a) (snd b)) p p'.
(** the offsets of the time index, if given, are the valid ones *)
Definition valid_offsets (p : dict) : Prop :=
  forall l, dget (pname "time_alignment") p = Some (VList l) -> Forall (fun v => In v [VInt (-1); VInt 0; VInt 1]) l.
