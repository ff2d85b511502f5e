(** What the compact representation of a Parameters object says, and which
    objects it gives back (C74), and what is left of an object once everything
    that is not critical is removed (C75). *)
From Verif Require Import Base SpecCoord SpecParams SpecScope SpecAttempts.
Local Open Scope Z_scope.

(** Python's default for the markers of missing values *)
Definition usual_markers : list pyval :=
  [VNone; VStr (pname "-"); VStr (pname "..."); VStr (pname "."); VStr (pname "/"); VStr (pname "///"); VStr (pname "");
   VStr (pname "s.d."); VStr (pname "s/d"); VStr (pname "n,d,"); VStr (pname "s.d"); VStr (pname " ")].

(** the parameter is one value per series, of the kind [P] *)
Definition per_series (p : dict) (n : nat) (k : string) (P : pyval -> Prop) : Prop :=
  exists l, dgetN (pname k) p = VList l /\ List.length l = n /\ Forall P l.
(** it is the same for all the series *)
Definition same_for_all (p : dict) (n : nat) (k : string) (v : pyval) : Prop := dgetN (pname k) p = VList (repeat v n).

Definition a_flag (v : pyval) : Prop := exists b, v = VBool b.
Definition a_number (v : pyval) : Prop := exists z, v = VInt z.
Definition layouts (v : pyval) : Prop := v = VStr (pname "vertical") \/ v = VStr (pname "horizontal").
Definition a_frequency (v : pyval) : Prop := exists t, v = VStr t /\ Forall (fun c => In c (pname "ASQMWD")) t.

(** cells that are not all the same *)
Definition differ (cells : list (Z * Z)) : Prop := exists a b, In a cells /\ In b cells /\ a <> b.

(** written in capitals *)
Definition in_capitals (t : text) : Prop := upper t = t.
(** these texts, in capitals, are these cells *)
Definition are_cells (ts : list text) (cs : list (Z * Z)) : Prop := names_cells ts cs /\ Forall in_capitals ts.
(** no direction can be seen from the headers: one header, two or three that
    make no run, or headers neither in one row nor in one column *)
Definition unseen (cells : list (Z * Z)) : Prop :=
  List.length cells = 1%nat \/ (List.length cells < 4)%nat /\ ~ run_after_skipping cells \/
  ~ (in_one_row cells /\ NoDup (map snd cells)) /\ ~ (in_one_column cells /\ NoDup (map fst cells)).

(** the time header: the same cell for all the series; the same columns for all
    of them; or one cell per series, not a run of cells *)
Inductive time_of (p : dict) (n : nat) : Prop :=
| to_cell t r c : same_for_all p n "time_header_coord" (VStr t) -> are_cells [t] [(r, c)] ->
    same_for_all p n "time_multicolumn" (VBool false) -> time_of p n
| to_columns ts cs : same_for_all p n "time_header_coord" (VList (map VStr ts)) ->
    are_cells ts cs -> NoDup cs -> (2 <= List.length cs <= n)%nat ->
    same_for_all p n "time_multicolumn" (VBool true) -> time_of p n
| to_each ts cs : dgetN (pname "time_header_coord") p = VList (map VStr ts) ->
    are_cells ts cs -> List.length cs = n -> differ cs -> ~ run_after_skipping cs ->
    same_for_all p n "time_multicolumn" (VBool false) -> time_of p n.

(** a complete object, or one with flags or the alignment left out, whose series
    have neither composed headers nor context, and markers in common *)
Record restorable (p : dict) (n : nat) (cells : list (Z * Z)) (z : Z) : Prop := {
  rs_headers : exists hs, dgetN (pname "headers_coord") p = VList (map VStr hs) /\
    are_cells hs cells /\ List.length cells = n;
  rs_differ : n = 1%nat \/ differ cells;
  rs_time : time_of p n;
  rs_starts : per_series p n "data_starts" a_number /\ series_value p (pname "data_starts") 0 (VInt z);
  rs_frequency : per_series p n "frequency" a_frequency;
  rs_ends : per_series p n "data_ends" (fun v => a_number v \/ v = VNone);
  rs_names : per_series p n "series_names" (fun v => a_text v \/ v = VNone);
  rs_aligned : per_series p n "time_alignment" (fun v => v = VInt (-1) \/ v = VInt 0 \/ v = VInt 1);
  rs_flags : forall k, In k ["continuity"; "blank_rows"; "missings"; "time_composed"]%string ->
    dgetN (pname k) p = VNone \/ per_series p n k a_flag;
  rs_layout : dgetN (pname "alignment") p = VNone /\ unseen cells \/ per_series p n "alignment" layouts;
  rs_markers : exists m, same_for_all p n "missing_value" (VList m) /\ (forall x m', m <> VList x :: m') /\ Forall (fun v => py_eq v v = true) m;
  rs_plain : same_for_all p n "composed_headers_coord" VNone /\ same_for_all p n "context" VNone;
  rs_after : match cells with
    | [] => False
    | (r0, c0) :: others =>
        (same_for_all p n "alignment" (VStr (pname "vertical")) \/
         dgetN (pname "alignment") p = VNone /\ others <> [] /\ in_one_row cells /\ NoDup (map snd cells) -> r0 < z) /\
        (same_for_all p n "alignment" (VStr (pname "horizontal")) \/
         dgetN (pname "alignment") p = VNone /\ others <> [] /\ in_one_column cells /\ NoDup (map fst cells) -> c0 < z)
    end
}.

(** an item of the compact representation: the value all the series have, or the
    values of the series *)
Inductive compacted (v : pyval) : pyval -> Prop :=
| cp_same x l : v = VList (x :: l) -> Forall (fun y => py_eq y x = true) l -> compacted v x
| cp_each l : v = VList l -> (exists x l', l = x :: l' /\ Exists (fun y => py_eq y x = false) (x :: l')) -> compacted v v
| cp_one : ~ is_list_value v -> v <> VNone -> compacted v v.
(** what is left out: a missing parameter, an optional one that is None for all
    the series, and one whose item would be its default *)
Inductive left_out (k : text) (v : pyval) : Prop :=
| lt_missing : v = VNone -> left_out k v
| lt_optional : In k optional_names -> compacted v VNone -> left_out k v
| lt_default def x : In (k, def) [(pname "time_alignment", VInt 0); (pname "missing_value", VList usual_markers)] ->
    compacted v x -> py_eq def x = true -> left_out k v.

(** ** C75 Removing what is not critical *)
(** what is never removed *)
Definition kept_names : list text := critical_names ++ map pname ["time_alignment"; "missing_value"; "time_multicolumn"]%string.
(** what is searched for when it is missing, but for what has a default or is guessed *)
Definition removed_names : list text := map pname ["alignment"; "continuity"; "blank_rows"; "missings"; "time_composed"]%string.
(** the series do not all have the same value *)
Definition series_differ (p : dict) (k : text) : Prop :=
  exists x l, dgetN k p = VList (x :: l) /\ ~ is_list_value x /\ Exists (fun y => py_eq y x = false) l.
(** lists are not empty, and hold either lists first or nothing but plain values *)
Definition comparable (v : pyval) : Prop :=
  forall l, v = VList l -> l <> [] /\
    ((exists x l', l = VList x :: l') \/ Forall (fun y => ~ is_list_value y /\ ~ a_dict y /\ py_eq y y = true) l).
Record only_critical_left (p q : dict) (n : nat) (differents : bool) : Prop := {
  oc_object : parameters_object q;
  oc_kept : forall k, In k kept_names -> dgetN k q = dgetN k p;
  oc_optional : forall k, In k optional_names -> dgetN k q = VList (repeat VNone n);
  oc_removed : forall k, In k removed_names -> differents = true \/ ~ series_differ p k -> dgetN k q = VNone;
  oc_differ : forall k, In k removed_names -> differents = false -> series_differ p k -> dgetN k q = dgetN k p
}.
