(** What is expected of the search over missing parameters (C16 - C18), stated
    without the functions of the model. *)
From Verif Require Import Base SpecParams.
Local Open Scope Z_scope.

(** the parameters that can be searched for: name, valid values, default *)
Definition searchable : list (text * list pyval * pyval) :=
  let flags := [VBool true; VBool false] in
  [ (pname "alignment", [VStr (pname "vertical"); VStr (pname "horizontal")], VStr (pname "vertical"));
    (pname "continuity", flags, VBool true);
    (pname "blank_rows", flags, VBool false);
    (pname "missings", flags, VBool false);
    (pname "time_composed", flags, VBool false);
    (pname "time_multicolumn", flags, VBool false);
    (pname "time_alignment", [VInt (-1); VInt 0; VInt 1], VInt 0) ].

(** a Parameters object holds None for [k], which is not an optional parameter *)
Definition optional_names : list text :=
  map pname ["series_names"; "data_ends"; "composed_headers_coord"; "context"]%string.
Definition unset (p : dict) (k : text) : Prop := dget k p = Some VNone /\ ~ In k optional_names.

(** a combination gives every missing name one of its values, and nothing else *)
Definition combination (missing : list (text * list pyval)) (c : dict) : Prop :=
  (forall k v, dget k c = Some v -> exists vv, In (k, vv) missing /\ In v vv) /\
  (forall k vv, In (k, vv) missing -> exists v, dget k c = Some v).
Definition same_choice (c c' : dict) : Prop := forall k, dget k c = dget k c'.

(** the combination in force for all the [n] series of the parameters [a] *)
Definition in_force (a c : dict) (n : nat) : Prop :=
  forall k v i, dget k c = Some v -> (i < n)%nat -> series_value a k i v.

(** the unset parameters of [p] with their valid values *)
Definition to_search (p : dict) (missing : list (text * list pyval)) : Prop :=
  NoDup (map fst missing) /\
  (forall k, In k (map fst missing) <-> unset p k) /\
  (forall k vv, In (k, vv) missing -> exists d, In (k, vv, d) searchable).

(** [p] says something about every series, but for what is unset or optional;
    a time header list has at least two entries or one per series *)
Definition says_enough (p : dict) (n : nat) : Prop :=
  forall k v, In (k, v) p -> ~ In k optional_names -> v <> VNone ->
    exists l, v = VList l /\
      (if text_eqb k (pname "time_header_coord") then (Nat.min 2 n <= List.length l)%nat
       else List.length l = n).

(** a Parameters object: exactly these attributes *)
Definition parameters_object (p : dict) : Prop :=
  map fst p = map pname
    ["alignment"; "series_names"; "headers_coord"; "composed_headers_coord"; "context";
     "data_starts"; "data_ends"; "continuity"; "blank_rows"; "missings"; "missing_value";
     "time_alignment"; "time_multicolumn"; "time_header_coord"; "time_composed"; "frequency"]%string.
