(** Asking for some of the series of a table (C83). *)
From Verif Require Import Base Coord Params TimeIndex SpecParams.
Local Open Scope Z_scope.

(** what each series has of its own, and what says where its values and dates are *)
Definition own_params : list text := [pname "series_names"; pname "headers_coord"; pname "composed_headers_coord"; pname "context"].
Definition index_params : list text :=
  [pname "alignment"; pname "data_starts"; pname "data_ends"; pname "continuity"; pname "blank_rows"; pname "missings"; pname "missing_value";
   pname "time_alignment"; pname "time_multicolumn"; pname "time_header_coord"; pname "time_composed"; pname "frequency"].

(** an object has the sixteen parameters, once each *)
Definition sixteen (p : dict) : Prop := NoDup (map fst p) /\ forall k, In k (map fst p) <-> In k (own_params ++ index_params).

(** [n] series that share one time index of one frequency, and everything else
    but their headers *)
Definition one_index (n : nat) (p : dict) : Prop :=
  (forall k, In k index_params -> exists v, dget k p = Some (VList (repeat v n))) /\
  (forall k, In k own_params -> exists l, dget k p = Some (VList l) /\ List.length l = n) /\
  (forall l, dget (pname "headers_coord") p = Some (VList l) -> Forall (fun v => exists t, v = VStr t) l) /\
  (exists c, dget (pname "frequency") p = Some (VList (repeat (VStr [c]) n))).

(** the elements at places [js], in that order *)
Definition picked {A} (js : list nat) (l l' : list A) : Prop := Forall2 (fun j x => nth_error l j = Some x) js l'.
(** an object with the series of [p] at places [js] *)
Definition series_at (js : list nat) (p p' : dict) : Prop :=
  forall k, In k (own_params ++ index_params) -> exists l l', dget k p = Some (VList l) /\ dget k p' = Some (VList l') /\ picked js l l'.
