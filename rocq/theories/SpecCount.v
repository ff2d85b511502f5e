(** Where the number of series comes from. *)
From Verif Require Import Base Params SpecCoord SpecParams.
Local Open Scope Z_scope.

(** some list has [n] elements: the headers, a parameter given as a list of
    values, or the cells (or the lists) the time header stands for *)
Definition list_of_length (d : dict) (cells : list (Z * Z)) (n : nat) : Prop :=
  List.length cells = n \/
  (exists k l, dget k d = Some (VList l) /\ List.length l = n /\
     ~ In k [pname "headers_coord"; pname "composed_headers_coord"; pname "time_header_coord";
             pname "context"; pname "missing_value"]) \/
  (exists tv, dget (pname "time_header_coord") d = Some tv /\
    ((exists tcells, value_cells tv tcells /\ List.length tcells = n) \/
     (exists ls, tv = VList (map VList ls) /\ List.length ls = n))).
