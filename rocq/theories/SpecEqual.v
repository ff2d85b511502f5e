(** When two values, and two Parameters, are equal (C68). *)
From Verif Require Import Base SpecParams SpecAttempts.
From Coq Require Import Floats.SpecFloat.
Local Open Scope Z_scope.

(** the number a value stands for, as m * 2^e *)
Inductive number_of : pyval -> Z -> Z -> Prop :=
| no_bool b : number_of (VBool b) (if b then 1 else 0) 0
| no_int z : number_of (VInt z) z 0
| no_zero s : number_of (VFloat (S754_zero s)) 0 0
| no_float s m e : number_of (VFloat (S754_finite s m e)) (if s then Zneg m else Zpos m) e.
Definition same_number (m e m' e' : Z) : Prop := m * 2 ^ (e - Z.min e e') = m' * 2 ^ (e' - Z.min e e').

(** equal numbers whatever their types, equal texts, dates and types, lists of
    equal elements, dictionaries with equal values for the same keys; NaN is
    equal to nothing *)
Inductive equal_values : pyval -> pyval -> Prop :=
| ev_none : equal_values VNone VNone
| ev_number a b m e m' e' : number_of a m e -> number_of b m' e' -> same_number m e m' e' -> equal_values a b
| ev_infinity s : equal_values (VFloat (S754_infinity s)) (VFloat (S754_infinity s))
| ev_text t : equal_values (VStr t) (VStr t)
| ev_date d : equal_values (VDate d) (VDate d)
| ev_type t : equal_values (VType t) (VType t)
| ev_list l l' : Forall2 equal_values l l' -> equal_values (VList l) (VList l')
| ev_dict d d' : (forall k, In k (map fst d) <-> In k (map fst d')) ->
    (forall k v v', In (k, v) d -> In (k, v') d' -> equal_values v v') -> equal_values (VDict d) (VDict d').

(** floats in normal form, no key twice in a dictionary *)
Inductive proper : pyval -> Prop :=
| pr_none : proper VNone
| pr_bool b : proper (VBool b)
| pr_int z : proper (VInt z)
| pr_float f : valid_binary 53 1024 f = true -> proper (VFloat f)
| pr_text t : proper (VStr t)
| pr_date d : proper (VDate d)
| pr_type t : proper (VType t)
| pr_list l : Forall proper l -> proper (VList l)
| pr_dict d : NoDup (map fst d) -> (forall k v, In (k, v) d -> proper v) -> proper (VDict d).
(** nowhere a NaN *)
Inductive without_nan : pyval -> Prop :=
| wn_none : without_nan VNone
| wn_bool b : without_nan (VBool b)
| wn_int z : without_nan (VInt z)
| wn_float f : f <> S754_nan -> without_nan (VFloat f)
| wn_text t : without_nan (VStr t)
| wn_date d : without_nan (VDate d)
| wn_type t : without_nan (VType t)
| wn_list l : Forall without_nan l -> without_nan (VList l)
| wn_dict d : (forall k v, In (k, v) d -> without_nan v) -> without_nan (VDict d).

(** parameters whose values are proper *)
Definition proper_parameters (p : dict) : Prop := parameters_object p /\ forall k v, In (k, v) p -> proper v.
