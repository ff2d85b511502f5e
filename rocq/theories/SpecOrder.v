(** The order in which the combinations are tried (C93). *)
From Verif Require Import Base SpecParams.
Local Open Scope Z_scope.

(** the parameters by the likeliness of their defaults, the most likely first,
    with their values, the default first *)
Definition by_likeliness : list (text * list pyval) :=
  [ (pname "time_alignment", [VInt 0; VInt (-1); VInt 1]);
    (pname "alignment", [VStr (pname "vertical"); VStr (pname "horizontal")]);
    (pname "continuity", [VBool true; VBool false]);
    (pname "blank_rows", [VBool false; VBool true]);
    (pname "missings", [VBool false; VBool true]);
    (pname "time_composed", [VBool false; VBool true]);
    (pname "time_multicolumn", [VBool false; VBool true]) ].
(** a Parameters object does not say this one *)
Definition not_said (p : dict) (x : text * list pyval) : Prop := dget (fst x) p = Some VNone.

(** nested loops, the first one outermost *)
Fixpoint loops (ls : list (text * list pyval)) : list (list (text * pyval)) :=
  match ls with
  | [] => [[]]
  | (k, vs) :: ls' => flat_map (fun v => map (cons (k, v)) (loops ls')) vs
  end.
(** how the loops follow from the list: the innermost one is for the last of the
    list if it is missing, and otherwise for the first one that is missing; the
    others follow from what is left of the list, before the last one or after
    the first one *)
Inductive loops_of {A} (missing : A -> Prop) : list A -> list A -> Prop :=
| no_loop ls : (forall x, In x ls -> ~ missing x) -> loops_of missing ls []
| last_inside ls x r : missing x -> loops_of missing ls r -> loops_of missing (ls ++ [x]) (r ++ [x])
| first_inside before x ls y r : ~ missing y -> (forall z, In z before -> ~ missing z) -> missing x -> loops_of missing ls r ->
    loops_of missing (before ++ x :: ls ++ [y]) (r ++ [x]).
(** the attempt [a] has these values for its [n] series *)
Definition has_values (n : nat) (a : dict) (c : list (text * pyval)) : Prop := forall k v, In (k, v) c -> dget k a = Some (VList (repeat v n)).
