(** Parameters left out, and written down (C89). *)
From Verif Require Import Base Params SpecParams SpecAttempts.

(** an object for [n] series whose missing parameters can be searched for, and
    that says the rest of every series *)
Definition left_out (n : nat) (p : dict) : Prop :=
  parameters_object p /\ series_count p n /\ (0 < n)%nat /\ says_enough p n /\ forall k, unset p k -> exists vv d, In (k, vv, d) searchable.
(** the same with what is missing written down, the same for all the series *)
Definition written_down (n : nat) (p : dict) (choice : text -> pyval) (p' : dict) : Prop :=
  parameters_object p' /\ (forall k, ~ unset p k -> dget k p' = dget k p) /\ (forall k, unset p k -> dget k p' = Some (VList (repeat (choice k) n))).
Definition the_defaults (choice : text -> pyval) : Prop := forall k vv d, In (k, vv, d) searchable -> choice k = d.
Definition valid_choice (choice : text -> pyval) : Prop := forall k vv d, In (k, vv, d) searchable -> In (choice k) vv.
