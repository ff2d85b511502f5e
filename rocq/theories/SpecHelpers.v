(** What is expected of the strategies of a module (C79). *)
From Verif Require Import Base ParseTime Helpers.

(** alphabetical order, by the codes of the characters *)
Inductive earlier : text -> text -> Prop :=
| el_end c t : earlier [] (c :: t)
| el_here x y s t : (nat_of_ascii x < nat_of_ascii y)%nat -> earlier (x :: s) (y :: t)
| el_more x s t : earlier s t -> earlier (x :: s) (x :: t).

(** a strategy: a class that is not an exception, whose name does not begin with
    Base, and that is not Parameters *)
Definition a_strategy (ms : list (text * member)) (n : text) : Prop :=
  In (n, Class false) ms /\ (forall r, n <> T "Base" ++ r) /\ n <> T "Parameters".

(** a module has those classes and no others, whatever else it has and in any
    order *)
Definition has_classes (ms cs : list (text * member)) : Prop :=
  NoDup (map fst ms) /\ forall n b, In (n, Class b) ms <-> In (n, Class b) cs.

(** the names of the classes of the model *)
Definition class_of (s : strat) : text :=
  match s with
  | SMonth1 => T "ParseComposedMonth1" | SMonth2 => T "ParseComposedMonth2"
  | SQuarter1 => T "ParseComposedQuarter1" | SQuarter2 => T "ParseComposedQuarter2"
  | SQuarter3 => T "ParseComposedQuarter3" | SQuarter4 => T "ParseComposedQuarter4"
  | SQuarterYear1 => T "ParseComposedQuarterYear1" | SSemester => T "ParseComposedSemester"
  | SYear1 => T "ParseComposedYear1" | SYear2 => T "ParseComposedYear2"
  | SYearQuarter1 => T "ParseComposedYearQuarter1" | SSimple => T "ParseSimpleTime"
  end.
