(** What is expected of comparing workbooks cell by cell (C58). *)
From Coq Require Import Reals.
From Verif Require Import Base Coord XlMethods SpecData SpecParse SpecFloats.

(** what cells hold: nothing, a number, a text or a date *)
Definition cell_content (v : pyval) : Prop :=
  v = VNone \/ (exists x, number v x) \/ (exists t, v = VStr t) \/ (exists d, v = VDate d).

(** a text without the blanks around it; a cell with nothing reads as no text *)
Inductive reads_as : pyval -> text -> Prop :=
| ra_none : reads_as VNone []
| ra_text t u : trimmed t u -> reads_as (VStr t) u.

(** the contents of two cells that pass as equal: two numbers within a relative
    difference of 0.00001 (up to rounding), the same text but for the blanks
    around it, or the same date *)
Inductive alike : pyval -> pyval -> Prop :=
| al_number a b x y : number a x -> number b y ->
    (Rabs (x - y) <= Rabs x * (100001 / 10000000000) + / 10 ^ 300)%R -> alike a b
| al_text a b u : reads_as a u -> reads_as b u -> alike a b
| al_date d : alike (VDate d) (VDate d).

(** a place both sheets reach *)
Definition both_reach (w1 w2 : worksheet) (r c : Z) : Prop :=
  (1 <= r <= max_row w1 /\ r <= max_row w2 /\ 1 <= c <= max_col w1 /\ c <= max_col w2)%Z.
