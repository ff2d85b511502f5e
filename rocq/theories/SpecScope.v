(** The exact conditions behind the scope of a context entry and behind runs of
    consecutive cells, independently of the model. *)
From Coq Require Import List Ascii String ZArith.
From Verif Require Import SpecCoord.
Import ListNotations.
Local Open Scope Z_scope.

(** the letters of a column of a sheet, in capitals *)
Definition column_name (c : Z) (l : list ascii) : Prop :=
  column_number l c /\ (List.length l <= 3)%nat /\
  Forall (fun x => In x (txt "ABCDEFGHIJKLMNOPQRSTUVWXYZ")) l.
(** the order of the words in a dictionary *)
Inductive word_le : list ascii -> list ascii -> Prop :=
| wl_nil w : word_le [] w
| wl_less x y a b : (nat_of_ascii x < nat_of_ascii y)%nat -> word_le (x :: a) (y :: b)
| wl_same x a b : word_le a b -> word_le (x :: a) (x :: b).
(** as [concerns_column], with the columns compared by their names, as words *)
Definition concerns_column_by_name (cells : list (Z * Z)) (r c : Z) : Prop :=
  exists col l l', (forall p, In p cells -> snd p = col) /\
    column_name col l /\ column_name c l' /\ word_le l l' /\ exists p, In p cells /\ fst p = r.

(** in another row and in another column *)
Definition off (a b : Z * Z) : Prop := fst b <> fst a /\ snd b <> snd a.
(** a run with cells off the row and the column of its first cell after it *)
Definition run_after_skipping (cells : list (Z * Z)) : Prop :=
  exists a skipped rest, cells = a :: skipped ++ rest /\ Forall (off a) skipped /\
    (row_run (a :: rest) \/ column_run (a :: rest)).
