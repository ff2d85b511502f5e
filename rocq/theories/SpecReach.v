(** Which cells of a sheet count for the answer (C81). *)
From Verif Require Import Base Coord SpecCoord Params TimeIndex SpecParams SpecEnd SpecScrape.
Local Open Scope Z_scope.

(** ** What a Parameters object says of series [i] *)

(** a coordinate, alone or in a list *)
Definition coordinate (p : dict) (k : text) (i : nat) (t : text) : Prop :=
  exists v, series_value p k i v /\ (v = VStr t \/ exists l, v = VList l /\ In (VStr t) l).
(** its first row or column is [s] *)
Definition starts_at (p : dict) (i : nat) (s : Z) : Prop :=
  exists v, series_value p (pname "data_starts") i v /\ forall n, v = VInt n -> s = n.
(** its last one is [z]; the end of the first series has to be there too, or
    it is looked for and may become that of every series *)
Definition end_given (p : dict) (i : nat) (z : Z) : Prop :=
  series_value p (pname "data_ends") i (VInt z) /\ z <> 0.
Definition ends_at (p : dict) (i : nat) (z : Z) : Prop :=
  end_given p i z /\ exists z0, end_given p 0 z0.
(** rows or columns: both, when it does not say *)
Definition layout (p : dict) (i : nat) (al : align) : Prop :=
  series_value p (pname "alignment") i (VStr (pname match al with Vert => "vertical" | Horiz => "horizontal" end)) \/
  dgetN (pname "alignment") p = VNone.
(** how far dates are from the values: any of the three, when it does not say *)
Definition offset (p : dict) (i : nat) (ta : Z) : Prop :=
  (exists v, series_value p (pname "time_alignment") i v /\ forall n, v = VInt n -> ta = n) \/
  (dgetN (pname "time_alignment") p = VNone /\ -1 <= ta <= 1).
Definition one_letter (p : dict) (i : nat) : Prop := exists c, series_value p (pname "frequency") i (VStr [c]).

(** ** The cells that count *)

(** the positions of its values along the row or the column *)
Definition in_values (p : dict) (i : nat) (pos : Z) : Prop :=
  exists s, starts_at p i s /\ s <= pos /\ forall z, ends_at p i z -> pos <= z.
(** those of its dates: one more after the end, and where the offset leads; all
    of them for a frequency of several letters *)
Definition in_times (p : dict) (i : nat) (pos : Z) : Prop :=
  exists s ta, starts_at p i s /\ offset p i ta /\
    (one_letter p i -> s + Z.min 0 ta <= pos /\ forall z, ends_at p i z -> pos <= z + Z.max 1 ta).

(** [rc] is in the row or column of the cell called [t], at [pos] *)
Definition lies (al : align) (t : text) (rc : Z * Z) (pos : Z) : Prop :=
  exists r c, cell_named t r c /\ line_of al rc = line_of al (r, c) /\ depth_of al rc = pos.

(** headers, what they are composed with, values and dates *)
Inductive counts (p : dict) (r c : Z) : Prop :=
| co_header i t : coordinate p (pname "headers_coord") i t -> cell_named t r c -> counts p r c
| co_composed i t : coordinate p (pname "composed_headers_coord") i t -> cell_named t r c -> counts p r c
| co_value i t al pos : coordinate p (pname "headers_coord") i t -> layout p i al -> lies al t (r, c) pos -> in_values p i pos -> counts p r c
| co_time i t al pos : coordinate p (pname "time_header_coord") i t -> layout p i al -> lies al t (r, c) pos -> in_times p i pos -> counts p r c.

(** two sheets with the same cells there *)
Definition same_where (P : Z -> Z -> Prop) (w w' : worksheet) : Prop := forall r c, P r c -> cell w' r c = cell w r c.
Definition same_size (w w' : worksheet) : Prop := max_row w' = max_row w /\ max_col w' = max_col w.
(** where the data ends is given for every series, and all have one frequency *)
Definition all_ends_given (p : dict) : Prop :=
  (forall i v, series_value p (pname "data_ends") i v -> exists z, v = VInt z /\ z <> 0) /\
  (forall i v, series_value p (pname "frequency") i v -> exists c, v = VStr [c]).
(** the size is the same, or it does not count; nothing is written beyond it *)
Definition alike (p : dict) (w w' : worksheet) : Prop :=
  same_where (counts p) w w' /\ (same_size w w' \/ (all_ends_given p /\ bounded w /\ bounded w')).

(** the frames handed back, or the exception *)
Definition answered {A B C} (r : res (A * B * C)) : res A := match r with Ok x => Ok (fst (fst x)) | Err x => Err x end.
