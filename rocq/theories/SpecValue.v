(** Changing one value of a sheet (C87). *)
From Verif Require Import Base Cal Coord SpecCoord Params TimeIndex PeriodRange DataFrame Scrape SpecParams SpecReach.
Local Open Scope Z_scope.

(** a cell holds a number; [x] is float() of it *)
Definition number (v : pyval) (x : spec_float) : Prop := ((exists f, v = VFloat f) \/ exists z, v = VInt z) /\ py_float v = Ok x.
(** the cell is no header, and is not in the row or column of a time index *)
Record just_a_value (p : dict) (r c : Z) : Prop := {
  jv_header : forall i t, coordinate p (pname "headers_coord") i t -> ~ cell_named t r c;
  jv_composed : forall i t, coordinate p (pname "composed_headers_coord") i t -> ~ cell_named t r c;
  jv_time : forall i t al pos, coordinate p (pname "time_header_coord") i t -> layout p i al -> ~ lies al t (r, c) pos
}.
(** the cell is in the sheet *)
Definition in_sheet (w : worksheet) (r c : Z) : Prop := 1 <= r <= max_row w /\ 1 <= c <= max_col w.
(** two sheets of the same size that differ in one cell *)
Definition differ_at (r c : Z) (w w' : worksheet) : Prop := same_size w w' /\ forall i j, (i, j) <> (r, c) -> cell w' i j = cell w i j.

(** the number is there, unless it is a mark for missing values *)
Definition stands_for (y x : spec_float) : Prop := y = x \/ y = S754_nan.
(** two columns that are the same but for one value *)
Definition one_value (x x' : spec_float) (l l' : list spec_float) : Prop :=
  exists a b y y', l = a ++ y :: b /\ l' = a ++ y' :: b /\ stands_for y x /\ stands_for y' x'.
(** two lists that are the same, but for up to [k] places where [R] holds *)
Inductive up_to {A} (R : A -> A -> Prop) : nat -> list A -> list A -> Prop :=
| up_end k : up_to R k [] []
| up_same k a l l' : up_to R k l l' -> up_to R k (a :: l) (a :: l')
| up_other k a a' l l' : R a a' -> up_to R k l l' -> up_to R (S k) (a :: l) (a' :: l').
(** the frames handed back: one, or a list of none or several *)
Inductive frames : dfs_t -> list df -> Prop :=
| fr_one d : frames (DF d) [d]
| fr_more l : List.length l <> 1%nat -> frames (DL (map DF l)) l.
(** the same dates and names in every frame, and the same columns but for up to
    [k] of them, where one value is another *)
Definition same_but (x x' : spec_float) (k : nat) (f f' : dfs_t) : Prop :=
  exists l l', frames f l /\ frames f' l' /\
    Forall2 (fun d d' => df_index d' = df_index d /\ df_cols d' = df_cols d /\ List.length (df_data d') = List.length (df_data d)) l l' /\
    up_to (one_value x x') k (List.concat (map df_data l)) (List.concat (map df_data l')).
(** the cell is in the row or column of the header of series [i] *)
Definition on_series (p : dict) (i : nat) (r c : Z) : Prop :=
  exists t al pos, coordinate p (pname "headers_coord") i t /\ layout p i al /\ lies al t (r, c) pos.
