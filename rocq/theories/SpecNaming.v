(** What series are called (C86). *)
From Verif Require Import Base Coord Params TimeIndex DataFrame Scrape SpecParams SpecFrames SpecSelect.
Local Open Scope Z_scope.

(** the parameters that say how the series are called *)
Definition naming_params : list text := [pname "series_names"; pname "composed_headers_coord"; pname "context"].

(** an object has the sixteen parameters, each with a value for every one of
    its [n] series *)
Definition filled (n : nat) (p : dict) : Prop :=
  sixteen p /\ forall k, In k (own_params ++ index_params) -> exists l, dget k p = Some (VList l) /\ List.length l = n.
(** the same series, called in another way *)
Definition called_otherwise (p p' : dict) : Prop := forall k, ~ In k naming_params -> dget k p' = dget k p.
(** every series is given a name *)
Definition all_named (names : list text) (p : dict) : Prop :=
  dget (pname "series_names") p = Some (VList (map VStr names)) /\ Forall (fun t => t <> []) names.

(** the same dates and the same values *)
Definition same_values (d d' : df) : Prop :=
  df_index d' = df_index d /\ df_data d' = df_data d /\ List.length (df_cols d') = List.length (df_cols d).
(** the columns are called as some of [names] *)
Definition columns_from (names : list text) (d : df) : Prop :=
  exists picks, Forall (fun t => In t names) picks /\ column_names picks (df_cols d).
(** one frame, or several in the same order *)
Inductive each_frame (R : df -> df -> Prop) : dfs_t -> dfs_t -> Prop :=
| ef_one d d' : R d d' -> each_frame R (DF d) (DF d')
| ef_more l l' : Forall2 R l l' -> each_frame R (DL (map DF l)) (DL (map DF l')).
