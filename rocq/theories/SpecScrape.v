(** What is expected of the scraper around the attempts (C19 - C23, C50, C51). *)
From Verif Require Import Base Coord XlMethods Params ParseTime DataFrame Scrape Xlseries.
Local Open Scope Z_scope.

(** what an attempt with parameters [p] gives on a sheet [w], run alone *)
Definition alone (e : env) (w : worksheet) (p : dict) : res (list df) :=
  snd (run_attempt e (mkstore [w] [p]) 0 0).
Definition raises {A} (r : res A) : Prop := exists x, r = Err x.

(** how the frames of an attempt are handed over: a single frame by itself *)
Definition handed (dfs : list df) (out : dfs_t) : Prop :=
  (exists d, dfs = [d] /\ out = DF d) \/ (List.length dfs <> 1%nat /\ out = DL (map DF dfs)).

(** frames with the same place in two results compare as equal *)
Definition agree_pairwise (a b : list df) : Prop :=
  forall k x y, nth_error a k = Some x -> nth_error b k = Some y -> compare_data_frames x y = Ok true.
(** several results are handed over as a list of them *)
Definition all_handed (results : list (list df)) (out : dfs_t) : Prop :=
  match results with
  | [r] => out = DL (map DF r)
  | _ => out = DL (map (fun r => DL (map DF r)) results)
  end.

(** objects that existed before are as they were *)
Definition sheets_kept (st st' : store) : Prop :=
  forall i, (i < List.length (st_sheets st))%nat -> sheet st' i = sheet st i.
Definition params_kept (st st' : store) : Prop :=
  forall i, (i < List.length (st_params st))%nat -> params st' i = params st i.

(** the parameters object get_data_frames works with *)
Inductive object_of (json : text -> res dict) (st : store) : uparams -> dict -> Prop :=
| object_built i p : make_params json i = Ok p -> object_of json st (UInput i) p
| object_given pid : object_of json st (UObj pid) (params st pid).

(** the user's workbook is made of existing sheets, in order *)
Definition wb_ok (st : store) (wb : wb_obj) : Prop := Forall (fun i => (i < List.length (st_sheets st))%nat) wb.
Definition names_of (st : store) (wb : wb_obj) : list text := map (fun i => title (sheet st i)) wb.
Definition in_store (st : store) (u : uparams) : Prop :=
  match u with UObj pid => (pid < List.length (st_params st))%nat | UInput _ => True end.

(** in openpyxl no cell lies beyond the extent of its sheet *)
Definition bounded (w : worksheet) : Prop :=
  forall r c, cell w r c <> VNone -> 1 <= r <= max_row w /\ 1 <= c <= max_col w.

Definition same_sheet (w w' : worksheet) : Prop :=
  title w = title w' /\ max_row w = max_row w' /\ max_col w = max_col w' /\ forall r c, cell w r c = cell w' r c.

(** the sheet a requested name stands for *)
Definition first_such {A} (P : A -> Prop) (l : list A) (x : A) : Prop :=
  exists l1 l2, l = l1 ++ x :: l2 /\ P x /\ Forall (fun y => ~ P y) l1.
Inductive resolves (folded trim : text -> text) (names : list text) : option text -> text -> Prop :=
| res_none name : hd_error names = Some name -> resolves folded trim names None name
| res_empty name : hd_error names = Some name -> resolves folded trim names (Some []) name
| res_exact q : q <> [] -> In q names -> resolves folded trim names (Some q) q
| res_trim q name : q <> [] -> ~ In q names ->
    first_such (fun n => trim q = trim n) names name -> resolves folded trim names (Some q) name
| res_fold q name : q <> [] -> ~ In q names -> Forall (fun n => trim q <> trim n) names ->
    first_such (fun n => trim (folded q) = trim (folded n)) names name -> resolves folded trim names (Some q) name.
