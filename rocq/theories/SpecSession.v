(** What is expected of a series of calls on one XlSeries object (C56). *)
From Verif Require Import Base Coord XlMethods Params ParseTime Attempts Scrape Xlseries Session SpecScrape.
Local Open Scope Z_scope.

(** each call only uses Parameters objects that exist when it is made *)
Fixpoint possible (e : env) (uni : text -> text) (json : text -> res dict) (wb : wb_obj)
    (s : store * saved) (cs : list call) : Prop :=
  match cs with
  | [] => True
  | c :: cs' => in_store (fst s) (c_params c) /\ possible e uni json wb (fst (do_call e uni json wb s c)) cs'
  end.
(** every call works on a copy of the workbook *)
Definition preserving (cs : list call) : Prop := Forall (fun c => c_preserve c = true) cs.
(** no call is given the Parameters object [k] *)
Definition not_given (k : nat) (cs : list call) : Prop := Forall (fun c => c_params c <> UObj k) cs.
(** several attempts have to be made with [p]: it is not complete *)
Definition several (p : dict) : Prop := forall l, discover_parameters p = Ok l -> List.length l <> 1%nat.

(** what a call brings *)
Definition answer_of (e : env) (uni : text -> text) (json : text -> res dict) (wb : wb_obj)
    (s : store * saved) (c : call) : res dfs_t := snd (do_call e uni json wb s c).
Definition after (e : env) (uni : text -> text) (json : text -> res dict) (wb : wb_obj)
    (s : store * saved) (cs : list call) : store * saved := fst (do_calls e uni json wb s cs).

(** the call brings series from the sheet called [name] *)
Definition succeeds_on (e : env) (uni : text -> text) (json : text -> res dict) (wb : wb_obj)
    (s : store * saved) (c : call) (name : text) : Prop :=
  exists st out pid,
    get_data_frames e uni json (fst s) wb (c_params c) (c_sheet c) (c_safe c) (c_preserve c) = (st, Ok (out, name, pid)).
