(** The life of an XlSeries object: any number of calls, one after another. *)
From Verif Require Import Base Coord XlMethods Params ParseTime Scrape Xlseries.
Local Open Scope Z_scope.

(** the arguments of a call (xlseries.py:71-72) *)
Record call := mkcall { c_params : uparams; c_sheet : option text; c_safe : bool; c_preserve : bool }.

(** self.params (xlseries.py:50): worksheet names and Parameters objects *)
Definition saved := list (text * nat).
Fixpoint save (name : text) (pid : nat) (l : saved) : saved :=
  match l with
  | [] => [(name, pid)]
  | (n, i) :: l' => if text_eqb n name then (n, pid) :: l' else (n, i) :: save name pid l'
  end.
Fixpoint saved_at (name : text) (l : saved) : option nat :=
  match l with
  | [] => None
  | (n, i) :: l' => if text_eqb n name then Some i else saved_at name l'
  end.

(** xlseries.py:70-135 with the assignment in 130: a call that raises leaves
    self.params as it was. *)
Definition do_call (e : env) (uni : text -> text) (json : text -> res dict) (wb : wb_obj)
    (s : store * saved) (c : call) : (store * saved) * res dfs_t :=
  match get_data_frames e uni json (fst s) wb (c_params c) (c_sheet c) (c_safe c) (c_preserve c) with
  | (st, Ok (out, name, pid)) => ((st, save name pid (snd s)), Ok out)
  | (st, Err x) => ((st, snd s), Err x)
  end.
Fixpoint do_calls (e : env) (uni : text -> text) (json : text -> res dict) (wb : wb_obj)
    (s : store * saved) (cs : list call) : (store * saved) * list (res dfs_t) :=
  match cs with
  | [] => (s, [])
  | c :: cs' =>
      let '(s1, r) := do_call e uni json wb s c in
      let '(s2, rs) := do_calls e uni json wb s1 cs' in
      (s2, r :: rs)
  end.
