(** strategies/discover/parameters.py: the compact representation of a Parameters
    object and the removal of everything that is not critical. *)
From Verif Require Import Base Coord XlMethods Params.

(** parameters.py:865-870 _is_optional, the value of the parameter being [v] *)
Definition is_optional (k : text) (v : pyval) : res bool :=
  if is_repeated v then
    if text_in k OPTIONAL then do x <- py_index v 0; Ok (is_none x) else Ok false
  else Ok (text_in k OPTIONAL && is_none v).

(** parameters.py:872-882 _is_default; line 877 asks whether the name of the
    parameter is a list, which it never is *)
Definition is_default (k : text) (v : pyval) : res bool :=
  if text_in k USE_DEFAULT then
    do def <- dgetE k DEFAULT_VALUES;
    if is_repeated v then do x <- py_index v 0; Ok (py_eq def x) else Ok (py_eq def v)
  else Ok false.

(** parameters.py:446-456, one parameter: what the dictionary gets *)
Definition compact_one (p : dict) (k : text) (v : pyval) : res dict :=
  if is_missing p k then Ok []
  else
    do o <- is_optional k v;
    if o : bool then Ok []
    else
      do df <- is_default k v;
      if df : bool then Ok []
      else if is_repeated v then do x <- py_index v 0; Ok [(k, x)] else Ok [(k, v)].

(** parameters.py:439-457 compact_repr.  The names of the parameters of an object
    are all different, so each assignment adds an item at the end. *)
Definition compact_repr (p : dict) : res dict :=
  do parts <- mapM (fun kv => compact_one p (fst kv) (snd kv)) p;
  Ok (List.concat parts).

(** parameters.py:900-902 _non_critical *)
Definition non_critical (k : text) : bool := negb (text_in k (map fst CRITICAL)).

(** parameters.py:904-909 _no_differences.  [len(set(l)) == 1]: lists and
    dictionaries cannot be put in a set. *)
Definition unhashable (v : pyval) : bool := match v with VList _ | VDict _ => true | _ => false end.
Definition no_differences (v : pyval) : res bool :=
  match v with
  | VList l =>
      do h <- py_index v 0;
      if is_list h then Ok true
      else if existsb unhashable l then Err EType
      else Ok (is_repeated v)
  | _ => Ok true
  end.

(** parameters.py:372-383 get_non_critical_params *)
Definition get_non_critical_params (p : dict) (differents : bool) : res (list text) :=
  do kept <- mapM (fun kv =>
    if non_critical (fst kv) then
      if differents then Ok true else no_differences (snd kv)
    else Ok false) p;
  Ok (map (fun x => fst (fst x)) (filter (fun x => snd x) (combine p kept))).

(** parameters.py:389-396 remove_non_critical: the object afterwards and the
    outcome *)
Fixpoint restore_optional (ks : list text) (p : dict) : dict * res unit :=
  match ks with
  | [] => (p, Ok tt)
  | k :: ks' =>
      match set_item p k VNone with
      | (p', Ok _) => restore_optional ks' p'
      | (p', Err e) => (p', Err e)
      end
  end.
Definition remove_non_critical (p : dict) (differents : bool) : dict * res unit :=
  match get_non_critical_params p differents with
  | Err e => (p, Err e)
  | Ok ks =>
      restore_optional OPTIONAL
        (fold_left remove_param
           (filter (fun k => negb (text_in k USE_DEFAULT) && negb (text_in k GUESSED)) ks) p)
  end.
