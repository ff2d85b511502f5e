(** strategies/strategies.py:334-444: the combinations of parameters tried when
    the user left some of them out. *)
From Verif Require Import Base Params.
Local Open Scope Z_scope.

(** valid values with the default moved to the front: valid_values.index(d),
    pop(index) (strategies.py:389-395, 432-444); ValueError when absent *)
Fixpoint remove_first (d : pyval) (l : list pyval) : option (pyval * list pyval) :=
  match l with
  | [] => None
  | x :: l' =>
      if py_eq x d then Some (x, l')
      else match remove_first d l' with
           | Some (y, r) => Some (y, x :: r)
           | None => None
           end
  end.
Definition default_first (k : text) (vv : list pyval) : res (list pyval) :=
  do d <- dgetE k DEFAULT_VALUES;
  let vv' := match vv with [] => [d] | _ => vv end in
  match remove_first d vv' with
  | Some (x, r) => Ok (x :: r)
  | None => Err EValue
  end.

Definition missing_dict := list (text * list pyval).
Definition md_has (k : text) (md : missing_dict) : bool := existsb (fun kv => text_eqb k (fst kv)) md.
Definition md_del (k : text) (md : missing_dict) : missing_dict :=
  filter (fun kv => negb (text_eqb k (fst kv))) md.
Definition md_get (k : text) (md : missing_dict) : list pyval :=
  match vget k md with Some v => v | None => [] end.

(** strategies.py:414-415 pop(0) until the name is one of the missing ones *)
Fixpoint pop_front (md : missing_dict) (order : list text) : res (text * list text) :=
  match order with
  | [] => Err EIndex
  | k :: order' => if md_has k md then Ok (k, order') else pop_front md order'
  end.

(** strategies.py:410-418 the parameter chosen and what is left of the order *)
Definition choose_param (md : missing_dict) (order : list text) : res (text * list text) :=
  match order with
  | [] =>
      match rev md with
      | [] => Err EKey
      | (k, _) :: _ => Ok (k, [])          (* popitem, no order left *)
      end
  | _ =>
      let k := List.last order [] in
      let order' := removelast order in
      if md_has k md then Ok (k, order') else pop_front md order'
  end.

(** strategies.py:364-444 _param_combinations_generator with default values;
    [n] is the number of missing parameters *)
Fixpoint param_combinations (n : nat) (md : missing_dict) (order : list text) : res (list dict) :=
  match n with
  | O => Err EKey
  | S k =>
      match md with
      | [(name, vv)] =>
          do vals <- default_first name vv;
          Ok (map (fun v => [(name, v)]) vals)
      | _ =>
          do c <- choose_param md order;
          let '(name, order') := c in
          do combs <- param_combinations k (md_del name md) order';
          do vals <- default_first name (md_get name md);
          Ok (flat_map (fun comb => map (fun v => dset name v comb) vals) combs)
      end
  end.

(** strategies.py:343-344 *)
Definition missings_dict (names : list text) : res missing_dict :=
  mapM (fun k => do vv <- valid_values k; Ok (k, vv)) names.

(** new_params[name] = value for every item of the combination *)
Fixpoint set_items (p : dict) (comb : dict) : res dict :=
  match comb with
  | [] => Ok p
  | (k, v) :: comb' =>
      match set_item p k v with
      | (p', Ok _) => set_items p' comb'
      | (_, Err x) => Err x
      end
  end.

(** strategies.py:335-361 _generate_attempts.  Simplification: the message of
    the assertion is built even when it holds; its repr could raise IndexError
    for an empty list parameter, which is reported here as the assertion. *)
Definition generate_attempts (names : list text) (p : dict) : res (list dict) :=
  match names with
  | [] => Ok [p]
  | _ =>
      do md <- missings_dict names;
      do combs <- param_combinations (List.length md) md LIKELINESS_ORDER;
      mapM (fun comb =>
              do np <- set_items p comb;
              do c <- is_complete np;
              do _ <- assert_ c;
              Ok np) combs
  end.

(** strategies.py:179-190 _discover_parameters *)
Definition discover_parameters (p : dict) : res (list dict) :=
  do c <- is_complete p;
  if c : bool then Ok [p] else generate_attempts (get_missings p) p.
