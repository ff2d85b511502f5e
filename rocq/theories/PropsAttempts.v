(** Properties C16 - C18: the search over missing parameters. *)
From Verif Require Import Base BaseFacts Params Attempts SpecParams SpecAttempts ParamsProofs AttemptsFacts
  AttemptsProofs PropsParams.
Local Open Scope Z_scope.

(** ** C16 The search tries every combination exactly once *)
(** The generator, for any value lists that hold the default and any order
    that covers the names: it yields combinations only, and every combination
    at exactly one position. *)
Theorem C16_generator md order : md <> [] -> NoDup (map fst md) -> incl (map fst md) order ->
  (forall k vv, In (k, vv) md -> NoDup vv /\ exists vv' d, In (k, vv', d) searchable /\ In d vv) ->
  exists combs, param_combinations (List.length md) md order = Ok combs /\
    (forall c, In c combs -> combination md c) /\
    (forall c, combination md c -> exists! i, exists c', nth_error combs i = Some c' /\ same_choice c' c).
Proof. exact (c16_generator md order). Qed.
Print Assumptions C16_generator.

(** The attempts made from a Parameters object: each combination of valid
    values of what is unset is in force in exactly one of them. *)
Theorem C16_each_combination_once p l n : parameters_object p -> series_count p n -> (0 < n)%nat ->
  ~ unset p (pname "missing_value") -> discover_parameters p = Ok l ->
  exists missing, to_search p missing /\
    (forall c, combination missing c -> exists! i, exists a, nth_error l i = Some a /\ in_force a c n) /\
    (forall a, In a l -> exists c, combination missing c /\ in_force a c n).
Proof. exact (c16_once p l n). Qed.
Print Assumptions C16_each_combination_once.

(** and the attempts can be made when the rest is given for every series *)
Theorem C16_search_succeeds p missing n : parameters_object p -> series_count p n -> (0 < n)%nat ->
  to_search p missing -> says_enough p n -> exists l, discover_parameters p = Ok l.
Proof. exact (c16_total p missing n). Qed.
Print Assumptions C16_search_succeeds.

(** ** C17 Defaults are tried first *)
Theorem C17_defaults_first p l n : parameters_object p -> series_count p n -> (0 < n)%nat ->
  ~ unset p (pname "missing_value") -> discover_parameters p = Ok l ->
  exists a, hd_error l = Some a /\
    forall k vv d i, In (k, vv, d) searchable -> unset p k -> (i < n)%nat -> series_value a k i d.
Proof. exact (c17 p l n). Qed.
Print Assumptions C17_defaults_first.

(** ** C18 Attempts keep what the user gave *)
Theorem C18_attempts_keep p l a n : parameters_object p -> series_count p n -> (0 < n)%nat ->
  ~ unset p (pname "missing_value") -> discover_parameters p = Ok l -> In a l ->
  (forall k, ~ unset p k -> dget k a = dget k p) /\ (forall k, ~ unset a k) /\ series_count a n.
Proof. exact (c18 p l a n). Qed.
Print Assumptions C18_attempts_keep.

(** the sample leaves continuity, blank_rows, missings and time_composed out:
    sixteen attempts; the first one has the defaults, the last one none *)
Example C16_example :
  match make_params no_json (PDict sample) with
  | Ok p =>
      map fst p = PARAM_NAMES /\ get_num_series p = Some 3%nat /\ dgetN (pname "missing_value") p <> VNone /\
      get_missings p = [pname "continuity"; pname "blank_rows"; pname "missings"; pname "time_composed"] /\
      match discover_parameters p with
      | Ok l => List.length l = 16%nat /\
          map (fun k => dgetN k (hd [] l)) (get_missings p)
            = map (fun b => VList (repeat (VBool b) 3)) [true; false; false; false] /\
          map (fun k => dgetN k (List.last l [])) (get_missings p)
            = map (fun b => VList (repeat (VBool b) 3)) [false; true; true; true] /\
          dgetN (pname "headers_coord") (List.last l []) = dgetN (pname "headers_coord") p
      | Err _ => False
      end
  | Err _ => False
  end.
Proof. vm_compute. repeat split; discriminate. Qed.
Example C16_generator_example :
  let md := [(pname "missings", [VBool true; VBool false]);
             (pname "time_alignment", [VInt 1; VInt 0; VInt 7])] in
  match param_combinations 2 md [pname "time_alignment"; pname "missings"] with
  | Ok combs => List.length combs = 6%nat /\ hd_error combs
      = Some [(pname "time_alignment", VInt 0); (pname "missings", VBool false)]
  | Err _ => False
  end.
Proof. vm_compute. split; reflexivity. Qed.
