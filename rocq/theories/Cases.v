(** utils/case_loaders.py: loading the files of a case and checking a result
    against what is expected of it. *)
From Verif Require Import Base Params DataFrame Files Compact.
Local Open Scope Z_scope.

(** case_loaders.py:103-107 _gen_filename; special_case None counts as empty *)
Definition gen_filename (num : Z) (special : option text) (format : text) : text :=
  T "test_case" ++ Z_text num ++ match special with Some s => s | None => [] end ++ T "." ++ format.

(** case_loaders.py:19-32 check_case_exp_result, [expected] being what
    load_expected_case gave; zip stops at the end of the shorter list *)
Fixpoint check_pairs (l : list (df * df)) : res unit :=
  match l with
  | [] => Ok tt
  | p :: l' => do _ <- compare_data_frames (fst p) (snd p); check_pairs l'
  end.
Definition check_case_exp_result (dfs expected : list df) : res unit := check_pairs (combine dfs expected).

(** case_loaders.py:35-50, 88-101: the paths of the workbook and of the frames *)
Definition case_path (dir : text) (num : Z) (special : option text) (format : text) : text :=
  path_join dir (gen_filename num special format).

(** case_loaders.py:53-66 load_parameters_case *)
Definition load_parameters_case (json : text -> res dict) (dir : text) (num : Z) (special : option text) : res dict :=
  make_params json (PPath (case_path dir num special (T "json"))).

(** case_loaders.py:69-83 load_critical_parameters_case; remove_non_critical is
    called without differents *)
Definition load_critical_parameters_case (json : text -> res dict) (dir : text) (num : Z) (special : option text) : res dict :=
  do p <- load_parameters_case json dir num special;
  let '(q, r) := remove_non_critical p false in
  do _ <- r; Ok q.
