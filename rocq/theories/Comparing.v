(** utils/comparing.py and the frequency inference of
    utils/time_manipulation.py. *)
From Verif Require Import Base.
Local Open Scope Z_scope.

(** float operand of a mixed arithmetic operation (bool and int convert;
    OverflowError for ints beyond the float range; anything else TypeError) *)
Definition num_float (v : pyval) : res spec_float :=
  match v with
  | VStr _ => Err EType
  | _ => py_float v
  end.

Definition num_int (v : pyval) : option Z :=
  match v with
  | VInt z => Some z
  | VBool b => Some (bZ b)
  | _ => None
  end.

(** int <= float, compared exactly as CPython does *)
Definition Z_le_float (z : Z) (f : spec_float) : bool :=
  match f with
  | S754_zero _ => z <=? 0
  | S754_infinity s => negb s
  | S754_nan => false
  | S754_finite s m e =>
      let sm := if s then Zneg m else Zpos m in
      if 0 <=? e then z <=? sm * 2 ^ e else z * 2 ^ (- e) <=? sm
  end.

(** utils/comparing.py:51-56 _approx_equal: abs(a - b) <= tolerance * a *)
Definition approx_equal_ (a b : pyval) (tol : spec_float) : res bool :=
  do fa <- num_float a;
  match num_int a, num_int b with
  | Some x, Some y => Ok (Z_le_float (Z.abs (x - y)) (SFmul prec emax tol fa))
  | _, _ =>
      do fb <- num_float b;
      Ok (SFleb (SFabs (SFsub prec emax fa fb)) (SFmul prec emax tol fa))
  end.

(** numpy.isnan: TypeError on anything but numbers *)
Definition np_isnan (v : pyval) : res bool :=
  match v with
  | VFloat f => Ok (is_nan f)
  | VInt _ | VBool _ => Ok false
  | _ => Err EType
  end.

(** utils/comparing.py:13-48 approx_equal.  [x != np.nan] is always True. *)
Definition approx_equal (a b : pyval) (tol : spec_float) : res bool :=
  if py_eq a b then Ok true
  else if is_str a && is_str b then Ok (py_eq a b)
  else if negb (truthy a) && negb (truthy b) then Ok true
  else
    do na <- np_isnan a;
    do both <- (if na then np_isnan b else Ok false);
    if both then Ok true
    else if truthy a && truthy b then approx_equal_ a b tol
    else Err ENotImpl.

(** the literal tolerances of the code *)
Definition tol_1e5 : spec_float := float_of_dec false 1 (-5).
Definition tol_1e4 : spec_float := float_of_dec false 1 (-4).
Definition tol_1e1 : spec_float := float_of_dec false 1 (-1).

(** utils/comparing.py:59-78 compare_list_values (zip truncates) *)
Fixpoint compare_list_values (l1 l2 : list pyval) : res bool :=
  match l1, l2 with
  | v1 :: l1', v2 :: l2' =>
      do b <- approx_equal v1 v2 tol_1e4;
      if b then compare_list_values l1' l2' else Ok false
  | _, _ => Ok true
  end.

(** utils/time_manipulation.py:62-86 infer_freq *)
Definition freq_steps : list (Z * option text) :=
  [ (1, Some (T "S")); (60, Some (T "T")); (3600, Some (T "H"));
    (86400, Some (T "D")); (604800, Some (T "W")); (2419200, Some (T "MS"));
    (7776000, Some (T "QS")); (15552000, None); (31536000, Some (T "AS")) ].

Fixpoint infer_freq_from (steps : list (Z * option text)) (av : pyval)
    (tol : spec_float) : res text :=
  match steps with
  | [] => Err EOther
  | (s, name) :: steps' =>
      do b <- approx_equal (VInt s) av tol;
      if b then match name with Some f => Ok f | None => Err EOther end
      else infer_freq_from steps' av tol
  end.
Definition infer_freq (av : pyval) (tol : spec_float) : res text :=
  infer_freq_from freq_steps av tol.
