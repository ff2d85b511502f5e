(** utils/data_frame.py: the frequency a serialized frame is rebuilt with. *)
From Verif Require Import Base Cal Comparing.
Local Open Scope Z_scope.

(** timedelta / int: the microseconds divided and rounded half to even
    (CPython Lib/datetime.py _divide_and_round), for a positive divisor *)
Definition divide_and_round (a b : Z) : Z :=
  let q := a / b in
  let r := 2 * (a mod b) in
  if (b <? r) || ((r =? b) && Z.odd q) then q + 1 else q.
(** data_frame.py:135-137: (last - first) / size; total_seconds() is the
    correctly rounded quotient of the microseconds by 10**6 *)
Definition average_seconds (first last : datetime) (size : Z) : spec_float :=
  let us := divide_and_round ((dt_secs last - dt_secs first) * 1000000) size in
  float_of_dec (us <? 0) (Z.abs us) (-6).

(** data_frame.py:135-141: the freq given to date_range (infer_freq's default
    tolerance is 0.1).  The reading of the file and the rebuilding of the frame
    by pandas are not modelled. *)
Definition serial_freq (index : list datetime) : res text :=
  match index, rev index with
  | a :: _, b :: _ => infer_freq (VFloat (average_seconds a b (Z.of_nat (List.length index)))) tol_1e1
  | _, _ => Err EIndex
  end.
