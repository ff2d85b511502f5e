(** utils/float_handlers.py: the decimals of a series of numbers. *)
From Verif Require Import Base.
Local Open Scope Z_scope.

(** float_handlers.py:40-42 truncate.  10.0 ** digits is taken to be correctly
    rounded (it is exact from 0 to 22); int / float divides the float of the
    int. *)
Definition stepper (digits : Z) : spec_float := float_of_dec false 1 digits.
Definition truncate (number : spec_float) (digits : Z) : res spec_float :=
  do n <- trunc_float (SFmul prec emax (stepper digits) number);
  Ok (SFdiv prec emax (float_of_Z n) (stepper digits)).

(** decimal.Decimal(text).normalize().as_tuple().exponent for the texts of
    floats: a sign, digits, perhaps a point and more digits, perhaps an exponent.
    The 28 digits of the decimal context are not modelled: floats have 17 at
    most. *)
Fixpoint span_digits (t : text) : text * text :=
  match t with
  | c :: t' => if is_digit c then let '(a, b) := span_digits t' in (c :: a, b) else ([], t)
  | [] => ([], [])
  end.
Definition unsigned (t : text) : bool * text :=
  match t with
  | c :: t' => if ch_eqb c "-" then (true, t') else if ch_eqb c "+" then (false, t') else (false, t)
  | [] => (false, [])
  end.
Definition exponent_part (t : text) : option Z :=
  match t with
  | [] => Some 0
  | c :: t' =>
      if ch_eqb c "e" || ch_eqb c "E" then
        let '(neg, u) := unsigned t' in
        let '(ds, r) := span_digits u in
        match ds, r with _ :: _, [] => Some (if neg then - digits_val ds else digits_val ds) | _, _ => None end
      else None
  end.
Fixpoint zeros_at_start (t : text) : Z :=
  match t with c :: t' => if ch_eqb c "0" then 1 + zeros_at_start t' else 0 | [] => 0 end.
Definition decimal_exponent (t : text) : res Z :=
  let '(_, u) := unsigned t in
  let '(ip, r) := span_digits u in
  let '(fp, r') := match r with c :: r1 => if ch_eqb c "." then span_digits r1 else ([], r) | [] => ([], []) end in
  match exponent_part r' with
  | None => Err EOther
  | Some ex =>
      let ds := ip ++ fp in
      match ds with
      | [] => Err EOther
      | _ => if forallb (fun c => ch_eqb c "0") ds then Ok 0
             else Ok (ex - Z.of_nat (List.length fp) + zeros_at_start (rev ds))
      end
  end.

(** float_handlers.py:47-55 infer_decimals: [str] is str() of a float *)
Definition infer_decimals (str : spec_float -> text) (value : spec_float) : res Z :=
  do z <- trunc_float value;
  do t <- truncate value (17 - Z.of_nat (List.length (Z_text z)));
  decimal_exponent (str t).

(** float_handlers.py:18-33 significant_figures *)
Fixpoint figures_loop (str : spec_float -> text) (serie : list spec_float) (figures : Z) : res Z :=
  match serie with
  | [] => Ok figures
  | value :: serie' =>
      do figure <- infer_decimals str value;
      figures_loop str serie' (Z.max figures (- figure))
  end.
Definition significant_figures (str : spec_float -> text) (serie : list spec_float) : res Z :=
  figures_loop str (filter (fun x => negb (is_nan x)) serie) 0.
