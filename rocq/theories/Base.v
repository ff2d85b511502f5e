(** Python-level foundations: exceptions as values, texts, Python values.

    Nothing in this file models a function of /repo by itself; it models the
    pieces of the Python 3 language the functions of /repo are written in.
    Texts are lists of ASCII characters (simplification: the real code handles
    arbitrary unicode and folds it to ASCII with [unidecode]). *)
From Coq Require Export List Ascii String ZArith NArith Bool Lia.
From Coq Require Export SpecFloat.
From Coq Require Decimal.
Export ListNotations.
Local Open Scope Z_scope.

(** ** Exceptions and results *)

(** Python exception classes that matter to the control flow of /repo. *)
Inductive exn : Type :=
| ECritical        (* discover/parameters.py:31 CriticalParameterMissing *)
| EInvalid         (* discover/parameters.py:18 InvalidParameter *)
| ENotRecognized   (* discover/parameters.py:44 InputParametersNotRecognized *)
| EAssert          (* AssertionError *)
| EType | EValue | EKey | EIndex | EAttr | EUnbound | EOverflow | ENotImpl
| EDay             (* parse_time.py:86 DayOutOfRange *)
| EMonth           (* parse_time.py:91 MonthOutOfRange *)
| EParseImpl       (* time_index.py:66 ParseTimeImplementationError *)
| ENoPossible      (* parse_time.py:36 NoPossibleTimeValue *)
| ENotComposed     (* parse_time.py:46 TimeIsNotComposed *)
| ENoTime          (* parse_time.py:60 NoTimeValue *)
| ESame            (* time_index.py:83 SameTimeValue *)
| EBackwards       (* time_index.py:42 TimeValueGoingBackwards *)
| EForth           (* time_index.py:54 TimeValueGoingForth *)
| EInvalidFreq     (* utils/time_manipulation.py:15 InvalidTimeFrequency *)
| EParse           (* parsley.ParseError *)
| ETimeNotClean    (* strategies/strategies.py:28 TimeIndexNotClean *)
| EOther.          (* a plain Exception *)

Definition exn_eqb (a b : exn) : bool :=
  match a, b with
  | ECritical, ECritical | EInvalid, EInvalid | ENotRecognized, ENotRecognized
  | EAssert, EAssert | EType, EType | EValue, EValue | EKey, EKey
  | EIndex, EIndex | EAttr, EAttr | EUnbound, EUnbound | EOverflow, EOverflow
  | ENotImpl, ENotImpl | EDay, EDay | EMonth, EMonth | EParseImpl, EParseImpl
  | ENoPossible, ENoPossible | ENotComposed, ENotComposed | ENoTime, ENoTime
  | ESame, ESame | EBackwards, EBackwards | EForth, EForth
  | EInvalidFreq, EInvalidFreq | EParse, EParse
  | ETimeNotClean, ETimeNotClean | EOther, EOther => true
  | _, _ => false
  end.

Inductive res (A : Type) : Type :=
| Ok (a : A)
| Err (e : exn).
Arguments Ok {A} a.
Arguments Err {A} e.

Definition bind {A B} (r : res A) (f : A -> res B) : res B :=
  match r with Ok a => f a | Err e => Err e end.
Notation "'do' x <- r ; k" := (bind r (fun x => k))
  (at level 200, x pattern, r at level 100, k at level 200, right associativity).

Definition is_ok {A} (r : res A) : bool :=
  match r with Ok _ => true | Err _ => false end.

(** [assert b]: AssertionError when false. *)
Definition assert_ (b : bool) : res unit := if b then Ok tt else Err EAssert.

(** Sequencing a list of computations left to right (a Python loop or list
    comprehension whose body may raise). *)
Fixpoint mapM {A B} (f : A -> res B) (l : list A) : res (list B) :=
  match l with
  | [] => Ok []
  | a :: l' => do b <- f a; do bs <- mapM f l'; Ok (b :: bs)
  end.

Fixpoint foldM {A S} (f : S -> A -> res S) (l : list A) (s : S) : res S :=
  match l with
  | [] => Ok s
  | a :: l' => do s' <- f s a; foldM f l' s'
  end.

(** ** Texts *)

Definition text := list ascii.
Definition T (s : string) : text := list_ascii_of_string s.

Definition ch_eqb (a b : ascii) : bool := Ascii.eqb a b.

Fixpoint text_eqb (a b : text) : bool :=
  match a, b with
  | [], [] => true
  | x :: a', y :: b' => ch_eqb x y && text_eqb a' b'
  | _, _ => false
  end.

Definition code (c : ascii) : Z := Z.of_N (N_of_ascii c).

Definition is_digit (c : ascii) : bool := (48 <=? code c) && (code c <=? 57).
Definition is_upper (c : ascii) : bool := (65 <=? code c) && (code c <=? 90).
Definition is_lower (c : ascii) : bool := (97 <=? code c) && (code c <=? 122).
Definition is_letter (c : ascii) : bool := is_upper c || is_lower c.
(** str.isspace on ASCII *)
Definition is_space (c : ascii) : bool :=
  ((9 <=? code c) && (code c <=? 13)) || ((28 <=? code c) && (code c <=? 32)).

Definition up_ch (c : ascii) : ascii :=
  if is_lower c then ascii_of_N (Z.to_N (code c - 32)) else c.
Definition low_ch (c : ascii) : ascii :=
  if is_upper c then ascii_of_N (Z.to_N (code c + 32)) else c.

(** str.upper, str.lower, str.capitalize *)
Definition upper (t : text) : text := map up_ch t.
Definition lower (t : text) : text := map low_ch t.
Definition capitalize (t : text) : text :=
  match t with [] => [] | c :: t' => up_ch c :: lower t' end.

Fixpoint drop_while (f : ascii -> bool) (t : text) : text :=
  match t with
  | [] => []
  | c :: t' => if f c then drop_while f t' else t
  end.
Fixpoint take_while (f : ascii -> bool) (t : text) : text :=
  match t with
  | [] => []
  | c :: t' => if f c then c :: take_while f t' else []
  end.

(** str.strip() *)
Definition strip (t : text) : text :=
  rev (drop_while is_space (rev (drop_while is_space t))).

(** c in text, for a one character text *)
Definition ch_in (c : ascii) (t : text) : bool := existsb (ch_eqb c) t.

(** text.split(c), c a one character text *)
Fixpoint split_ch (c : ascii) (t : text) : list text :=
  match t with
  | [] => [[]]
  | x :: t' =>
      if ch_eqb x c then [] :: split_ch c t'
      else match split_ch c t' with
           | w :: ws => (x :: w) :: ws
           | [] => [[x]]
           end
  end.

(** text.replace(old, new) for one character old and new *)
Definition replace_ch (o n : ascii) (t : text) : text :=
  map (fun c => if ch_eqb c o then n else c) t.
(** text.replace(old, "") for a one character old *)
Definition remove_ch (o : ascii) (t : text) : text :=
  filter (fun c => negb (ch_eqb c o)) t.

Fixpoint is_prefix (p t : text) : bool :=
  match p, t with
  | [], _ => true
  | x :: p', y :: t' => ch_eqb x y && is_prefix p' t'
  | _, [] => false
  end.

(** [sub in text] *)
Fixpoint is_substring (p t : text) : bool :=
  is_prefix p t || match t with [] => false | _ :: t' => is_substring p t' end.

(** text.partition(sep)[2]: what follows the first occurrence of sep *)
Fixpoint after_first (sep t : text) : text :=
  if is_prefix sep t then skipn (List.length sep) t
  else match t with [] => [] | _ :: t' => after_first sep t' end.

(** text.replace(old, new), non empty old; [fuel] >= length of the text *)
Fixpoint replace_sub (fuel : nat) (o n t : text) : text :=
  match fuel with
  | O => t
  | S k =>
      match t with
      | [] => []
      | c :: t' =>
          if is_prefix o t then n ++ replace_sub k o n (skipn (List.length o) t)
          else c :: replace_sub k o n t'
      end
  end.
Definition replace_text (o n t : text) : text :=
  replace_sub (List.length t) o n t.

(** sep.join(texts) *)
Fixpoint join (sep : text) (l : list text) : text :=
  match l with
  | [] => []
  | [x] => x
  | x :: l' => x ++ sep ++ join sep l'
  end.

(** ** Decimal texts *)

Definition digit_val (c : ascii) : Z := code c - 48.

Fixpoint uint_text (u : Decimal.uint) : text :=
  match u with
  | Decimal.Nil => []
  | Decimal.D0 u => "0"%char :: uint_text u
  | Decimal.D1 u => "1"%char :: uint_text u
  | Decimal.D2 u => "2"%char :: uint_text u
  | Decimal.D3 u => "3"%char :: uint_text u
  | Decimal.D4 u => "4"%char :: uint_text u
  | Decimal.D5 u => "5"%char :: uint_text u
  | Decimal.D6 u => "6"%char :: uint_text u
  | Decimal.D7 u => "7"%char :: uint_text u
  | Decimal.D8 u => "8"%char :: uint_text u
  | Decimal.D9 u => "9"%char :: uint_text u
  end.

(** str(z) for an int *)
Definition Z_text (z : Z) : text :=
  match z with
  | Zneg p => "-"%char :: uint_text (N.to_uint (Npos p))
  | _ => uint_text (N.to_uint (Z.to_N z))
  end.

(** value of a text made of digits only *)
Definition digits_val (t : text) : Z :=
  fold_left (fun acc c => acc * 10 + digit_val c) t 0.

Definition all_digits (t : text) : bool :=
  negb (Nat.eqb (List.length t) 0) && forallb is_digit t.

(** digits possibly separated by single underscores, as Python >= 3.6 accepts
    in int() and float(); returns the text without underscores *)
Fixpoint strip_underscores (prev_digit : bool) (t : text) : option text :=
  match t with
  | [] => if prev_digit then Some [] else None
  | c :: t' =>
      if is_digit c then
        match strip_underscores true t' with
        | Some r => Some (c :: r)
        | None => None
        end
      else if ch_eqb c "_"%char && prev_digit then strip_underscores false t'
      else None
  end.

(** optional sign: (negative?, rest) *)
Definition take_sign (t : text) : bool * text :=
  match t with
  | c :: t' =>
      if ch_eqb c "-"%char then (true, t')
      else if ch_eqb c "+"%char then (false, t')
      else (false, t)
  | [] => (false, [])
  end.

(** int(text): ValueError when it is not an integer literal *)
Definition py_int_of_text (t : text) : res Z :=
  let '(neg, body) := take_sign (strip t) in
  match strip_underscores false body with
  | Some ds => Ok (if neg then - digits_val ds else digits_val ds)
  | None => Err EValue
  end.

(** ** Floats (IEEE binary64) *)

Definition prec := 53%Z.
Definition emax := 1024%Z.

Definition float_of_Z (z : Z) : spec_float := binary_normalize prec emax z 0 false.

(** correctly rounded m * 10^e *)
Definition float_of_dec (neg : bool) (m e : Z) : spec_float :=
  match m with
  | Zpos p =>
      if 0 <=? e then
        binary_normalize prec emax (if neg then - (m * 10 ^ e) else m * 10 ^ e) 0 neg
      else
        let '(mz, ez, lz) := SFdiv_core_binary prec emax m 0 (10 ^ (- e)) 0 in
        binary_round_aux prec emax neg mz ez lz
  | _ => S754_zero neg
  end.

Definition finite_or_zero (f : spec_float) : bool :=
  match f with S754_zero _ | S754_finite _ _ _ => true | _ => false end.

(** int(f): truncation; OverflowError / ValueError on inf / nan *)
Definition trunc_float (f : spec_float) : res Z :=
  match f with
  | S754_zero _ => Ok 0
  | S754_infinity _ => Err EOverflow
  | S754_nan => Err EValue
  | S754_finite s m e =>
      let a := if 0 <=? e then Zpos m * 2 ^ e else Zpos m / 2 ^ (- e) in
      Ok (if s then - a else a)
  end.

(** float == int, exact comparison *)
Definition float_eq_Z (f : spec_float) (z : Z) : bool :=
  match f with
  | S754_zero _ => z =? 0
  | S754_finite s m e =>
      let sm := if s then Zneg m else Zpos m in
      if 0 <=? e then sm * 2 ^ e =? z else sm =? z * 2 ^ (- e)
  | _ => false
  end.

Definition is_nan (f : spec_float) : bool :=
  match f with S754_nan => true | _ => false end.

(** ** Dates *)

(** datetime.datetime / arrow.Arrow in UTC, second resolution. *)
Record datetime := mkdt { dt_y : Z; dt_m : Z; dt_d : Z; dt_s : Z }.

Definition dt_eqb (a b : datetime) : bool :=
  (dt_y a =? dt_y b) && (dt_m a =? dt_m b) && (dt_d a =? dt_d b) && (dt_s a =? dt_s b).

(** ** Python values *)

Inductive pytype := TyStr | TyInt | TyList | TyDict.

Inductive pyval : Type :=
| VNone
| VBool (b : bool)
| VInt (z : Z)
| VFloat (f : spec_float)
| VStr (t : text)
| VDate (d : datetime)
| VList (l : list pyval)
| VDict (d : list (text * pyval))
| VType (t : pytype).

Definition dict := list (text * pyval).

Definition pytype_eqb (a b : pytype) : bool :=
  match a, b with
  | TyStr, TyStr | TyInt, TyInt | TyList, TyList | TyDict, TyDict => true
  | _, _ => false
  end.

Definition bZ (b : bool) : Z := if b then 1 else 0.

(** Python ==.  Numbers compare across bool, int and float; dictionaries
    compare as finite maps. *)
Fixpoint py_eq (a b : pyval) {struct a} : bool :=
  match a, b with
  | VNone, VNone => true
  | VBool x, VBool y => Bool.eqb x y
  | VBool x, VInt y => bZ x =? y
  | VInt x, VBool y => x =? bZ y
  | VInt x, VInt y => x =? y
  | VFloat f, VFloat g => SFeqb f g
  | VFloat f, VInt z => float_eq_Z f z
  | VInt z, VFloat f => float_eq_Z f z
  | VFloat f, VBool x => float_eq_Z f (bZ x)
  | VBool x, VFloat f => float_eq_Z f (bZ x)
  | VStr x, VStr y => text_eqb x y
  | VDate x, VDate y => dt_eqb x y
  | VType x, VType y => pytype_eqb x y
  | VList x, VList y =>
      (fix go (x y : list pyval) : bool :=
         match x, y with
         | [], [] => true
         | p :: x', q :: y' => py_eq p q && go x' y'
         | _, _ => false
         end) x y
  | VDict x, VDict y =>
      Nat.eqb (List.length x) (List.length y) &&
      (fix go (x : list (text * pyval)) : bool :=
         match x with
         | [] => true
         | (k, p) :: x' =>
             (fix find (y : list (text * pyval)) : bool :=
                match y with
                | [] => false
                | (k', q) :: y' => if text_eqb k k' then py_eq p q else find y'
                end) y && go x'
         end) x
  | _, _ => false
  end.

(** truth value *)
Definition truthy (v : pyval) : bool :=
  match v with
  | VNone => false
  | VBool b => b
  | VInt z => negb (z =? 0)
  | VFloat (S754_zero _) => false
  | VFloat _ => true
  | VStr t => negb (Nat.eqb (List.length t) 0)
  | VDate _ => true
  | VList l => negb (Nat.eqb (List.length l) 0)
  | VDict d => negb (Nat.eqb (List.length d) 0)
  | VType _ => true
  end.

Definition is_none (v : pyval) : bool := match v with VNone => true | _ => false end.
Definition is_list (v : pyval) : bool := match v with VList _ => true | _ => false end.
Definition is_str (v : pyval) : bool := match v with VStr _ => true | _ => false end.
Definition is_date (v : pyval) : bool := match v with VDate _ => true | _ => false end.

(** isinstance(v, t); bool is a subclass of int *)
Definition isinstance (v : pyval) (t : pytype) : bool :=
  match v, t with
  | VStr _, TyStr => true
  | VInt _, TyInt => true
  | VBool _, TyInt => true
  | VList _, TyList => true
  | VDict _, TyDict => true
  | _, _ => false
  end.

(** v in container *)
Definition py_in (v c : pyval) : res bool :=
  match c with
  | VList l => Ok (existsb (fun x => py_eq v x) l)
  | VDict d => match v with
               | VStr k => Ok (existsb (fun kv => text_eqb k (fst kv)) d)
               | VList _ | VDict _ => Err EType
               | _ => Ok false
               end
  | VStr t => match v with VStr s => Ok (is_substring s t) | _ => Err EType end
  | _ => Err EType
  end.

(** c[i] for an int i >= 0 *)
Definition py_index (c : pyval) (i : nat) : res pyval :=
  match c with
  | VList l => match nth_error l i with Some v => Ok v | None => Err EIndex end
  | VStr t => match nth_error t i with Some x => Ok (VStr [x]) | None => Err EIndex end
  | VDict _ => Err EKey
  | _ => Err EType
  end.

(** len(v) *)
Definition py_len (v : pyval) : res nat :=
  match v with
  | VList l => Ok (List.length l)
  | VStr t => Ok (List.length t)
  | VDict d => Ok (List.length d)
  | _ => Err EType
  end.

(** ** Dictionaries: insertion ordered association lists *)

Fixpoint dget (k : text) (d : dict) : option pyval :=
  match d with
  | [] => None
  | (k', v) :: d' => if text_eqb k k' then Some v else dget k d'
  end.

Definition dhas (k : text) (d : dict) : bool :=
  match dget k d with Some _ => true | None => false end.

(** d[k], KeyError if absent *)
Definition dgetE (k : text) (d : dict) : res pyval :=
  match dget k d with Some v => Ok v | None => Err EKey end.

(** attribute-like access: absent counts as None *)
Definition dgetN (k : text) (d : dict) : pyval :=
  match dget k d with Some v => v | None => VNone end.

(** d[k] = v keeps the position of an existing key, appends a new one *)
Fixpoint dset (k : text) (v : pyval) (d : dict) : dict :=
  match d with
  | [] => [(k, v)]
  | (k', v') :: d' => if text_eqb k k' then (k', v) :: d' else (k', v') :: dset k v d'
  end.

Definition ddel (k : text) (d : dict) : dict :=
  filter (fun kv => negb (text_eqb k (fst kv))) d.

Definition text_in (t : text) (l : list text) : bool := existsb (text_eqb t) l.

(** ** float(v) *)

(** decimal literal: digits [. digits] [e [sign] digits] *)
Definition py_float_of_text (t : text) : res spec_float :=
  let '(neg, body) := take_sign (strip t) in
  let lb := lower body in
  if text_eqb lb (T "inf") || text_eqb lb (T "infinity") then Ok (S754_infinity neg)
  else if text_eqb lb (T "nan") then Ok S754_nan
  else
    let mant := take_while (fun c => negb (ch_eqb c "e"%char)) lb in
    let rest := drop_while (fun c => negb (ch_eqb c "e"%char)) lb in
    let exp_part : option Z :=
      match rest with
      | [] => Some 0
      | _ :: ex =>
          let '(eneg, ed) := take_sign ex in
          match strip_underscores false ed with
          | Some ds => Some (if eneg then - digits_val ds else digits_val ds)
          | None => None
          end
      end in
    let ipart := take_while (fun c => negb (ch_eqb c "."%char)) mant in
    let frest := drop_while (fun c => negb (ch_eqb c "."%char)) mant in
    let sp_ (w : text) : option text :=
      match w with [] => Some [] | _ => strip_underscores false w end in
    let fpart := match frest with [] => [] | _ :: f => f end in
    match exp_part, sp_ ipart, sp_ fpart with
    | Some ex, Some i, Some f =>
        match i ++ f with
        | [] => Err EValue
        | ds => Ok (float_of_dec neg (digits_val ds) (ex - Z.of_nat (List.length f)))
        end
    | _, _, _ => Err EValue
    end.

Definition py_float (v : pyval) : res spec_float :=
  match v with
  | VFloat f => Ok f
  | VInt z => let f := float_of_Z z in
              if finite_or_zero f then Ok f else Err EOverflow
  | VBool b => Ok (float_of_Z (bZ b))
  | VStr t => py_float_of_text t
  | _ => Err EType
  end.

(** int(v) *)
Definition py_int (v : pyval) : res Z :=
  match v with
  | VInt z => Ok z
  | VBool b => Ok (bZ b)
  | VFloat f => trunc_float f
  | VStr t => py_int_of_text t
  | _ => Err EType
  end.

(** a Python slice l[a:b] with possibly negative bounds *)
Definition slice_bound (n a : Z) : Z :=
  if a <? 0 then Z.max 0 (n + a) else Z.min a n.
Definition py_slice {A} (l : list A) (a b : Z) : list A :=
  let n := Z.of_nat (List.length l) in
  let a' := slice_bound n a in
  let b' := slice_bound n b in
  firstn (Z.to_nat (b' - a')) (skipn (Z.to_nat a') l).

(** range(a, b+1) *)
Definition zrange (a b : Z) : list Z :=
  map (fun i => a + Z.of_nat i) (seq 0 (Z.to_nat (b + 1 - a))).
