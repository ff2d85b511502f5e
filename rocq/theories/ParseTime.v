(** strategies/clean/parse_time.py: turning a cell value into a date. *)
From Verif Require Import Base Cal Peg.
Local Open Scope Z_scope.

(** What the modelled code obtains from outside: Python's str() of a float and
    of a date, arrow's month names over all its locales, the month that
    arrow.get(text, format) reads from an element of three or more characters
    in the place of the month (the flag says that it is the first element of
    the text, where arrow finds a name after other characters), arrow.get(v) of
    something that is not a date (None is the clock, a number a timestamp, a
    text a guess) and pandas.Timestamp(v) of something that is not a date. *)
Record env := mkenv {
  float_str : spec_float -> text;
  date_str : datetime -> text;
  month_lookup : text -> option Z;
  arrow_month : bool -> text -> option Z;
  arrow_of : pyval -> res datetime;
  timestamp_of : pyval -> res datetime
}.

(** the parameters of a series the parsers look at *)
Record tparams := mktp { tp_composed : bool; tp_freq : text }.

(** ** Small conversions *)

(** a date element: 0 and None are both "missing" to [_fill_parse_date_holes] *)
Definition nz (z : Z) : option Z := if z =? 0 then None else Some z.

(** parse_time.py:228-240 _dob_year_to_four, on the digit texts the grammars
    hand to it.  %y reads two digits: 69-99 are 19xx, 00-68 are 20xx. *)
Definition dob_year_to_four (t : text) : res (option Z) :=
  match t with
  | [] => Ok None
  | [_; _; _; _] => do z <- py_int_of_text t; Ok (nz z)
  | [a; b] =>
      if is_digit a && is_digit b then
        let v := digits_val t in
        Ok (Some (if v <=? 68 then 2000 + v else 1900 + v))
      else Err EValue
  | _ => Err EValue
  end.

(** parse_time.py:456-484 _quarter_num_to_month, int and text arguments *)
Definition quarter_month (q : Z) : Z :=
  if q =? 1 then 1 else if q =? 2 then 4 else if q =? 3 then 7 else 10.
Definition q_to_m_int (q : Z) : option Z :=
  if q =? 0 then None else Some (quarter_month q).
Definition q_to_m (t : text) : res (option Z) :=
  match t with
  | [] => Ok None
  | _ =>
      let t1 := replace_text (T "IV") (T "4") t in
      let t2 := replace_text (T "III") (T "3") t1 in
      let t3 := replace_text (T "II") (T "2") t2 in
      let t4 := replace_text (T "I") (T "1") t3 in
      do q <- py_int_of_text (strip t4);
      Ok (Some (quarter_month q))
  end.

(** parse_time.py:783-806 _semester_num_to_month *)
Definition s_to_m (t : text) : res (option Z) :=
  match t with
  | [] => Ok None
  | _ =>
      let t1 := replace_text (T "II") (T "2") t in
      let t2 := replace_text (T "I") (T "1") t1 in
      do s <- py_int_of_text (strip t2);
      Ok (Some (if s =? 1 then 1 else 7))
  end.

(** parse_time.py:865-886 _month_str_to_num; the search over arrow's locales
    is [month_lookup] *)
Definition month_num (e : env) (t : text) : option Z :=
  match month_lookup e (capitalize t) with
  | Some z => nz z
  | None => None
  end.

(** ** The grammars.  A result is (year, month): the day is always 1. *)
Definition date_elems := (option Z * option Z)%type.

Definition not_in (s : string) (c : ascii) : bool := negb (ch_in c (T s)).
Definition in_set (s : string) (c : ascii) : bool := ch_in c (T s).

Definition int_of (t : text) : Z := digits_val t.

(** parse_time.py:519-532 ParseComposedQuarter1 *)
Definition not_d_or_q := not_in "0123456789IV()".
Definition is_IV := in_set "IV".
Definition q1_q_num_or_let : parser (text + Z) :=
  por (let_p q := prep 1 3 is_IV in pret (inl q))
      (let_p c := pch (fun c => is_digit c && in_set "1234" c) in
       pret (inr (digit_val c))).
Definition q1_quarter : parser (text + Z) :=
  let_p _ := pmany not_d_or_q in
  let_p q := q1_q_num_or_let in
  let_p _ := pmany not_d_or_q in pret q.
Definition q1_year : parser Z :=
  let_p _ := pmany not_d_or_q in
  let_p y := prep 4 4 is_digit in
  let_p _ := pmany not_d_or_q in pret (int_of y).
Definition opt_year (y : option Z) : option Z :=
  match y with Some z => nz z | None => None end.
Definition g_quarter1 : parser date_elems :=
  let_p y := popt q1_year in
  let_p q := q1_quarter in
  let_p _ := popt pref in
  let_p _ := pmany not_d_or_q in
  let_p _ := popt pref in
  let_p m := pact (match q with inl t => q_to_m t | inr z => Ok (q_to_m_int z) end) in
  pret (opt_year y, m).

(** parse_time.py:559-570 ParseComposedQuarter2 *)
Definition qsep := in_set "-/.T ".
Definition q_not_digit := not_in "0123456789-/. ".
Definition g_quarter2 : parser date_elems :=
  let_p _ := pws in
  let_p _ := popt pref in
  let_p q := pmany q_not_digit in
  let_p _ := pmany qsep in
  let_p y := prep 4 4 is_digit in
  let_p _ := popt pref in
  let_p _ := pws in
  let_p _ := prep 0 3 anything in
  let_p m := pact (q_to_m q) in
  pret (nz (int_of y), m).

(** parse_time.py:595-606 ParseComposedQuarter3; (ws | not_digit) is ws,
    which always matches *)
Definition q3_not_digit := not_in "0123456789 ".
Definition g_quarter3 : parser date_elems :=
  let_p _ := pmany q3_not_digit in
  let_p _ := pws in
  let_p c := pch is_digit in
  let_p _ := pmany q3_not_digit in
  let_p _ := pws in
  let_p _ := pmany q3_not_digit in
  let_p _ := pws in
  let_p y := prep 2 2 is_digit in
  let_p _ := pws in
  let_p _ := popt pref in
  let_p _ := pws in
  let_p _ := prep 0 3 anything in
  let_p yy := pact (dob_year_to_four y) in
  pret (yy, q_to_m_int (digit_val c)).

(** parse_time.py:631-643 ParseComposedQuarter4 *)
Definition opt_dob (y : option text) : res (option Z) :=
  match y with Some t => dob_year_to_four t | None => Ok None end.
Definition g_quarter4 : parser date_elems :=
  let_p _ := pws in
  let_p _ := popt pref in
  let_p q := pmany q_not_digit in
  let_p _ := pmany qsep in
  let_p y := popt (prep 2 2 is_digit) in
  let_p _ := popt pref in
  let_p _ := pws in
  let_p _ := prep 0 3 anything in
  let_p yy := pact (opt_dob y) in
  let_p m := pact (q_to_m q) in
  pret (yy, m).

(** parse_time.py:682-694 ParseComposedYearQuarter1 (and QuarterYear1) *)
Definition not_digit := not_in "0123456789".
Definition yq_quarter : parser text :=
  let_p _ := pmany not_d_or_q in
  let_p q := prep 1 3 is_IV in
  let_p _ := pmany not_d_or_q in pret q.
Definition yq_year : parser Z :=
  let_p _ := pmany not_digit in
  let_p y := prep 4 4 is_digit in
  let_p _ := pmany not_digit in pret (int_of y).
Definition g_year_quarter1 : parser date_elems :=
  let_p y := popt yq_year in
  let_p q := popt yq_quarter in
  let_p _ := popt pref in
  let_p _ := pmany not_d_or_q in
  let_p _ := popt pref in
  let_p m := pact (match q with Some t => q_to_m t | None => Ok None end) in
  pret (opt_year y, m).

(** parse_time.py:833-845 ParseComposedSemester *)
Definition ssep := in_set "-/.S ".
Definition g_semester : parser date_elems :=
  let_p _ := pws in
  let_p _ := popt pref in
  let_p s := pmany q_not_digit in
  let_p _ := pmany ssep in
  let_p y := popt (prep 2 2 is_digit) in
  let_p _ := popt pref in
  let_p _ := pws in
  let_p _ := prep 0 3 anything in
  let_p yy := pact (opt_dob y) in
  let_p m := pact (s_to_m s) in
  pret (yy, m).

(** parse_time.py:919-936 ParseComposedMonth1 *)
Definition m1_sep : parser unit :=
  let_p _ := pws in
  let_p x := pch anything in
  let_p _ := pws in
  (fun t => if in_set ".-/," x then POk tt t else PFail).
Definition m1_y : parser text :=
  let_p _ := pws in let_p y := prep 2 4 is_digit in let_p _ := pws in pret y.
Definition m1_m : parser text :=
  let_p _ := pws in let_p m := prep 3 50 is_letter in
  let_p _ := popt (plit ".") in pret m.
Definition g_month1 (e : env) : parser date_elems :=
  let ym :=
    let_p y := m1_y in let_p _ := popt pref in let_p _ := popt m1_sep in
    let_p m := m1_m in let_p _ := pmany anything in
    let_p yy := pact (dob_year_to_four y) in pret (yy, month_num e m) in
  let my :=
    let_p m := m1_m in let_p _ := popt pref in let_p _ := popt m1_sep in
    let_p y := m1_y in let_p _ := pmany anything in
    let_p yy := pact (dob_year_to_four y) in pret (yy, month_num e m) in
  let only_m :=
    let_p m := m1_m in let_p _ := pmany anything in pret (None, month_num e m) in
  por ym (por my only_m).

(** parse_time.py:971-984 ParseComposedMonth2: the year stays a text, so "0000"
    is not "missing" *)
Definition m2_y : parser text :=
  let_p _ := pws in let_p y := prep 4 4 is_digit in let_p _ := pws in pret y.
Definition m2_m : parser Z :=
  let_p _ := pws in let_p m := prep 1 2 is_digit in let_p _ := pws in pret (int_of m).
Definition g_month2 : parser date_elems :=
  let ym :=
    let_p y := m2_y in let_p _ := pmany not_digit in let_p m := m2_m in
    let_p _ := pmany anything in pret (Some (int_of y), nz m) in
  let my :=
    let_p m := m2_m in let_p _ := pmany not_digit in let_p y := m2_y in
    let_p _ := pmany anything in pret (Some (int_of y), nz m) in
  let only_m :=
    let_p m := m2_m in let_p _ := pmany anything in pret (None, nz m) in
  por ym (por my only_m).

(** parse_time.py:1031-1041 ParseComposedYear1 *)
Definition not_d_or_p := not_in "0123456789()".
Definition y_ref : parser unit :=
  let_p _ := pmany not_d_or_p in let_p _ := plit "(" in
  let_p _ := prep 1 3 is_digit in let_p _ := plit ")" in
  let_p _ := pmany not_d_or_p in pret tt.
Definition g_year1 : parser date_elems :=
  let_p _ := popt y_ref in
  let_p _ := pmany not_d_or_p in
  let_p y := prep 4 4 is_digit in
  let_p _ := pmany not_d_or_p in
  let_p _ := popt y_ref in
  pret (nz (int_of y), Some 1).

(** parse_time.py:1068-1078 ParseComposedYear2 *)
Definition g_year2 : parser date_elems :=
  let_p _ := popt y_ref in
  let_p y := prep 4 4 is_digit in
  let_p _ := plit "/" in
  let_p _ := prep 2 2 is_digit in
  let_p _ := popt y_ref in
  pret (nz (int_of y), Some 1).

(** ** The strategies *)

(** the concrete strategies of the module *)
Inductive strat :=
| SMonth1 | SMonth2 | SQuarter1 | SQuarter2 | SQuarter3 | SQuarter4
| SQuarterYear1 | SSemester | SYear1 | SYear2 | SYearQuarter1 | SSimple.

(** parse_time.py:1081-1087 get_strategies and
    utils/strategies_helpers.py: classes in alphabetical order *)
Definition strategies : list strat :=
  [ SMonth1; SMonth2; SQuarter1; SQuarter2; SQuarter3; SQuarter4;
    SQuarterYear1; SSemester; SYear1; SYear2; SYearQuarter1; SSimple ].

(** make_parsley_grammar of each strategy *)
Definition grammar (e : env) (s : strat) : parser date_elems :=
  match s with
  | SMonth1 => g_month1 e
  | SMonth2 => g_month2
  | SQuarter1 => g_quarter1
  | SQuarter2 => g_quarter2
  | SQuarter3 => g_quarter3
  | SQuarter4 => g_quarter4
  | SQuarterYear1 => g_year_quarter1
  | SSemester => g_semester
  | SYear1 => g_year1
  | SYear2 => g_year2
  | SYearQuarter1 => g_year_quarter1
  | SSimple => fun _ => PFail
  end.

(** the frequency each composed strategy is for (parse_time.py:446, 672, 723,
    774, 856, 995) *)
Definition strat_freq (s : strat) : text :=
  match s with
  | SMonth1 | SMonth2 => T "M"
  | SQuarter1 | SQuarter2 | SQuarter3 | SQuarter4 => T "Q"
  | SQuarterYear1 => T "QQQQA"
  | SSemester => T "S"
  | SYear1 | SYear2 => T "A"
  | SYearQuarter1 => T "AQQQQ"
  | SSimple => []
  end.

(** the _accepts methods (parse_time.py:303-304, 444-453, 671-679, 722-730,
    772-781, 854-863, 993-1002) *)
Definition accepts_text (e : env) (tp : tparams) (s : strat) (t : text) : bool :=
  match s with
  | SSimple => negb (tp_composed tp)
  | _ => tp_composed tp && text_eqb (tp_freq tp) (strat_freq s)
         && is_ok (run_grammar (grammar e s) t)
  end.

(** str(v) of the values a cell may hold *)
Definition py_str (e : env) (v : pyval) : res text :=
  match v with
  | VStr t => Ok t
  | VInt z => Ok (Z_text z)
  | VBool true => Ok (T "True")
  | VBool false => Ok (T "False")
  | VFloat f => Ok (float_str e f)
  | VNone => Ok (T "None")
  | VDate d => Ok (date_str e d)
  | _ => Err EOther
  end.

(** parse_time.py:102-146 accepts.  [last] is an arrow value or None, as the
    callers guarantee, so lines 134-135 never raise. *)
Definition accepts (e : env) (tp : tparams) (s : strat) (v : pyval) : res bool :=
  match v with
  | VDate _ => if tp_composed tp then Err ENotComposed else Ok true
  | VNone => Err ENoPossible
  | VStr t => Ok (accepts_text e tp s (strip t))
  | VFloat f =>
      let u := accepts_text e tp s (float_str e f) in
      do z <- trunc_float f;
      Ok (u || accepts_text e tp s (Z_text z))
  | _ => do t <- py_str e v; Ok (accepts_text e tp s t)
  end.

(** parse_time.py:265-291 _fill_parse_date_holes; 732-763 for QuarterYear1 *)
Definition or_else (o : option Z) (d : Z) : Z := match o with Some z => z | None => d end.
Definition fill_holes (s : strat) (r : date_elems) (last : option datetime) : Z * Z :=
  let '(y, m) := r in
  match last with
  | Some l =>
      match s, y, m with
      | SQuarterYear1, None, None =>
          if dt_m l =? 10 then (dt_y l, 1) else (dt_y l, dt_m l)
      | _, _, _ => (or_else y (dt_y l), or_else m (dt_m l))
      end
  | None => (or_else y 1, or_else m 1)
  end.

(** parse_time.py:195-226 _parse_time of the PEG strategies; the day is 1, so
    DayOutOfRange is never raised *)
Definition peg_parse (e : env) (s : strat) (t : text) (last : option datetime) : res datetime :=
  do r <- run_grammar (grammar e s) t;
  let '(y, m) := fill_holes s r last in
  if (1 <=? m) && (m <=? 12) then make_date y m 1 else Err EMonth.

(** ** ParseSimpleTime *)

(** One date element matched against its format, as arrow 0.5 does: the
    format repeats the letter as many times as the element has characters.
    Result: None when the format has no such element (empty text). *)
Definition match_day (t : text) : res (option Z) :=
  match List.length t with
  | 0%nat => Ok None
  | 1%nat | 2%nat => if forallb is_digit t then Ok (Some (digits_val t)) else Err EParse
  | _ => Err EParse
  end.
(** "MMM" is an abbreviation, "MMMM" a name, and more letters are a name and
    something after it: digits alone never match *)
Definition match_month (e : env) (first : bool) (t : text) : res (option Z) :=
  match List.length t with
  | 0%nat => Ok None
  | 1%nat | 2%nat => if forallb is_digit t then Ok (Some (digits_val t)) else Err EParse
  | _ => if forallb is_digit t then Err EParse
         else match arrow_month e first t with Some z => Ok (Some z) | None => Err EParse end
  end.
(** a lone "Y" is no element but that letter; "YYYYY" is a year and the letter,
    "YYYYYY" a year of four digits and then one of two, which is kept; the other
    lengths have an unknown element or the same element twice *)
Definition short_year (v : Z) : Z := if 68 <? v then 1900 + v else 2000 + v.
Definition match_year (t : text) : res (option Z) :=
  match t with
  | [] => Ok None
  | [_] => if text_eqb (upper t) (T "Y") then Ok None else Err EParse
  | [_; _] => if forallb is_digit t then Ok (Some (short_year (digits_val t))) else Err EParse
  | [_; _; _; _] => if forallb is_digit t then Ok (Some (digits_val t)) else Err EParse
  | [a; b; c; d; y] => if forallb is_digit [a; b; c; d] && text_eqb (upper [y]) (T "Y")
                       then Ok (Some (digits_val [a; b; c; d])) else Err EParse
  | [_; _; _; _; a; b] => if forallb is_digit t then Ok (Some (short_year (digits_val [a; b]))) else Err EParse
  | _ => Err EParse
  end.

(** arrow.get(text, format) for elements day, month, year *)
Definition arrow_get (e : env) (first : bool) (d m y : text) : res datetime :=
  do dd <- match_day d;
  do mm <- match_month e first m;
  do yy <- match_year y;
  make_date (or_else yy 1) (or_else mm 1) (or_else dd 1).

(** parse_time.py:395-412: the three orders, "D-M-Y", "M-D-Y", "Y-M-D" *)
Definition simple_candidates (e : env) (t : text) : res (list (res datetime)) :=
  match split_ch "-" t with
  | [a; b; c] => Ok [arrow_get e false a b c; arrow_get e true b a c; arrow_get e false c b a]
  | _ => Err EAssert
  end.

(** parse_time.py:331-350 the loop over the formats.  [time_format] is never
    set in /repo, so lines 316-329 are dead. *)
Fixpoint pick (sense : datetime -> res bool) (l : list (res datetime)) : res datetime :=
  match l with
  | [] => Err ENoTime
  | Err _ :: l' => pick sense l'
  | Ok d :: l' =>
      do b <- sense d;
      if b : bool then Ok d else pick sense l'
  end.
Definition dashes (t : text) : text := replace_ch "/" "-" (replace_ch "." "-" t).
Definition simple_parse_text (e : env) (sense : datetime -> res bool) (t : text) : res datetime :=
  do cs <- simple_candidates e (dashes t); pick sense cs.

(** parse_time.py:148-193 parse_time given the text parser *)
Definition parse_value (e : env) (pt : text -> res datetime) (v : pyval) : res datetime :=
  match v with
  | VDate d => Ok d
  | VStr t => pt (strip t)
  | VInt _ | VBool _ => do t <- py_str e v; pt t
  | VFloat f =>
      match (do z <- trunc_float f; pt (Z_text z)) with
      | Ok d => Ok d
      | Err _ => pt (float_str e f)
      end
  | _ => Err EAssert
  end.

(** parse_time.py:297, 352-393 _time_make_sense *)
Definition MAX_IMPL : Z := 20.
Definition sense_last (freq : text) (last : option datetime) (d : datetime) : res bool :=
  match last with
  | Some l =>
      do mx <- increment_time l MAX_IMPL freq;
      Ok (dt_ltb l d && dt_leb d mx)
  | None => Ok true
  end.
(** with no next value *)
Definition simple_parse1 (e : env) (freq : text) (last : option datetime) (v : pyval) : res datetime :=
  parse_value e (simple_parse_text e (sense_last freq last)) v.
Definition sense (e : env) (freq : text) (last : option datetime) (next : pyval)
    (d : datetime) : res bool :=
  do a <- sense_last freq last d;
  if truthy next then
    match simple_parse1 e freq (Some d) next with
    | Err ENoTime => Ok false
    | Err x => Err x
    | Ok n =>
        do mx <- increment_time d MAX_IMPL freq;
        Ok (a && dt_ltb d n && dt_leb n mx)
    end
  else Ok a.

(** strategy().parse_time(params, curr, last, next) *)
Definition parse_time (e : env) (tp : tparams) (s : strat) (v : pyval)
    (last : option datetime) (next : pyval) : res datetime :=
  match s with
  | SSimple => parse_value e (simple_parse_text e (sense e (tp_freq tp) last next)) v
  | _ => parse_value e (fun t => peg_parse e s t last) v
  end.
