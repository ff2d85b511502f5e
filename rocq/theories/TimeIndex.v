(** strategies/clean/time_index.py: cleaning the time index of a worksheet. *)
From Verif Require Import Base Cal Coord Params ParseTime.
Local Open Scope Z_scope.

(** ** The parameters of one series, as the strategies read them *)

Inductive align := Vert | Horiz.

Inductive theader := ThStr (t : text) | ThList (l : list text).

Record sp := mksp {
  sp_al : align;              (* alignment *)
  sp_name : pyval;            (* series_names *)
  sp_hc : text;               (* headers_coord *)
  sp_comp : pyval;            (* composed_headers_coord *)
  sp_ctx : pyval;             (* context *)
  sp_starts : Z;              (* data_starts *)
  sp_ends : option Z;         (* data_ends, None also for 0 *)
  sp_cont : bool;             (* continuity *)
  sp_blank : bool;            (* blank_rows *)
  sp_missings : bool;         (* missings *)
  sp_mv : pyval;              (* missing_value *)
  sp_ta : Z;                  (* time_alignment *)
  sp_multi : bool;            (* time_multicolumn *)
  sp_th : theader;            (* time_header_coord *)
  sp_composed : bool;         (* time_composed *)
  sp_freq : text              (* frequency *)
}.

(** an int, accepting booleans and floats that are integers (simplification:
    a float such as 1.0, allowed by validation because 1.0 == 1, would make
    range() raise TypeError in some places) *)
Definition as_int (v : pyval) : res Z :=
  match v with
  | VInt z => Ok z
  | VBool b => Ok (bZ b)
  | VFloat f => do z <- trunc_float f; if float_eq_Z f z then Ok z else Err EType
  | _ => Err EType
  end.

Definition as_align (v : pyval) : res align :=
  if py_eq v (str_ "vertical") then Ok Vert
  else if py_eq v (str_ "horizontal") then Ok Horiz
  else Err EOther.   (* time_index.py:251 *)

Definition as_theader (v : pyval) : res theader :=
  match v with
  | VStr t => Ok (ThStr t)
  | VList l => do ts <- mapM as_text l; Ok (ThList ts)
  | _ => Err EType
  end.

(** parameters.py:329-343 read through the typed record; an absent parameter
    (None for all the series) raises KeyError when it is looked up *)
Definition sp_of (d : dict) : res sp :=
  do al <- dgetE n_alignment d; do al' <- as_align al;
  do nm <- dgetE n_series_names d;
  do hc <- dgetE n_headers_coord d; do hc' <- as_text hc;
  do cp <- dgetE n_composed d;
  do cx <- dgetE n_context d;
  do ds <- dgetE n_data_starts d; do ds' <- as_int ds;
  do de <- dgetE n_data_ends d;
  do de' <- (if truthy de then do z <- as_int de; Ok (Some z) else Ok None);
  do ct <- dgetE n_continuity d;
  do bl <- dgetE n_blank_rows d;
  do ms <- dgetE n_missings d;
  do mv <- dgetE n_missing_value d;
  do ta <- dgetE n_time_alignment d; do ta' <- as_int ta;
  do tm <- dgetE n_time_multicolumn d;
  do th <- dgetE n_time_header d; do th' <- as_theader th;
  do tc <- dgetE n_time_composed d;
  do fr <- dgetE n_frequency d; do fr' <- as_text fr;
  Ok (mksp al' nm hc' cp cx ds' de' (truthy ct) (truthy bl) (truthy ms) mv ta'
        (truthy tm) th' (truthy tc) fr').

(** params[i_series] *)
Definition series_sp (p : dict) (i : nat) : res sp :=
  do d <- get_series_params p i; sp_of d.

(** ** Cells along an axis.  A vertical time index is a column [line] whose
    positions are rows; a horizontal one is a row whose positions are columns. *)
Definition axis_row (al : align) (line pos : Z) : Z := match al with Vert => pos | Horiz => line end.
Definition axis_col (al : align) (line pos : Z) : Z := match al with Vert => line | Horiz => pos end.
Definition axis_read (al : align) (w : worksheet) (line pos : Z) : res pyval :=
  read w (axis_row al line pos) (axis_col al line pos).
Definition axis_val (al : align) (w : worksheet) (line pos : Z) : pyval :=
  cell w (axis_row al line pos) (axis_col al line pos).
Definition axis_touch (al : align) (line pos : Z) (w : worksheet) : worksheet :=
  touch (axis_row al line pos) (axis_col al line pos) w.
Definition axis_write (al : align) (line pos : Z) (v : pyval) (w : worksheet) : worksheet :=
  write (axis_row al line pos) (axis_col al line pos) v w.
Definition axis_max (al : align) (w : worksheet) : Z :=
  match al with Vert => max_row w | Horiz => max_col w end.
(** column of a vertical series, row of a horizontal one, from a coordinate *)
Definition coord_line (al : align) (t : text) : res Z :=
  do rc <- parse_coord t; Ok (match al with Vert => snd rc | Horiz => fst rc end).

(** ** Reading time values *)

(** time_index.py:577-583 _safe_str *)
Definition safe_str (e : env) (v : pyval) : res text :=
  match py_int v with
  | Ok z => Ok (Z_text z)
  | Err _ => py_str e v
  end.

(** the lines a time index is read from: one (a text header) or several *)
Inductive tlines := OneLine (l : Z) | ManyLines (ls : list Z).

(** time_index.py:526-535 and 547-575 _get_time_value *)
Definition many_value (e : env) (al : align) (w : worksheet) (ls : list Z) (pos : Z) : res pyval :=
  do ts <- foldM (fun acc l =>
             do v <- axis_read al w l pos;
             do _ <- assert_ (negb (is_date v));
             if truthy v && negb (py_eq v (str_ "None")) then
               do t <- safe_str e v; Ok (acc ++ [t])
             else Ok acc) ls [];
  let t := join (T " ") ts in
  if Nat.ltb 0 (List.length (strip t)) then Ok (VStr t) else Ok VNone.
Definition time_value (e : env) (al : align) (w : worksheet) (tl : tlines) (pos : Z) : res pyval :=
  match tl with
  | OneLine l => axis_read al w l pos
  | ManyLines ls => many_value e al w ls pos
  end.

(** the cells created by reading position [pos].  Simplification: the cell of the
    time header, created when it is not in the sheet, is not: it would only make
    the extent of the sheet larger when the header is beyond it. *)
Definition touch_time (al : align) (tl : tlines) (pos : Z) (w : worksheet) : worksheet :=
  match tl with
  | OneLine l => axis_touch al l pos w
  | ManyLines ls => fold_left (fun w l => axis_touch al l pos w) ls w
  end.

(** line of the cell the clean time value is written to
    (time_index.py:266-272 _time_header_cell) *)
Definition write_line (al : align) (th : theader) : res Z :=
  match th with
  | ThStr t => coord_line al t
  | ThList (t :: _) => coord_line al t
  | ThList [] => Err EIndex
  end.

(** time_index.py:529, 553: the header must be a text for a single column
    index and a list for a multicolumn one *)
Definition time_lines (al : align) (th : theader) (multi : bool) : res tlines :=
  match th, multi with
  | ThStr t, false => do l <- coord_line al t; Ok (OneLine l)
  | ThList ts, true => do ls <- mapM (coord_line al) ts; Ok (ManyLines ls)
  | _, _ => Err EAssert
  end.

(** ** Which values have to be dates *)

(** time_index.py:187-189 _must_be_time_value; 595-600 for offset indexes *)
Definition must_be_time_value (v : pyval) : bool :=
  match v with
  | VNone => false
  | VStr t => Nat.ltb 0 (List.length (strip t))
  | _ => true
  end.
Definition is_float (v : pyval) : bool := match v with VFloat _ => true | _ => false end.
Definition must_be_time (offset : bool) (v : pyval) : bool :=
  must_be_time_value v && negb (offset && is_float v).

(** ** Parsing with the pool of strategies *)

(** time_index.py:308-321: the first strategy that accepts becomes the parser *)
Fixpoint pool_loop (e : env) (tp : tparams) (pool : list strat) (sticky : option strat)
    (v : pyval) (last : option datetime) (next : pyval) : option strat * res datetime :=
  match pool with
  | [] => (sticky, Err EParseImpl)
  | s :: pool' =>
      match accepts e tp s v with
      | Err x => (sticky, Err x)
      | Ok true => (Some s, parse_time e tp s v last next)
      | Ok false => pool_loop e tp pool' sticky v last next
      end
  end.

(** time_index.py:275-321 _parse_time: (parser kept for the next value, result) *)
Definition parse_with_pool (e : env) (tp : tparams) (sticky : option strat)
    (v : pyval) (last : option datetime) (next : pyval) : option strat * res datetime :=
  match sticky with
  | Some s =>
      match parse_time e tp s v last next with
      | Ok d => (sticky, Ok d)
      | Err EDay => (sticky, Err EDay)
      | Err EMonth => (sticky, Err EMonth)
      | Err _ => pool_loop e tp strategies sticky v last next
      end
  | None => pool_loop e tp strategies sticky v last next
  end.

(** ** Checking the progression *)

(** time_index.py:385-405 _time_value_typo *)
Definition time_value_typo (curr exp : datetime) : bool :=
  Nat.eqb 2 (List.length (filter (fun b : bool => b)
    [dt_d curr =? dt_d exp; dt_m curr =? dt_m exp; dt_y curr =? dt_y exp])).

(** time_index.py:374-383 _max_forth_units *)
Definition max_forth_units (freq : text) : Z :=
  if text_eqb freq (T "D") then 20
  else if text_eqb freq (T "M") then 2
  else if text_eqb freq (T "Q") then 1
  else if text_eqb freq (T "A") then 1
  else 20.

(** time_index.py:407-443 _forth_time_value_typo *)
Definition forth_time_value_typo (curr mx : datetime) : res (option datetime) :=
  do a <- make_date (dt_y curr) (dt_m curr) (dt_d mx);
  do b <- make_date (dt_y curr) (dt_m mx) (dt_d curr);
  do c <- make_date (dt_y mx) (dt_m curr) (dt_d curr);
  Ok (if dt_ltb a mx then Some a
      else if dt_ltb b mx then Some b
      else if dt_ltb c mx then Some c else None).

(** time_index.py:324-372 _correct_progression.  Line 368 returns False, whose
    [.datetime] raises AttributeError at line 154. *)
Definition correct_progression (last : option datetime) (curr : datetime)
    (freq : text) (missings : bool) (mv : pyval) : res datetime :=
  match last with
  | None => Ok curr
  | Some l =>
      do ex <- increment_time l 1 freq;
      if dt_eqb ex curr then Ok curr
      else if dt_ltb curr l then
        if time_value_typo curr ex then Ok ex else Err EBackwards
      else if dt_ltb l curr && negb missings then
        if time_value_typo curr ex then Ok ex else Err EForth
      else
        do mx <- increment_time l (max_forth_units freq) freq;
        if dt_ltb mx curr && missings && py_eq mv (str_ "Implicit") then
          do t <- forth_time_value_typo curr mx;
          match t with Some d => Ok d | None => Err EAttr end
        else Ok curr
  end.

(** time_index.py:660-681 and get/data.py:269-293 _next_frequency *)
Definition next_frequency (frequency last : text) : res (ascii * text) :=
  if Nat.eqb (List.length last) 0 || text_eqb last frequency then
    match frequency with
    | c :: _ => Ok (c, [c])
    | [] => Err EIndex
    end
  else
    match after_first last frequency with
    | c :: _ => Ok (c, last ++ [c])
    | [] => Err EIndex
    end.

(** ** The loop *)

Record cstate := mkcs {
  cs_ws : worksheet;
  cs_parser : option strat;               (* self.time_parser *)
  cs_last : option datetime;              (* last_time *)
  cs_count : Z;                           (* no_time_value_count *)
  cs_lasts : ascii -> option datetime;    (* self.last_time, multifrequency *)
  cs_lf : text                            (* self.last_frequency *)
}.

Definition NO_TIME_VALUE_LIMIT : Z := 40.

Definition set_last (f : ascii -> option datetime) (c : ascii) (d : datetime) :=
  fun c' => if ch_eqb c' c then Some d else f c'.

(** correct_progression of the strategy: the single frequency one, or lines
    634-650 keeping one progression per frequency.  Returns the date and the
    new per frequency state. *)
Definition correct_state (p : sp) (st : cstate) (curr : datetime)
    : res (datetime * (ascii -> option datetime) * text) :=
  if Nat.eqb (List.length (sp_freq p)) 1 then
    do d <- correct_progression (cs_last st) curr (sp_freq p) (sp_missings p) (sp_mv p);
    Ok (d, cs_lasts st, cs_lf st)
  else
    do cf <- next_frequency (sp_freq p) (cs_lf st);
    do d <- correct_progression (cs_lasts st (fst cf)) curr [fst cf]
                                (sp_missings p) (sp_mv p);
    Ok (d, set_last (cs_lasts st) (fst cf) d, snd cf).

Definition same_as_last (d : datetime) (last : option datetime) : bool :=
  match last with Some l => dt_eqb d l | None => false end.

(** time_index.py:137-155, the body of the try *)
Definition process_value (e : env) (p : sp) (st : cstate) (curr next : pyval)
    : option strat * res (datetime * (ascii -> option datetime) * text) :=
  let tp := mktp (sp_composed p) (sp_freq p) in
  let '(sticky, r) := parse_with_pool e tp (cs_parser st) curr (cs_last st) next in
  (sticky,
   do d <- r;
   do x <- correct_state p st d;
   if same_as_last (fst (fst x)) (cs_last st) && Nat.eqb (List.length (sp_freq p)) 1
   then Err ESame else Ok x).

(** time_index.py:163-164 *)
Definition ends_index (x : exn) : bool :=
  match x with
  | EParseImpl | ENoPossible | ENoTime | ESame | EAssert => true
  | _ => false
  end.

(** time_index.py:191-219 _estimate_end; [n] counts the positions left down to
    [start].  Horizontally the comparison "column letter > number" raises
    TypeError unless the cell already is a date. *)
Fixpoint walk_back (w : worksheet) (line : Z) (pos : Z) (n : nat) : Z :=
  if is_date (axis_val Vert w line pos) then pos
  else match n with
       | O => pos
       | S k => walk_back w line (pos - 1) k
       end.
Definition estimate_end (al : align) (w : worksheet) (line pos start ta : Z) : res Z :=
  do p <- match al with
          | Vert => Ok (walk_back w line pos (Z.to_nat (pos - start)))
          | Horiz => if is_date (axis_val Horiz w line pos) then Ok pos else Err EType
          end;
  let en := p - ta in
  do _ <- assert_ (negb (en =? 0) && (start <? en));
  Ok en.

(** time_index.py:130-185: the loop over the positions; the worksheet is
    returned also when an exception leaves the loop *)
Fixpoint clean_loop (e : env) (p : sp) (tl : tlines) (wl : Z)
    (positions : list Z) (prev : option Z) (st : cstate) : worksheet * res Z :=
  let finish (st : cstate) (pos : Z) :=
    (cs_ws st, estimate_end (sp_al p) (cs_ws st) wl pos (sp_starts p) (sp_ta p)) in
  match positions with
  | [] =>
      match prev with
      | Some pos => finish st pos
      | None => (cs_ws st, Err EUnbound)
      end
  | pos :: rest =>
      let w := cs_ws st in
      match (do c <- time_value e (sp_al p) w tl pos;
             do n <- time_value e (sp_al p) w tl (pos + 1);
             do _ <- axis_read (sp_al p) w wl pos;
             Ok (c, n)) with
      | Err x => (w, Err x)
      | Ok (curr, next) =>
          let w1 := axis_touch (sp_al p) wl pos
                      (touch_time (sp_al p) tl (pos + 1)
                        (touch_time (sp_al p) tl pos w)) in
          let st1 := mkcs w1 (cs_parser st) (cs_last st) (cs_count st)
                          (cs_lasts st) (cs_lf st) in
          if must_be_time (negb (sp_ta p =? 0)) curr then
            let '(sticky, r) := process_value e p st1 curr next in
            match r with
            | Ok (d, lasts, lf) =>
                let w2 := axis_write (sp_al p) wl pos (VDate d) w1 in
                clean_loop e p tl wl rest (Some pos)
                           (mkcs w2 sticky (Some d) 0 lasts lf)
            | Err x =>
                if exn_eqb x EDay || exn_eqb x EMonth then
                  let w2 := axis_write (sp_al p) wl pos VNone w1 in
                  clean_loop e p tl wl rest (Some pos)
                             (mkcs w2 sticky (cs_last st) 0 (cs_lasts st) (cs_lf st))
                else if ends_index x && match sp_ends p with None => true | _ => false end
                then finish st1 pos
                else (w1, Err x)
            end
          else if (cs_count st <? NO_TIME_VALUE_LIMIT) && (negb (sp_cont p) || sp_blank p)
          then clean_loop e p tl wl rest (Some pos)
                 (mkcs w1 (cs_parser st) (cs_last st) (cs_count st + 1)
                       (cs_lasts st) (cs_lf st))
          else finish st1 pos
      end
  end.

Definition init_state (w : worksheet) : cstate :=
  mkcs w None None 0 (fun _ => None) [].

(** last position the iterator visits: data_ends, or the extent of the sheet
    (time_index.py:227, 239, 476-484) *)
Definition last_position (p : sp) (w : worksheet) : Z :=
  match sp_ends p with Some z => z | None => axis_max (sp_al p) w end.

(** time_index.py:116-185 _clean_time_index of the single table strategies *)
Definition clean_single_table (e : env) (w : worksheet) (p : sp) : worksheet * res Z :=
  match zrange (sp_starts p) (last_position p w) with
  | [] => (w, Err EUnbound)
  | positions =>
      match time_lines (sp_al p) (sp_th p) (sp_multi p), write_line (sp_al p) (sp_th p) with
      | Ok tl, Ok wl => clean_loop e p tl wl positions None (init_state w)
      | Err x, _ => (w, Err x)
      | _, Err x => (w, Err x)
      end
  end.

(** ** Choice of the strategy *)

(** the sixteen combinations of time_index.py:684-705, in order *)
Record combo := mkcombo { k_multitable : bool; k_offset : bool; k_multifreq : bool; k_multicol : bool }.
Definition combos : list combo :=
  flat_map (fun t => flat_map (fun o => flat_map (fun f => map (fun c => mkcombo t o f c)
    [false; true]) [false; true]) [false; true]) [false; true].

(** the _accepts of the base classes (446-632) *)
Definition accepts_table (multitable : bool) (p : sp) : bool :=
  if multitable then negb (sp_blank p) && sp_cont p &&
                     match sp_ends p with None => true | _ => false end
  else true.
Definition accepts_offset (offset : bool) (p : sp) : bool :=
  if offset then negb (sp_ta p =? 0) else sp_ta p =? 0.
Definition accepts_freq (multi : bool) (f : text) : bool :=
  if multi then Nat.ltb 1 (List.length f) else Nat.eqb (List.length f) 1.
Definition accepts_col (multi : bool) (p : sp) : bool :=
  if multi then sp_multi p else negb (sp_multi p).
Definition combo_accepts (k : combo) (p : sp) : bool :=
  accepts_table (k_multitable k) p && accepts_col (k_multicol k) p
  && accepts_freq (k_multifreq k) (sp_freq p) && accepts_offset (k_offset k) p.

(** strategies.py:447-460 _clean_time_index: the first strategy that accepts.
    The multi table ones come after all the single table ones and are never
    reached (proved below); their row boundary is not modelled. *)
Definition clean_time_index (e : env) (w : worksheet) (p : sp) : worksheet * res Z :=
  match find (fun k => combo_accepts k p) combos with
  | Some k => if k_multitable k then (w, Err ENotImpl) else clean_single_table e w p
  | None => (w, Err ETimeNotClean)
  end.
