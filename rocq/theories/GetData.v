(** strategies/get/data.py: names and values of a series. *)
From Verif Require Import Base Cal Coord Params ParseTime TimeIndex.
Local Open Scope Z_scope.

(** data.py:56-97 _get_name.  unidecode is the identity on ASCII texts; on
    anything but a text it raises. *)
Definition get_name (e : env) (w : worksheet) (p : sp) : res text :=
  if truthy (sp_name p) then as_text (sp_name p)
  else
    do v <- read_coord w (sp_hc p);
    do t <- py_str e v;
    let name := strip t in
    do name1 <- (if truthy (sp_comp p) then
                   match sp_comp p with
                   | VList cs =>
                       do parts <- mapM (fun c => do ct <- as_text c;
                                                  do cv <- read_coord w ct;
                                                  do s <- as_text cv;
                                                  Ok (strip s)) cs;
                       Ok (join (T " ") (parts ++ [name]))
                   | _ => Err EAssert
                   end
                 else Ok name);
    if truthy (sp_ctx p) then
      match sp_ctx p with
      | VList cs =>
          do parts <- mapM (fun c => do s <- as_text c; Ok (strip s)) cs;
          Ok (join (T " - ") (parts ++ [name1]))
      | _ => Err EAssert
      end
    else Ok name1.

(** data.py:185-196 _valid_value *)
Definition valid_value (v : pyval) : bool := is_ok (py_float v).

(** data.py:309-331 BaseContinuous._handle_new_value: None, or a float *)
Definition handle_continuous (v : pyval) (missings blank_rows : bool) (mv : pyval)
    : res (option spec_float) :=
  if blank_rows && is_none v then Ok None
  else if missings then
    let v' := match v with VStr t => VStr (strip t) | _ => v end in
    do b <- py_in v' mv;
    if b : bool then Ok (Some S754_nan)
    else match py_float v' with
         | Ok f => Ok (Some f)
         | Err _ => Err EOther
         end
  else do f <- py_float v; Ok (Some f).

(** data.py:371-391 BaseNonContinuous._handle_new_value *)
Definition handle_non_continuous (v : pyval) (missings : bool) (mv : pyval)
    : res (option spec_float) :=
  let v' := match v with
            | VStr t => if Nat.eqb (List.length (strip t)) 0 then VNone else v
            | _ => v
            end in
  let parsed := match py_float v' with Ok f => Some f | Err _ => None end in
  if missings then
    do b <- py_in v' mv;
    if b : bool then Ok (Some S754_nan) else Ok parsed
  else Ok parsed.

(** data.py:343-369 the time value a non continuous value hangs from *)
Definition time_line (al : align) (multi : bool) (th : theader) : res Z :=
  match multi, th with
  | true, ThList (t :: _) => coord_line al t
  | true, ThList [] => Err EIndex
  | true, ThStr (c :: _) => coord_line al [c]
  | true, ThStr [] => Err EIndex
  | false, ThStr t => coord_line al t
  | false, ThList _ => Err EType
  end.

(** data.py:304-307 and 343-369 _value_to_be_added *)
Definition to_be_added (w : worksheet) (p : sp) (pos : Z) (nv : option spec_float) : res bool :=
  let some := match nv with Some _ => true | None => false end in
  if sp_cont p then Ok some
  else
    do l <- time_line (sp_al p) (sp_multi p) (sp_th p);
    do tv <- axis_read (sp_al p) w l (pos + sp_ta p);
    Ok (some && is_date tv).

(** data.py:107-121: the values of the series that are kept, in order; an
    exception while handling a value becomes a plain Exception (114-119) *)
Fixpoint collect (w : worksheet) (p : sp) (line : Z) (positions : list Z) : res (list spec_float) :=
  match positions with
  | [] => Ok []
  | pos :: rest =>
      do v <- axis_read (sp_al p) w line pos;
      do nv <- match (if sp_cont p then handle_continuous v (sp_missings p) (sp_blank p) (sp_mv p)
                      else handle_non_continuous v (sp_missings p) (sp_mv p)) with
               | Ok x => Ok x
               | Err _ => Err EOther
               end;
      do add <- to_be_added w p pos nv;
      do vs <- collect w p line rest;
      match nv with
      | Some f => if add : bool then Ok (f :: vs) else Ok vs
      | None => Ok vs
      end
  end.

(** data.py:122-125: values by frequency, in order of first appearance.  The
    frequency of a value depends only on how many were added before. *)
Fixpoint add_to_group (c : ascii) (f : spec_float) (g : list (ascii * list spec_float)) :=
  match g with
  | [] => [(c, [f])]
  | (c', l) :: g' => if ch_eqb c c' then (c', l ++ [f]) :: g' else (c', l) :: add_to_group c f g'
  end.
Fixpoint group (frequency lf : text) (vs : list spec_float) (g : list (ascii * list spec_float))
    : res (list (ascii * list spec_float)) :=
  match vs with
  | [] => Ok g
  | f :: vs' =>
      do cf <- next_frequency frequency lf;
      group frequency (snd cf) vs' (add_to_group (fst cf) f g)
  end.

(** data.py:241-243 while exp_time < obs_time: the holes, and the new expected
    time.  [fuel] bounds the number of steps: every step advances at least one
    day, one second for frequency "S". *)
Fixpoint fill_hole (fuel : nat) (freq : text) (ex obs : datetime) : res (list spec_float * datetime) :=
  if dt_ltb ex obs then
    match fuel with
    | O => Err EOverflow
    | S k =>
        do ex' <- increment_time ex 1 freq;
        do r <- fill_hole k freq ex' obs;
        Ok (S754_nan :: fst r, snd r)
    end
  else Ok ([], ex).
Definition hole_fuel (freq : text) (ex obs : datetime) : nat :=
  if text_eqb freq (T "S") then Z.to_nat (dt_secs obs - dt_secs ex + 1)
  else Z.to_nat (dt_ord obs - dt_ord ex + 1).

(** data.py:237 arrow.get(obs_time) *)
Definition arrow_any (e : env) (v : pyval) : res datetime :=
  match v with VDate d => Ok d | _ => arrow_of e v end.

(** data.py:227-248 _fill_implicit_missings, over the pairs (time value, value) *)
Fixpoint fill_implicit (e : env) (freq : text) (ex : option datetime)
    (l : list (pyval * spec_float)) : res (list spec_float) :=
  match l with
  | [] => Ok []
  | (tv, v) :: l' =>
      do obs <- arrow_any e tv;
      let ex0 := match ex with Some x => x | None => obs end in
      do h <- fill_hole (hole_fuel freq ex0 obs) freq ex0 obs;
      do ex' <- increment_time (snd h) 1 freq;
      do rest <- fill_implicit e freq (Some ex') l';
      Ok (fst h ++ v :: rest)
  end.

(** data.py:99-141 _get_values *)
Definition get_values (e : env) (w : worksheet) (p : sp) : res (list (list spec_float)) :=
  match sp_ends p with
  | None => Err EType     (* range(ini, None + 1) *)
  | Some en =>
      do line <- coord_line (sp_al p) (sp_hc p);
      let positions := zrange (sp_starts p) en in
      do vs <- collect w p line positions;
      do groups <- (if Nat.eqb (List.length (sp_freq p)) 1
                    then Ok (match vs with [] => [] | _ => [vs] end)
                    else do g <- group (sp_freq p) [] vs []; Ok (map snd g));
      do imp <- (if sp_missings p then py_in (str_ "Implicit") (sp_mv p) else Ok false);
      if (imp : bool) && Nat.eqb (List.length (sp_freq p)) 1 then
        match groups with
        | [] => Err EIndex
        | vals :: _ =>
            do tl <- write_line (sp_al p) (sp_th p);
            do tvs <- mapM (axis_read (sp_al p) w tl) positions;
            do r <- fill_implicit e (sp_freq p) None (combine tvs vals);
            Ok [r]
        end
      else Ok groups
  end.

(** data.py:45-54 _get_data *)
Definition get_data (e : env) (w : worksheet) (p : sp) : res (list (text * list spec_float)) :=
  do name <- get_name e w p;
  do vls <- get_values e w p;
  Ok (map (fun vs => (name, vs)) vls).

(** data.py:394-407: the four strategies and the choice among them *)
Record dcombo := mkdcombo { dk_multifreq : bool; dk_cont : bool }.
Definition dcombos : list dcombo :=
  [mkdcombo false true; mkdcombo false false; mkdcombo true true; mkdcombo true false].
Definition dcombo_accepts (k : dcombo) (p : sp) : bool :=
  accepts_freq (dk_multifreq k) (sp_freq p) && Bool.eqb (dk_cont k) (sp_cont p).
