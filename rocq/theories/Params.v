(** strategies/discover/parameters.py: the Parameters class.

    A Parameters object is its [__dict__]: the 16 attributes in the order of
    [__init__] (lines 141-162).  Python objects are values here: sharing of
    mutable lists between parameters is not modelled. *)
From Verif Require Import Base Coord XlMethods.
Local Open Scope Z_scope.

Definition str_ (s : string) : pyval := VStr (T s).

(** parameter names *)
Definition n_alignment := T "alignment".
Definition n_series_names := T "series_names".
Definition n_headers_coord := T "headers_coord".
Definition n_composed := T "composed_headers_coord".
Definition n_context := T "context".
Definition n_data_starts := T "data_starts".
Definition n_data_ends := T "data_ends".
Definition n_continuity := T "continuity".
Definition n_blank_rows := T "blank_rows".
Definition n_missings := T "missings".
Definition n_missing_value := T "missing_value".
Definition n_time_alignment := T "time_alignment".
Definition n_time_multicolumn := T "time_multicolumn".
Definition n_time_header := T "time_header_coord".
Definition n_time_composed := T "time_composed".
Definition n_frequency := T "frequency".

(** parameters.py:60-84 VALID_VALUES *)
Definition VALID_VALUES : list (text * list pyval) :=
  [ (n_alignment, [str_ "vertical"; str_ "horizontal"]);
    (n_series_names, [VType TyStr; VType TyStr; VNone]);
    (n_headers_coord, [VType TyStr; VType TyStr]);
    (n_composed, [VType TyList; VType TyStr; VType TyStr; VNone]);
    (n_context, [VType TyDict; VType TyList; VType TyStr; VType TyStr; VNone]);
    (n_data_starts, [VType TyInt]);
    (n_data_ends, [VType TyInt; VNone]);
    (n_continuity, [VBool true; VBool false]);
    (n_blank_rows, [VBool true; VBool false]);
    (n_missings, [VBool true; VBool false]);
    (n_missing_value, []);
    (n_time_alignment, [VInt (-1); VInt 0; VInt 1]);
    (n_time_multicolumn, [VBool true; VBool false]);
    (n_time_header, [VType TyStr; VType TyStr; VType TyList]);
    (n_time_composed, [VBool true; VBool false]);
    (n_frequency, [str_ "A"; str_ "S"; str_ "Q"; str_ "M"; str_ "W"; str_ "D"]) ].

Fixpoint vget (k : text) (d : list (text * list pyval)) : option (list pyval) :=
  match d with
  | [] => None
  | (k', v) :: d' => if text_eqb k k' then Some v else vget k d'
  end.
(** VALID_VALUES[name], KeyError for an unknown parameter *)
Definition valid_values (k : text) : res (list pyval) :=
  match vget k VALID_VALUES with Some l => Ok l | None => Err EKey end.

(** parameters.py:87-92 CRITICAL *)
Definition CRITICAL : dict :=
  [ (n_time_header, str_ "A1");
    (n_headers_coord, VList [str_ "B1"; str_ "C1"; str_ "E1-G1"]);
    (n_data_starts, VInt 2);
    (n_frequency, str_ "M") ].

(** parameters.py:96-112 DEFAULT_VALUES *)
Definition DEFAULT_VALUES : dict :=
  [ (n_time_alignment, VInt 0);
    (n_alignment, str_ "vertical");
    (n_continuity, VBool true);
    (n_blank_rows, VBool false);
    (n_missings, VBool false);
    (n_time_composed, VBool false);
    (n_time_multicolumn, VBool false);
    (n_missing_value,
       VList [VNone; str_ "-"; str_ "..."; str_ "."; str_ "/"; str_ "///"; str_ "";
              str_ "s.d."; str_ "s/d"; str_ "n,d,"; str_ "s.d"; str_ " "]);
    (n_data_ends, VNone);
    (n_series_names, VNone);
    (n_composed, VNone);
    (n_context, VNone) ].

(** parameters.py:115-117 LIKELINESS_ORDER *)
Definition LIKELINESS_ORDER : list text :=
  [ n_time_alignment; n_alignment; n_continuity; n_blank_rows; n_missings;
    n_time_composed; n_time_multicolumn ].

(** parameters.py:120-127 *)
Definition GUESSED : list text := [ n_time_multicolumn ].
Definition OPTIONAL : list text := [ n_series_names; n_data_ends; n_composed; n_context ].
Definition USE_DEFAULT : list text := [ n_time_alignment; n_missing_value ].

(** parameters.py:132-136 FREQ_TRANSLATION.get(t, t) *)
Definition freq_translation (t : text) : text :=
  if text_eqb t (T "Y") then T "A"
  else if text_eqb t (T "YQQQQ") then T "AQQQQ"
  else if text_eqb t (T "QQQQY") then T "QQQQA"
  else t.

(** parameters.py:138-162: attributes, in order *)
Definition PARAM_NAMES : list text :=
  [ n_alignment; n_series_names; n_headers_coord; n_composed; n_context;
    n_data_starts; n_data_ends; n_continuity; n_blank_rows; n_missings;
    n_missing_value; n_time_alignment; n_time_multicolumn; n_time_header;
    n_time_composed; n_frequency ].
Definition empty_params : dict := map (fun k => (k, VNone)) PARAM_NAMES.

(** [None in valid_values] *)
Definition none_in (l : list pyval) : bool := existsb (py_eq VNone) l.

(** ** Build step 1: parameters.py:459-469 _check_has_critical *)
Definition check_has_critical (d : dict) : res unit :=
  foldM (fun _ kv =>
           let k := fst kv in
           match dget k d with
           | None => Err ECritical
           | Some v =>
               do vv <- valid_values k;
               if is_none v && negb (none_in vv) then Err ECritical else Ok tt
           end) CRITICAL tt.

(** ** parameters.py:207-217: frequency capitalisation and translation *)
Definition curate_freq_value (v : pyval) : res pyval :=
  match v with
  | VStr t => Ok (VStr (freq_translation (upper t)))
  | _ => Err EAttr
  end.
Definition curate_frequency (v : pyval) : res pyval :=
  match v with
  | VList l => do l' <- mapM curate_freq_value l; Ok (VList l')
  | _ => curate_freq_value v
  end.

(** ** Build step 2: validation *)

(** parameters.py:522-538 _valid_param_value *)
Definition valid_param_value (v : pyval) (vv : list pyval) : bool :=
  match vv with
  | [] => true
  | _ => existsb (fun x =>
           match x with
           | VType t => isinstance v t || py_eq v x
           | _ => py_eq v x
           end) vv
  end.

(** parameters.py:513-520 _valid_freq; the value has been through str.upper, so
    it is a text (anything else raised AttributeError before) *)
Definition valid_freq (v : pyval) (vv : list pyval) : bool :=
  match v with
  | VStr t => forallb (fun c => existsb (py_eq (VStr [c])) vv) t
  | _ => false
  end.

(** parameters.py:476-511, one parameter *)
Definition validate_one (k : text) (pv : pyval) : res unit :=
  if is_none pv then Ok tt
  else
    let vals := match pv with VList l => l | _ => [pv] end in
    foldM (fun _ v =>
      if text_eqb k n_frequency then
        do vv <- valid_values n_frequency;
        if valid_freq v vv then Ok tt else Err EInvalid
      else if text_eqb k n_context then
        match pv with
        | VDict c =>
            do vv <- valid_values k;
            if forallb (fun kv => valid_param_value (snd kv) vv) c
            then Ok tt else Err EInvalid
        | _ => Err EInvalid
        end
      else
        do vv <- valid_values k;
        if valid_param_value v vv then Ok tt else Err EInvalid) vals tt.

(** parameters.py:473-511 _validate_parameters *)
Definition validate_parameters (d : dict) : res unit :=
  foldM (fun _ kv => validate_one (fst kv) (snd kv)) d tt.

(** ** Build step 3: parameters.py:542-557 _missings_to_default *)
Definition missings_to_default (d : dict) : res dict :=
  foldM (fun acc k =>
    do vv <- valid_values k;
    if is_none (dgetN k d) && negb (none_in vv) then
      do def <- dgetE k DEFAULT_VALUES; Ok (dset k def acc)
    else Ok acc) USE_DEFAULT d.

(** ** Build step 4: header ranges *)

(** zip( *lists ) *)
Fixpoint zipn_aux (fuel : nat) (ls : list (list text)) : list (list text) :=
  match fuel with
  | O => []
  | S k =>
      if forallb (fun l => negb (Nat.eqb (List.length l) 0)) ls then
        map (fun l => hd [] l) ls :: zipn_aux k (map (@tl text) ls)
      else []
  end.
Definition zipn (ls : list (list text)) : list (list text) :=
  match ls with
  | [] => []
  | l :: _ => zipn_aux (List.length l) ls
  end.

(** start, end = text.split(sep): ValueError unless there are exactly two *)
Definition split2 (c : ascii) (t : text) : res (text * text) :=
  match split_ch c t with
  | [a; b] => Ok (a, b)
  | _ => Err EValue
  end.

Definition remove_parens (t : text) : text := remove_ch ")" (remove_ch "(" t).

(** parameters.py:572-599, a text.  Simplification: all the component ranges
    are computed before being zipped, the generators are lazy. *)
Definition unpack_text (t : text) : res (list text) :=
  if negb (ch_in "-" t) && negb (ch_in ":" t) then Ok [upper t]
  else
    do se <- (if ch_in "-" t then split2 "-" (upper t) else split2 ":" (upper t));
    let '(s, e) := se in
    if negb (ch_in "_" s) && negb (ch_in "_" e) then xl_coordinates_range s e
    else if ch_in "_" s && ch_in "_" e then
      do ranges <- mapM (fun p => xl_coordinates_range (fst p) (snd p))
                        (combine (split_ch "_" (remove_parens s))
                                 (split_ch "_" (remove_parens e)));
      Ok (map (join (T "_")) (zipn ranges))
    else Err EKey.   (* line 599 looks up VALID_VALUES["header_coord"] *)

(** parameters.py:570-607 _unpack_header_ranges_generator, listed *)
Fixpoint unpack_gen (v : pyval) : res (list pyval) :=
  match v with
  | VStr t => do l <- unpack_text t; Ok (map VStr l)
  | VList l =>
      (fix go (l : list pyval) : res (list pyval) :=
         match l with
         | [] => Ok []
         | e :: l' =>
             do here <- match e with
                        | VList _ => do u <- unpack_gen e; Ok [VList u]
                        | _ => unpack_gen e
                        end;
             do rest <- go l';
             Ok (here ++ rest)
         end) l
  | _ => Ok []
  end.

(** parameters.py:561-567 _unpack_header_ranges *)
Definition unpack_header_ranges (v : pyval) : res pyval :=
  if negb (truthy v) then Ok VNone
  else
    do n <- py_len v;
    if Nat.eqb n 0 then Ok VNone
    else match v with
         | VList _ => do l <- unpack_gen v; Ok (VList l)
         | VStr t => if text_eqb (lower t) (T "none") then Ok VNone
                     else do l <- unpack_gen v; Ok (VList l)
         | _ => Err EAttr
         end.

(** parameters.py:627-635, one header: (composed, header) *)
Definition separate_one (v : pyval) : res (pyval * pyval) :=
  match v with
  | VStr t =>
      if ch_in "_" t then
        let cs := split_ch "_" t in
        Ok (VList (map VStr (removelast cs)), VStr (List.last cs []))
      else Ok (VList [], v)
  | VList l => if existsb (py_eq (str_ "_")) l then Err EAttr else Ok (VList [], v)
  | _ => Err EType
  end.

(** parameters.py:610-637 _separate_composed_headers *)
Definition separate_composed_headers (v : pyval) : res (list pyval * list pyval) :=
  match v with
  | VList l => do ps <- mapM separate_one l; Ok (map fst ps, map snd ps)
  | _ => Err EType
  end.

(** parameters.py:669-688 _process_headers_coord *)
Definition process_headers_coord (v : pyval) : res (list pyval * list pyval) :=
  do u <- unpack_header_ranges v; separate_composed_headers u.

(** a list of coordinate texts handed to the worksheet; anything else raises *)
Definition as_text (v : pyval) : res text :=
  match v with VStr t => Ok t | _ => Err EType end.
Definition as_texts (v : pyval) : res (list text) :=
  match v with
  | VList l => mapM as_text l
  | _ => Err EType
  end.

(** sorted(items, key=len of value, reverse=True): stable, longest first *)
Fixpoint insert_desc (x : text * list text) (l : list (text * list text)) :=
  match l with
  | [] => [x]
  | y :: l' =>
      if Nat.ltb (List.length (snd y)) (List.length (snd x)) then x :: l
      else y :: insert_desc x l'
  end.
Definition sort_desc (l : list (text * list text)) : list (text * list text) :=
  fold_left (fun acc x => insert_desc x acc) l [].

(** parameters.py:640-666 _process_context *)
Definition process_context (ctx : pyval) (headers : list pyval) : res pyval :=
  match ctx with
  | VDict items =>
      do un <- mapM (fun kv => do u <- unpack_header_ranges (snd kv);
                               do ts <- as_texts u; Ok (fst kv, ts)) items;
      let ordered := sort_desc un in
      do r <- mapM (fun h =>
                do hs <- foldM (fun acc it =>
                           do t <- as_text h;
                           do b <- coord_in_scope t (snd it);
                           Ok (if b : bool then acc ++ [VStr (fst it)] else acc))
                         ordered [];
                Ok (VList hs)) headers;
      Ok (VList r)
  | _ => Err EAttr
  end.

(** ** Build step 5: parameters.py:692-726 _check_consistency *)
Fixpoint Zmem (x : Z) (l : list Z) : bool :=
  match l with [] => false | y :: l' => (x =? y) || Zmem x l' end.
(** len(set(l)) == len(l) *)
Fixpoint distinct (l : list Z) : bool :=
  match l with [] => true | x :: l' => negb (Zmem x l') && distinct l' end.
(** len(set(l)) == 1 *)
Definition all_same (l : list Z) : bool :=
  match l with [] => false | x :: l' => forallb (Z.eqb x) l' end.

(** int comparison data_starts > k; data_starts has been validated as an int *)
Definition int_gt (v : pyval) (k : Z) : res bool :=
  match v with
  | VInt z => Ok (k <? z)
  | VBool b => Ok (k <? bZ b)
  | _ => Err EType
  end.

Definition head_err (l : list Z) : res Z :=
  match l with x :: _ => Ok x | [] => Err EIndex end.

Definition check_consistency (d : dict) : res unit :=
  do ds0 <- dgetE n_data_starts d;
  do ds <- match ds0 with VList _ => py_index ds0 0 | _ => Ok ds0 end;
  do hc <- dgetE n_headers_coord d;
  match hc with
  | VList hl =>
      do ps <- mapM (fun h => do t <- as_text h; parse_coord t) hl;
      let rows := map fst ps in
      let cols := map snd ps in
      let '(al, pv, ph) :=
        match dget n_alignment d with
        | Some a => (a, false, false)
        | None =>
            if Nat.ltb 1 (List.length hl) then
              (VNone, all_same rows && distinct cols, all_same cols && distinct rows)
            else (VNone, false, false)
        end in
      do _ <- (if py_eq al (str_ "vertical") || pv then
                 do r0 <- head_err rows; do b <- int_gt ds r0; assert_ b
               else Ok tt);
      (if py_eq al (str_ "horizontal") || ph then
         do c0 <- head_err cols; do b <- int_gt ds c0; assert_ b
       else Ok tt)
  | _ => Ok tt
  end.

(** ** Build step 6: guesses *)

(** parameters.py:854-863 _get_num_series *)
Definition get_num_series (d : dict) : option nat :=
  fold_left (fun acc kv =>
    match snd kv with
    | VList l =>
        if text_eqb (fst kv) n_missing_value then acc
        else match acc with
             | Some n => if Nat.eqb n 0 || Nat.ltb n (List.length l)
                         then Some (List.length l) else acc
             | None => Some (List.length l)
             end
    | _ => acc
    end) d None.

(** parameters.py:884-888 _is_repeated *)
Definition is_repeated (v : pyval) : bool :=
  match v with
  | VList [] => true
  | VList (x :: l) => forallb (fun i => py_eq i x) (x :: l)
  | _ => false
  end.

(** parameters.py:730-754 _guess_time_multicolumn *)
Definition guess_time_multicolumn (thc : pyval) (num_series : option nat) : res pyval :=
  do tch <- (if is_repeated thc then py_index thc 0 else Ok thc);
  match tch with
  | VList l =>
      match num_series with
      | Some n =>
          if negb (Nat.eqb (List.length l) n) then Ok (VBool true)
          else do ts <- as_texts tch; do b <- consecutive_cells ts; Ok (VBool b)
      | None => Ok (VBool true)
      end
  | _ => Ok (VBool false)
  end.

(** parameters.py:757-781 _guess_alignment *)
Definition guess_alignment (hc : pyval) : res pyval :=
  match hc with
  | VList hl =>
      if Nat.leb (List.length hl) 1 then Ok VNone
      else
        do ts <- mapM as_text hl;
        do go <- (if Nat.ltb (List.length hl) 4 then consecutive_cells ts else Ok true);
        if go : bool then
          do ps <- mapM parse_coord ts;
          let rows := map fst ps in
          let cols := map snd ps in
          if all_same rows && distinct cols then Ok (str_ "vertical")
          else if all_same cols && distinct rows then Ok (str_ "horizontal")
          else Ok VNone
        else Ok VNone
  | _ => Ok VNone
  end.

(** ** Build step 7: one value per series *)

(** truth of num_series (None or 0 are false) *)
Definition ns_pos (n : option nat) : bool :=
  match n with Some (S _) => true | _ => false end.
Definition ns_nat (n : option nat) : nat := match n with Some k => k | None => 0%nat end.

(** parameters.py:795-808, the general part of _apply_to_all *)
Definition apply_to_all_gen (v : pyval) (num_series : option nat) (vv : list pyval) : pyval :=
  if is_none v && negb (Nat.eqb (List.length vv) 0) && negb (none_in vv) then VNone
  else match v with
       | VList [x] => if ns_pos num_series then VList (repeat x (ns_nat num_series)) else v
       | VList _ => v
       | _ => if ns_pos num_series then VList (repeat v (ns_nat num_series)) else v
       end.

(** parameters.py:811-833 _apply_to_all_time_header *)
Definition apply_to_all_time_header (thc : pyval) (num_series : option nat)
    (params : dict) (vv : list pyval) : res pyval :=
  do nested <- match thc with
               | VList _ => do h <- py_index thc 0; Ok (is_list h)
               | _ => Ok false
               end;
  if nested : bool then
    match thc, num_series with
    | VList l, Some n => if Nat.eqb (List.length l) n then Ok thc else Err EValue
    | _, _ => Err EValue
    end
  else
    do tm0 <- dgetE n_time_multicolumn params;
    do tm <- match tm0 with VList _ => py_index tm0 0 | _ => Ok tm0 end;
    if negb (is_list thc) || negb (truthy tm) then
      Ok (apply_to_all_gen thc num_series vv)
    else
      match num_series with
      | Some n => Ok (VList (repeat thc n))
      | None => Err EType
      end.

(** parameters.py:836-850 _apply_to_all_missing_value *)
Definition apply_to_all_missing_value (mv : pyval) (num_series : option nat) : res pyval :=
  match num_series with
  | None => Err EType
  | Some n =>
      match mv with
      | VList l =>
          match l with
          | VList _ :: _ => do _ <- assert_ (Nat.eqb (List.length l) n); Ok mv
          | _ => Ok (VList (repeat mv n))
          end
      | _ => Ok (VList (repeat (VList [mv]) n))
      end
  end.

(** parameters.py:785-808 _apply_to_all *)
Definition apply_to_all (k : text) (v : pyval) (num_series : option nat)
    (params : dict) (vv : list pyval) : res pyval :=
  if text_eqb k n_time_header then apply_to_all_time_header v num_series params vv
  else if text_eqb k n_missing_value then apply_to_all_missing_value v num_series
  else Ok (apply_to_all_gen v num_series vv).

(** parameters.py:255-258, loop over the given parameters *)
Definition apply_all (num_series : option nat) (keys : list text) (d : dict) : res dict :=
  foldM (fun acc k =>
    do vv <- valid_values k;
    do v <- dgetE k acc;
    do v' <- apply_to_all k v num_series acc vv;
    Ok (dset k v' acc)) keys d.

(** parameters.py:261-265, loop over the optional parameters *)
Definition apply_optional (num_series : option nat) (d : dict) : res dict :=
  foldM (fun acc k =>
    if negb (truthy (dgetN k acc)) then
      do def <- dgetE k DEFAULT_VALUES;
      do vv <- valid_values k;
      do v' <- apply_to_all k def num_series acc vv;
      Ok (dset k v' acc)
    else Ok acc) OPTIONAL d.

(** parameters.py:194-267 _build *)
Definition build (d0 : dict) : res dict :=
  do _ <- check_has_critical d0;
  do f0 <- dgetE n_frequency d0;
  do f <- curate_frequency f0;
  let d1 := dset n_frequency f d0 in
  do _ <- validate_parameters d1;
  do d2 <- missings_to_default d1;
  do hc0 <- dgetE n_headers_coord d2;
  do ch <- process_headers_coord hc0;
  let d3 := dset n_headers_coord (VList (snd ch)) d2 in
  let d4 := if existsb truthy (fst ch) then dset n_composed (VList (fst ch)) d3 else d3 in
  do th0 <- dgetE n_time_header d4;
  do th <- unpack_header_ranges th0;
  let d5 := dset n_time_header th d4 in
  do d6 <- (if truthy (dgetN n_context d5) then
              do c <- process_context (dgetN n_context d5) (snd ch);
              Ok (dset n_context c d5)
            else Ok d5);
  do _ <- check_consistency d6;
  let ns := get_num_series d6 in
  do d7 <- (if truthy (dgetN n_time_multicolumn d6) then Ok d6
            else do g <- guess_time_multicolumn th ns;
                 Ok (dset n_time_multicolumn g d6));
  do d8 <- (if truthy (dgetN n_alignment d7) then Ok d7
            else do g <- guess_alignment (VList (snd ch));
                 Ok (dset n_alignment g d7));
  do d9 <- apply_all ns (map fst d8) d8;
  apply_optional ns d9.

(** parameters.py:168-172: the object after a successful build *)
Definition params_of (d : dict) : dict := map (fun k => (k, dgetN k d)) PARAM_NAMES.

(** What the user may pass (parameters.py:175-191 _get_params_dict). *)
Inductive pinput :=
| PDict (d : dict)         (* a dictionary *)
| PObj (p : dict)          (* a Parameters object *)
| PPath (t : text)         (* a path *)
| POther.                  (* anything else that is true *)

(** parameters.py:138-191 __init__.  [json] reads a file: opening and json
    decoding are not modelled, json text -> dictionary or exception. *)
Definition ends_with (suf t : text) : bool := is_prefix (rev suf) (rev t).
Definition make_params (json : text -> res dict) (i : pinput) : res dict :=
  match i with
  | PDict [] => Ok empty_params
  | PDict d => do b <- build d; Ok (params_of b)
  | PObj p =>
      match get_num_series p with
      | None => Err EType
      | Some O => Ok empty_params
      | Some _ => do b <- build p; Ok (params_of b)
      end
  | PPath [] => Ok empty_params
  | PPath t => if ends_with (T ".json") t
               then do d <- json t; do b <- build d; Ok (params_of b)
               else Err ENotRecognized
  | POther => Err ENotRecognized
  end.

(** ** Methods of a Parameters object *)

(** parameters.py:890-898 _valid_param_list; KeyError for unknown names *)
Definition valid_param_list (k : text) (v : pyval) (num_series : option nat) : res bool :=
  match v with
  | VList l =>
      match num_series with
      | Some n =>
          if Nat.eqb (List.length l) n then
            match l with
            | [] => Ok true
            | _ => do vv <- valid_values k; Ok (forallb (fun x => valid_param_value x vv) l)
            end
          else Ok false
      | None => Ok false
      end
  | _ => Ok false
  end.

(** parameters.py:296-308, the general case of __setitem__ *)
Definition set_general (p : dict) (k : text) (v : pyval) : res dict :=
  let ns := get_num_series p in
  do good <- valid_param_list k v ns;
  if good : bool then Ok (dset k v p)
  else
    do vv <- valid_values k;
    if negb (valid_param_value v vv) then Err EInvalid
    else do v' <- apply_to_all k v ns p vv; Ok (dset k v' p).

(** parameters.py:280-308 __setitem__: the object afterwards and the outcome *)
Definition set_item (p : dict) (k : text) (v : pyval) : dict * res unit :=
  let out (r : res dict) : dict * res unit :=
    match r with Ok p' => (p', Ok tt) | Err e => (p, Err e) end in
  if text_eqb k n_context && truthy v then
    out (match dgetN n_headers_coord p with
         | VList hl => do c <- process_context v hl; Ok (dset k c p)
         | _ => Err EType
         end)
  else if text_eqb k n_headers_coord then
    match process_headers_coord v with
    | Err e => (p, Err e)
    | Ok (comp, hcs) =>
        let p1 := dset k (VList hcs) p in
        if existsb truthy comp then
          match set_general p1 n_composed (VList comp) with
          | Ok p2 => (p2, Ok tt)
          | Err e => (p1, Err e)
          end
        else (p1, Ok tt)
    end
  else out (set_general p k v).

(** parameters.py:329-343 get_series_params *)
Definition get_series_params (p : dict) (i : nat) : res dict :=
  foldM (fun acc k =>
    let v := dgetN k p in
    if is_none v then Ok acc
    else do x <- py_index v i; Ok (acc ++ [(k, x)])) PARAM_NAMES [].

(** parameters.py:345-362 is_complete *)
Definition complete_one (p : dict) (ns : option nat) (kv : text * pyval) : res bool :=
  let '(k, v) := kv in
  if text_in k OPTIONAL then Ok true
  else if is_none v then Ok false
  else
    do n <- py_len v;
    if text_eqb k n_time_header then
      match ns with
      | None => Err EType
      | Some m => Ok (negb (Nat.ltb n (Nat.min 2 m)))
      end
    else Ok (match ns with Some m => Nat.eqb n m | None => false end).
Fixpoint all_complete (p : dict) (ns : option nat) (l : dict) : res bool :=
  match l with
  | [] => Ok true
  | kv :: l' =>
      do b <- complete_one p ns kv;
      if b : bool then all_complete p ns l' else Ok false
  end.
Definition is_complete (p : dict) : res bool := all_complete p (get_num_series p) p.

(** parameters.py:911-913 _is_missing *)
Definition is_missing (p : dict) (k : text) : bool :=
  is_none (dgetN k p) &&
  match vget k VALID_VALUES with Some vv => negb (none_in vv) | None => false end.

(** parameters.py:364-370 get_missings *)
Definition get_missings (p : dict) : list text :=
  filter (is_missing p) (map fst p).

(** parameters.py:398-400 remove *)
Definition remove_param (p : dict) (k : text) : dict := dset k VNone p.

(** del l[i] *)
Definition remove_at {A} (i : nat) (l : list A) : list A := firstn i l ++ skipn (S i) l.

(** parameters.py:418-425 remove_series *)
Definition remove_series (p : dict) (i : nat) : res dict :=
  match get_num_series p with
  | None => Err EType
  | Some n =>
      mapM (fun kv =>
        match snd kv with
        | VList l =>
            if Nat.eqb (List.length l) n then
              if Nat.ltb i (List.length l)
              then Ok (fst kv, VList (remove_at i l)) else Err EIndex
            else Ok kv
        | _ => Ok kv
        end) p
  end.

(** parameters.py:409-414: the header has no text of its own nor composed *)
Definition any_value (w : worksheet) (cs : list pyval) : res bool :=
  do vs <- mapM (fun c => do t <- as_text c; read_coord w t) cs;
  Ok (existsb truthy vs).
Definition blank_header (w : worksheet) (h comp : pyval) : res bool :=
  do t <- as_text h;
  do v <- read_coord w t;
  do nc <- (if negb (truthy comp) then Ok true
            else match comp with
                 | VList cs => do b <- any_value w cs; Ok (negb b)
                 | VStr t => do b <- any_value w (map (fun c => VStr [c]) t); Ok (negb b)
                 | _ => Err EType
                 end);
  Ok (negb (truthy v) && nc).

(** parameters.py:402-416 remove_blank_headers *)
Fixpoint remove_blank_loop (w : worksheet) (idx removed : nat)
    (hs cs : list pyval) (p : dict) : res dict :=
  match hs, cs with
  | h :: hs', c :: cs' =>
      do b <- blank_header w h c;
      if b : bool then
        do p' <- remove_series p (idx - removed);
        remove_blank_loop w (S idx) (S removed) hs' cs' p'
      else remove_blank_loop w (S idx) removed hs' cs' p
  | _, _ => Ok p
  end.
Definition remove_blank_headers (w : worksheet) (p : dict) : res dict :=
  match dgetN n_headers_coord p, dgetN n_composed p with
  | VList hs, VList cs => remove_blank_loop w 0 0 hs cs p
  | _, _ => Err EType
  end.

(** parameters.py:427-437 templates *)
Definition get_critical_params_template : dict := CRITICAL.
Definition get_complete_params_template : dict :=
  fold_left (fun acc kv => dset (fst kv) (snd kv) acc) (CRITICAL ++ DEFAULT_VALUES) [].

(** parameters.py:314-323 __eq__ on objects with the same attributes *)
Definition params_eq (p q : dict) : bool :=
  forallb (fun kv => py_eq (snd kv) (dgetN (fst kv) q)) p
  && forallb (fun kv => py_eq (dgetN (fst kv) p) (snd kv)) q.
