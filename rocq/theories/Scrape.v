(** strategies/strategies.py: the scraper.

    Worksheets and Parameters objects are mutable in Python: here they live in
    a store and are named by their position in it.  A copy is a new object. *)
From Verif Require Import Base Cal Coord XlMethods Params ParseTime TimeIndex GetData
  PeriodRange DataFrame Attempts.
Local Open Scope Z_scope.

Record store := mkstore { st_sheets : list worksheet; st_params : list dict }.

Definition empty_sheet : worksheet := mkws (fun _ _ => VNone) 1 1 [].
Definition sheet (st : store) (i : nat) : worksheet := nth i (st_sheets st) empty_sheet.
Definition params (st : store) (i : nat) : dict := nth i (st_params st) [].
Fixpoint set_nth {A} (i : nat) (x : A) (l : list A) : list A :=
  match l, i with
  | [], _ => []
  | _ :: l', O => x :: l'
  | y :: l', S k => y :: set_nth k x l'
  end.
Definition set_sheet (st : store) (i : nat) (w : worksheet) : store :=
  mkstore (set_nth i w (st_sheets st)) (st_params st).
Definition set_params (st : store) (i : nat) (p : dict) : store :=
  mkstore (st_sheets st) (set_nth i p (st_params st)).
Definition new_sheet (st : store) (w : worksheet) : store * nat :=
  (mkstore (st_sheets st ++ [w]) (st_params st), List.length (st_sheets st)).
Definition new_params (st : store) (p : dict) : store * nat :=
  (mkstore (st_sheets st) (st_params st ++ [p]), List.length (st_params st)).

(** ** strategies.py:192-231 _clean_data *)

(** params["data_ends"][i] = end *)
Definition set_end (p : dict) (i : nat) (v : pyval) : dict :=
  match dgetN n_data_ends p with
  | VList l => dset n_data_ends (VList (set_nth i v l)) p
  | _ => p
  end.

(** the loop over the time indexes (208-227); [ends] is time_indexes_ends *)
Fixpoint clean_many (e : env) (n i : nat) (ends : list (text * Z)) (w : worksheet) (p : dict)
    : worksheet * dict * res unit :=
  match n with
  | O => (w, p, Ok tt)
  | S n' =>
      match (do thc <- py_index (dgetN n_time_header p) i; as_text thc) with
      | Err x => (w, p, Err x)
      | Ok t =>
          let known := find (fun kv => text_eqb t (fst kv)) ends in
          let '(w1, r) :=
            match known with
            | Some kv => (w, Ok (snd kv))
            | None =>
                match series_sp p i with
                | Err x => (w, Err x)
                | Ok s => let '(w', r') := clean_time_index e w s in
                          (w', do z <- r'; do _ <- assert_ (negb (z =? 0)); Ok z)
                end
            end in
          match r with
          | Err x => (w1, p, Err x)
          | Ok z =>
              let ends' := match known with Some _ => ends | None => (t, z) :: ends end in
              match py_index (dgetN n_data_ends p) i with
              | Err x => (w1, p, Err x)
              | Ok de =>
                  let p' := if truthy de then p else set_end p i (VInt z) in
                  clean_many e n' (S i) ends' w1 p'
              end
          end
      end
  end.

Definition clean_data (e : env) (w : worksheet) (p : dict) : worksheet * dict * res unit :=
  match py_index (dgetN n_time_multicolumn p) 0 with
  | Err x => (w, p, Err x)
  | Ok tm =>
      if truthy tm then
        match series_sp p 0 with
        | Err x => (w, p, Err x)
        | Ok s =>
            let '(w1, r) := clean_time_index e w s in
            match r with
            | Err x => (w1, p, Err x)
            | Ok z =>
                match py_index (dgetN n_data_ends p) 0 with
                | Err x => (w1, p, Err x)
                | Ok de =>
                    if truthy de then (w1, p, Ok tt)
                    else let '(p', r') := set_item p n_data_ends (VInt z) in (w1, p', r')
                end
            end
        end
      else
        match py_len (dgetN n_time_header p) with
        | Err x => (w, p, Err x)
        | Ok n => clean_many e n 0 [] w p
        end
  end.

(** ** strategies.py:233-319 _get_data *)

(** 498-502: the first coordinate of a list *)
Definition th_single (multi : bool) (th : theader) : res text :=
  match th with
  | ThStr t => Ok t
  | ThList (t :: _) => if multi then Ok t else Err EType
  | ThList [] => if multi then Err EIndex else Err EType
  end.

(** cells created by reading the ends of the range (single frequency) *)
Definition touch_prs (w : worksheet) (freq : text) (starts line ends ta : Z) (al : align) : worksheet :=
  if accepts_freq false freq
  then axis_touch al line (ends + ta) (axis_touch al line (starts + ta) w)
  else w.

(** the columns of [params] zipped at lines 487-491, one record per series *)
Definition zip_len (p : dict) : res nat :=
  do ns <- mapM (fun k => py_len (dgetN k p))
    [n_frequency; n_data_starts; n_time_header; n_data_ends; n_time_alignment; n_alignment];
  Ok (fold_right Nat.min (hd 0%nat ns) ns).

Record prq := mkprq { q_freq : text; q_starts : Z; q_line : Z; q_ends : Z; q_ta : Z; q_al : align }.
(** 487-502: the arguments of the period range of series [i] *)
Definition pr_query (p : dict) (i : nat) : res prq :=
  do fr <- py_index (dgetN n_frequency p) i; do fr' <- as_text fr;
  do ds <- py_index (dgetN n_data_starts p) i; do ds' <- as_int ds;
  do th <- py_index (dgetN n_time_header p) i; do th' <- as_theader th;
  do de <- py_index (dgetN n_data_ends p) i;
  do _ <- assert_ (truthy de); do de' <- as_int de;
  do ta <- py_index (dgetN n_time_alignment p) i; do ta' <- as_int ta;
  do al <- py_index (dgetN n_alignment p) i; do al' <- as_align al;
  do _ <- assert_ (ds' <? de');
  do t <- th_single (truthy (dgetN n_time_multicolumn p)) th';
  do line <- coord_line al' t;
  Ok (mkprq fr' ds' line de' ta' al').

Record frame := mkframe { f_pr : prange; f_cols : list text; f_data : list (list spec_float) }.

(** strategies.py:322-325 _hash_period_range *)
Definition pr_hash (pr : prange) : res (text * datetime * datetime) :=
  match pr_first pr, pr_last pr with
  | Some a, Some b => Ok (pr_freq pr, a, b)
  | _, _ => Err EIndex
  end.
Definition hash_eqb (a b : text * datetime * datetime) : bool :=
  text_eqb (fst (fst a)) (fst (fst b)) && dt_eqb (snd (fst a)) (snd (fst b))
  && dt_eqb (snd a) (snd b).
Definition frames_t := list ((text * datetime * datetime) * frame).
Definition frame_has (h : text * datetime * datetime) (fs : frames_t) : bool :=
  existsb (fun kv => hash_eqb h (fst kv)) fs.

(** 238-243: one empty frame per distinct period range *)
Definition add_frame (fs : frames_t) (pr : prange) : res frames_t :=
  do h <- pr_hash pr;
  Ok (if frame_has h fs then fs else fs ++ [(h, mkframe pr [] [])]).
Fixpoint init_frames (e : env) (n i : nat) (w : worksheet) (p : dict) (fs : frames_t)
    : worksheet * res frames_t :=
  match n with
  | O => (w, Ok fs)
  | S n' =>
      match pr_query p i with
      | Err x => (w, Err x)
      | Ok q =>
          match series_prs e w (q_freq q) (q_starts q) (q_line q) (q_ends q) (q_ta q) (q_al q) with
          | Err x => (w, Err x)
          | Ok prs =>
              let w1 := touch_prs w (q_freq q) (q_starts q) (q_line q) (q_ends q) (q_ta q) (q_al q) in
              match foldM add_frame prs fs with
              | Err x => (w1, Err x)
              | Ok fs' => init_frames e n' (S i) w1 p fs'
              end
          end
      end
  end.

(** strategies.py:545-568 _add_name and _indexed_name; at most one more
    attempt than there are columns is needed *)
Definition indexed_name (name : text) (i : Z) : text :=
  if i <=? 1 then name else name ++ T "." ++ Z_text i.
Fixpoint add_name_from (fuel : nat) (name : text) (cols : list text) (i : Z) : list text :=
  match fuel with
  | O => cols
  | S k =>
      if text_in (indexed_name name i) cols then add_name_from k name cols (i + 1)
      else cols ++ [indexed_name name i]
  end.
Definition add_name (name : text) (cols : list text) : list text :=
  add_name_from (S (List.length cols)) name cols 1.

(** 278-282: the values go to the frame of their period range; KeyError when
    there is none *)
Fixpoint put_values (h : text * datetime * datetime) (name : text) (vs : list spec_float)
    (fs : frames_t) : res frames_t :=
  match fs with
  | [] => Err EKey
  | (k, f) :: fs' =>
      if hash_eqb h k then
        Ok ((k, mkframe (f_pr f) (add_name name (f_cols f)) (f_data f ++ [vs])) :: fs')
      else do r <- put_values h name vs fs'; Ok ((k, f) :: r)
  end.

(** cells created by reading the values of a series *)
Definition touch_data (w : worksheet) (s : sp) : worksheet :=
  match sp_ends s, coord_line (sp_al s) (sp_hc s) with
  | Some en, Ok line =>
      let w1 := axis_touch (sp_al s) line en w in
      if sp_cont s then w1
      else match time_line (sp_al s) (sp_multi s) (sp_th s) with
           | Ok l => axis_touch (sp_al s) l (en + sp_ta s) w1
           | Err _ => w1
           end
  | _, _ => w
  end.

(** 249-282 one series *)
Definition series_into (e : env) (w : worksheet) (s : sp) (fs : frames_t)
    : worksheet * res frames_t :=
  match find (fun k => dcombo_accepts k s) dcombos with
  | None => (w, Err EUnbound)
  | Some _ =>
      match get_data e w s with
      | Err x => (w, Err x)
      | Ok nvs =>
          match nvs with
          | [] => (w, Err EIndex)        (* names_and_values[0] *)
          | _ =>
              let w1 := touch_data w s in
              match (do t <- th_single (sp_multi s) (sp_th s);
                     do line <- coord_line (sp_al s) t;
                     match sp_ends s with
                     | None => Err EType
                     | Some en =>
                         do prs <- series_prs e w1 (sp_freq s) (sp_starts s) line en (sp_ta s) (sp_al s);
                         Ok (line, en, prs)
                     end) with
              | Err x => (w1, Err x)
              | Ok (line, en, prs) =>
                  (touch_prs w1 (sp_freq s) (sp_starts s) line en (sp_ta s) (sp_al s),
                   foldM (fun fs pn =>
                            do h <- pr_hash (fst pn);
                            put_values h (fst (snd pn)) (snd (snd pn)) fs)
                         (combine prs nvs) fs)
              end
          end
      end
  end.

Fixpoint fill_frames (e : env) (n i : nat) (w : worksheet) (p : dict) (fs : frames_t)
    : worksheet * res frames_t :=
  match n with
  | O => (w, Ok fs)
  | S n' =>
      match series_sp p i with
      | Err x => (w, Err x)
      | Ok s =>
          let '(w1, r) := series_into e w s fs in
          match r with
          | Err x => (w1, Err x)
          | Ok fs' => fill_frames e n' (S i) w1 p fs'
          end
      end
  end.

Definition get_data_all (e : env) (w : worksheet) (p : dict) : worksheet * res (list df) :=
  match zip_len p with
  | Err x => (w, Err x)
  | Ok n =>
      let '(w1, r1) := init_frames e n 0 w p [] in
      match r1 with
      | Err x => (w1, Err x)
      | Ok fs =>
          match py_len (dgetN n_headers_coord p) with
          | Err x => (w1, Err x)
          | Ok m =>
              let '(w2, r2) := fill_frames e m 0 w1 p fs in
              (w2, do fs' <- r2;
                   mapM (fun kf => build_df (f_pr (snd kf)) (f_cols (snd kf)) (f_data (snd kf))) fs')
          end
      end
  end.

(** clean and get on stored objects (104-108, 118-122) *)
Definition run_attempt (e : env) (st : store) (si pi : nat) : store * res (list df) :=
  let '(w1, p1, r) := clean_data e (sheet st si) (params st pi) in
  let st1 := set_params (set_sheet st si w1) pi p1 in
  match r with
  | Err x => (st1, Err x)
  | Ok _ =>
      let '(w2, r2) := get_data_all e w1 p1 in
      (set_sheet st1 si w2, r2)
  end.

(** ** strategies.py:94-175 _get_data_frames *)

(** what is handed back: a frame, or a list of results *)
Inductive dfs_t := DF (d : df) | DL (l : list dfs_t).

(** 125-126 *)
Definition unwrap (l : list df) : dfs_t :=
  match l with [d] => DF d | _ => DL (map DF l) end.

(** the objects a for loop over a result yields: frames for a list; iterating
    a frame yields its column names *)
Inductive item := IFrame (d : df) | IName.
Definition items_of (x : dfs_t) : list item :=
  match x with
  | DF d => map (fun _ => IName) (df_cols d)
  | DL l => map (fun y => match y with DF d => IFrame d | DL _ => IName end) l
  end.
(** compare_data_frames on such objects: AssertionError unless both are frames *)
Definition compare_items (a b : item) : res bool :=
  match a, b with
  | IFrame x, IFrame y => compare_data_frames x y
  | _, _ => Err EAssert
  end.
(** 146-151: repeated unless some pair raises AssertionError; any other
    exception leaves the function *)
Definition repeated_pair (a b : dfs_t) : res bool :=
  foldM (fun acc p =>
    match compare_items (fst p) (snd p) with
    | Ok _ => Ok acc
    | Err EAssert => Ok false
    | Err x => Err x
    end) (combine (items_of a) (items_of b)) true.
Fixpoint is_repeated_result (a : dfs_t) (us : list (dfs_t * nat)) : res bool :=
  match us with
  | [] => Ok false
  | u :: us' =>
      do b <- repeated_pair a (fst u);
      if b : bool then Ok true else is_repeated_result a us'
  end.
(** 141-157 *)
Fixpoint unique_results (rs us : list (dfs_t * nat)) : res (list (dfs_t * nat)) :=
  match rs with
  | [] => Ok us
  | r :: rs' =>
      do b <- is_repeated_result (fst r) us;
      unique_results rs' (if b : bool then us else us ++ [r])
  end.

(** 114-138: the attempts, each on a fresh copy of the sheet.  Results are
    paired with the Parameters object that produced them. *)
Fixpoint try_attempts (e : env) (safe : bool) (st : store) (si : nat) (pids : list nat)
    : store * list (dfs_t * nat) :=
  match pids with
  | [] => (st, [])
  | pi :: pids' =>
      let '(st1, ti) := new_sheet st (make_ws_copy (sheet st si)) in
      let '(st2, r) := run_attempt e st1 ti pi in
      match r with
      | Ok dfs =>
          if safe then
            let '(st3, rs) := try_attempts e safe st2 si pids' in
            (st3, (unwrap dfs, pi) :: rs)
          else (st2, [(unwrap dfs, pi)])
      | Err _ => try_attempts e safe st2 si pids'
      end
  end.

(** the attempts as new objects (copy.deepcopy, 349) *)
Fixpoint alloc_params (st : store) (l : list dict) : store * list nat :=
  match l with
  | [] => (st, [])
  | p :: l' =>
      let '(st1, i) := new_params st p in
      let '(st2, is) := alloc_params st1 l' in
      (st2, i :: is)
  end.

(** 179-190: either the object itself or new ones *)
Definition attempt_objects (st : store) (pi : nat) : store * res (list nat) :=
  match is_complete (params st pi) with
  | Err x => (st, Err x)
  | Ok true => (st, Ok [pi])
  | Ok false =>
      match get_missings (params st pi) with
      | [] => (st, Ok [pi])
      | names =>
          match generate_attempts names (params st pi) with
          | Err x => (st, Err x)
          | Ok l => let '(st', is) := alloc_params st l in (st', Ok is)
          end
      end
  end.

Definition scrape (e : env) (safe : bool) (st : store) (si pi : nat)
    : store * res (dfs_t * nat) :=
  let '(st1, r) := attempt_objects st pi in
  match r with
  | Err x => (st1, Err x)
  | Ok [p0] =>
      let '(st2, r2) := run_attempt e st1 si p0 in
      (st2, do dfs <- r2; Ok (DL (map DF dfs), p0))
  | Ok pids =>
      let '(st2, results) := try_attempts e safe st1 si pids in
      (st2,
       do us <- unique_results results [];
       match us with
       | [] => Err EOther
       | [u] => Ok u
       | _ => Ok (DL (map fst us), List.last pids 0%nat)
       end)
  end.
