(** utils/data_frame.py: where serialized frames are looked for, and their
    conversion to json and csv; utils/path_finders.py: directories of the
    package.  What is on the disk is an argument. *)
From Verif Require Import Base.
Local Open Scope Z_scope.

(** exceptions of these functions *)
Inductive file_exn :=
| NoSerialized       (* data_frame.py:21 NoSerializedDataFrameFound *)
| NoAttribute        (* AttributeError of string.lowercase, which Python 3 lacks *)
| NoDirectory        (* FileNotFoundError / NotADirectoryError of os.chdir *)
| Outside (x : exn). (* raised by openpyxl or pandas *)
Inductive fres (A : Type) := Fine (a : A) | Fail (x : file_exn).
Arguments Fine {A}. Arguments Fail {A}.
Definition from_outside {A} (r : res A) : fres A := match r with Ok a => Fine a | Err x => Fail (Outside x) end.
(** a for loop that appends *)
Fixpoint collect {A B} (f : A -> fres B) (l : list A) : fres (list B) :=
  match l with
  | [] => Fine []
  | x :: l' =>
      match f x with
      | Fail e => Fail e
      | Fine y => match collect f l' with Fail e => Fail e | Fine ys => Fine (y :: ys) end
      end
  end.

(** the disk: os.path.isfile, os.path.isdir, glob.glob, the sheet names
    load_workbook finds in a file, and the frame built from a path, extension,
    index and use_period_range (data_frame.py:104-105, 114-115, 132-154: reading
    by pandas and rebuilding with a period range, not modelled but for its
    frequency in Serial.v) *)
Record disk (frame : Type) := mkdisk {
  isfile : text -> bool;
  isdir : text -> bool;
  glob : text -> list text;
  sheet_names : text -> res (list text);
  read : text -> text -> nat -> bool -> res frame }.
Arguments isfile {frame}. Arguments isdir {frame}. Arguments glob {frame}. Arguments sheet_names {frame}. Arguments read {frame}.

(** file_name[file_name.rfind(c):], None without c *)
Fixpoint from_last (c : ascii) (t : text) : option text :=
  match t with
  | [] => None
  | x :: r => match from_last c r with Some s => Some s | None => if ch_eqb x c then Some t else None end
  end.
(** data_frame.py:157-162 _get_file_name_extension *)
Definition file_name_extension (t : text) : option text := from_last "."%char t.

Definition xlsx : text := T ".xlsx".
Definition csv : text := T ".csv".
Definition json_ : text := T ".json".
(** data_frame.py:166 *)
Definition supported : list text := [xlsx; csv; json_].
Definition is_supported (e : option text) : bool := match e with Some x => text_in x supported | None => false end.

(** posixpath.join of a directory and a relative path *)
Definition path_join (a b : text) : text :=
  match rev a with
  | [] => b
  | x :: _ => if ch_eqb x "/"%char then a ++ b else a ++ T "/" ++ b
  end.

Section Disk.
Context {frame : Type} (d : disk frame).

(** data_frame.py:172-181: the loop on the extensions *)
Fixpoint look (path : text) (exts : list text) (cur : text * option text) : text * option text :=
  match exts with
  | [] => cur
  | x :: r =>
      if isfile d (path ++ x) then (path ++ x, Some x)
      else if isdir d path then (path, Some x)
      else look path r cur
  end.
(** data_frame.py:165-186 _parse_path_and_extension *)
Definition parse_path_and_extension (path : text) : fres (text * text) :=
  let ext := file_name_extension path in
  let '(fixed, ext') := if is_supported ext then (path, ext) else look path supported (path, ext) in
  match ext' with
  | Some x => if text_in x supported then Fine (fixed, x) else Fail NoSerialized
  | None => Fail NoSerialized
  end.

(** serial_df_path[:-5] *)
Definition cut5 (t : text) : text := firstn (List.length t - 5) t.

(** data_frame.py:76-154 get_data_frame *)
Definition get_data_frame (path : text) (index : nat) (periods : bool) : fres frame :=
  match parse_path_and_extension path with
  | Fail e => Fail e
  | Fine (p, ext) =>
      if text_eqb ext csv then
        if isdir d p then Fail NoAttribute else from_outside (read d p ext index periods)
      else if text_eqb ext json_ then
        if isdir d p then Fail NoAttribute
        else if negb (isfile d p) && isdir d (cut5 p) then Fail NoAttribute
        else from_outside (read d p ext index periods)
      else from_outside (read d p ext index periods)
  end.

(** data_frame.py:53-60 and 63-71: the branches for csv and json *)
Definition text_frames (p ext : text) : fres (list frame) :=
  let dir := replace_text ext [] p in
  if isfile d p then match get_data_frame p 0 true with Fine f => Fine [f] | Fail e => Fail e end
  else if isdir d dir then collect (fun f => get_data_frame f 0 true) (glob d (path_join dir (T "*" ++ ext)))
  else Fine [].
(** data_frame.py:27-73 get_data_frames *)
Definition get_data_frames (path : text) (periods : bool) : fres (list frame) :=
  match parse_path_and_extension path with
  | Fail e => Fail e
  | Fine (p, ext) =>
      if text_eqb ext xlsx then
        match from_outside (sheet_names d p) with
        | Fail e => Fail e
        | Fine names => collect (fun i => get_data_frame p i periods) (seq 0 (List.length names))
        end
      else text_frames p ext
  end.

(** what the conversion does to the disk, in order; writing is taken to succeed *)
Inductive written := WroteJson (path : text) (f : frame) | WroteCsv (path : text) (f : frame) | MadeDir (path : text).
(** data_frame.py:206-225: the loop on the workbooks; their reading does not see
    what is written, which has other names *)
Fixpoint convert (cases : list text) : list written * fres unit :=
  match cases with
  | [] => ([], Fine tt)
  | t :: rest =>
      match get_data_frames t false with
      | Fail e => ([], Fail e)
      | Fine [f] => let '(w, r) := convert rest in (WroteJson (cut5 t ++ json_) f :: WroteCsv (cut5 t ++ csv) f :: w, r)
      | Fine fs =>
          let made := if isdir d (cut5 t) then [] else [MadeDir (cut5 t)] in
          match fs with
          | [] => let '(w, r) := convert rest in (made ++ w, r)
          | _ => (made, Fail NoAttribute)
          end
      end
  end.
End Disk.
Arguments WroteJson {frame}. Arguments WroteCsv {frame}. Arguments MadeDir {frame}.

(** data_frame.py:189-227 dfs_to_json_and_csv, from the directory [old]; [there]
    tells whether a path is a directory there, [inside] is what the disk looks
    like from a directory and [module] the directory of the module: what is
    written, the directory at the end and the outcome *)
Definition dfs_to_json_and_csv {frame} (there : text -> bool) (inside : text -> disk frame) (module old base : text)
  : list (written (frame := frame)) * text * fres unit :=
  let dir := if there base then base else path_join module base in
  if there dir then
    let '(w, r) := convert (inside dir) (glob (inside dir) (T "*.xlsx")) in
    (w, match r with Fine _ => old | Fail _ => dir end, r)
  else ([], old, Fail NoDirectory).

(** ** utils/path_finders.py *)
Definition is_slash (c : ascii) : bool := ch_eqb c "/"%char.
(** posixpath.split and posixpath.basename *)
Definition path_tail (p : text) : text := rev (take_while (fun c => negb (is_slash c)) (rev p)).
Definition path_head (p : text) : text :=
  let head := rev (drop_while (fun c => negb (is_slash c)) (rev p)) in
  if forallb is_slash head then head else rev (drop_while is_slash (rev head)).
Definition is_abs (p : text) : bool := match p with c :: _ => is_slash c | [] => false end.

Inductive dir_result := Found (t : text) | NotFound | RecursionError.
(** path_finders.py:162-167: up the tree; each call is on a shorter path until
    the root, which is its own head, so that more steps than characters never
    end (the limit of Python on the depth of calls comes before for paths of
    about a thousand directories) *)
Fixpoint package_dir_up (fuel : nat) (name path : text) : dir_result :=
  match fuel with
  | O => RecursionError
  | S k =>
      if text_eqb (path_tail (path_head path)) name then Found (path_head path)
      else package_dir_up k name (path_head path)
  end.
(** path_finders.py:151-175 get_package_dir; [sys_path] is sys.path *)
Definition get_package_dir (sys_path : list text) (name path : text) : dir_result :=
  if is_abs path then package_dir_up (S (S (List.length path))) name path
  else match find (fun p => text_eqb (path_tail p) name) sys_path with Some p => Found p | None => NotFound end.

(** path_finders.py:38-58, 65-85, 92-112, 119-138: get_*_cases_path, which only
    differ in the directory under the package and the extension; case_num None
    or 0 gives the directory *)
Definition cases_path (package relative ext : text) (num : option Z) : text :=
  let base := path_join package relative in
  match num with
  | None => base
  | Some z => if z =? 0 then base else path_join base (T "test_case" ++ Z_text z ++ ext)
  end.
