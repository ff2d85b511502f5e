(** What is expected of the files of serialized frames (C69, C70) and of the
    directory of a package (C71). *)
From Verif Require Import Base Files.
Local Open Scope Z_scope.

(** the extension in a path: from its last dot on *)
Definition extension_of (path ext : text) : Prop :=
  exists base rest, path = base ++ "."%char :: rest /\ ~ In "."%char rest /\ ext = "."%char :: rest.
Definition known (ext : text) : Prop := ext = T ".xlsx" \/ ext = T ".csv" \/ ext = T ".json".
(** a path without one of the known extensions *)
Definition bare (path : text) : Prop := forall ext, extension_of path ext -> ~ known ext.

(** the file, or directory, meant by a path, and the format it is read in *)
Inductive located {frame} (d : disk frame) (path : text) : text -> text -> Prop :=
| lo_named ext : extension_of path ext -> known ext -> located d path path ext
| lo_xlsx : bare path -> isfile d (path ++ T ".xlsx") = true -> located d path (path ++ T ".xlsx") (T ".xlsx")
| lo_dir : bare path -> isfile d (path ++ T ".xlsx") = false -> isdir d path = true -> located d path path (T ".xlsx")
| lo_csv : bare path -> isfile d (path ++ T ".xlsx") = false -> isdir d path = false -> isfile d (path ++ T ".csv") = true ->
    located d path (path ++ T ".csv") (T ".csv")
| lo_json : bare path -> isfile d (path ++ T ".xlsx") = false -> isdir d path = false -> isfile d (path ++ T ".csv") = false ->
    isfile d (path ++ T ".json") = true -> located d path (path ++ T ".json") (T ".json").

(** nothing is both a file and a directory *)
Definition sane {frame} (d : disk frame) : Prop := forall p, isfile d p = true -> isdir d p = false.

(** what to read: path, format, index, whether as periods *)
Definition source := (text * text * nat * bool)%type.
Definition text_format (ext : text) : Prop := ext = T ".csv" \/ ext = T ".json".
(** the files to read for a path, in order *)
Inductive sources {frame} (d : disk frame) (path : text) (periods : bool) : list source -> Prop :=
| so_sheets p names : located d path p (T ".xlsx") -> sheet_names d p = Ok names ->
    sources d path periods (map (fun i => (p, T ".xlsx", i, periods)) (seq 0 (List.length names)))
| so_file p ext : located d path p ext -> text_format ext -> isfile d p = true -> sources d path periods [(p, ext, 0%nat, true)]
| so_files dir ext files : text_format ext -> located d path (dir ++ ext) ext -> (forall a b, dir <> a ++ ext ++ b) ->
    isfile d (dir ++ ext) = false -> isdir d dir = true -> files = glob d (path_join dir (T "*" ++ ext)) ->
    Forall (fun f => extension_of f ext /\ isfile d f = true) files ->
    sources d path periods (map (fun f => (f, ext, 0%nat, true)) files)
| so_nothing dir ext : text_format ext -> located d path (dir ++ ext) ext -> (forall a b, dir <> a ++ ext ++ b) ->
    isfile d (dir ++ ext) = false -> isdir d dir = false -> sources d path periods [].
Definition reads {frame} (d : disk frame) (s : source) (f : frame) : Prop :=
  let '(p, ext, i, periods) := s in read d p ext i periods = Ok f.

(** ** the conversion *)
(** a workbook of one sheet and its frame *)
Definition single {frame} (d : disk frame) (t : text) (f : frame) : Prop :=
  extension_of t (T ".xlsx") /\ exists name, sheet_names d t = Ok [name] /\ read d t (T ".xlsx") 0 false = Ok f.
(** a workbook of two or more sheets that can be read *)
Definition several {frame} (d : disk frame) (t : text) : Prop :=
  extension_of t (T ".xlsx") /\ exists names fs, sheet_names d t = Ok names /\ (2 <= List.length names)%nat /\
    Forall2 (fun i f => read d t (T ".xlsx") i false = Ok f) (seq 0 (List.length names)) fs.
(** three lists, element by element *)
Inductive Forall3 {A B C} (P : A -> B -> C -> Prop) : list A -> list B -> list C -> Prop :=
| F3_nil : Forall3 P [] [] []
| F3_cons a b c la lb lc : P a b c -> Forall3 P la lb lc -> Forall3 P (a :: la) (b :: lb) (c :: lc).
(** the two files of a frame *)
Inductive both_files {frame} : text -> frame -> list (@written frame) -> Prop :=
| both_ stem f : both_files (stem ++ T ".xlsx") f [WroteJson (stem ++ T ".json") f; WroteCsv (stem ++ T ".csv") f].

(** ** directories *)
Definition a_name (t : text) : Prop := t <> [] /\ ~ In "/"%char t.
(** an absolute path: /a/b/c *)
Fixpoint abs_path (l : list text) : text := match l with [] => [] | x :: r => "/"%char :: x ++ abs_path r end.
(** the part of a path after its last slash *)
Definition last_name (p n : text) : Prop := (p = n /\ ~ In "/"%char n) \/ exists a, p = a ++ "/"%char :: n /\ ~ In "/"%char n.
