(** What parameter values mean, independently of the model's functions (only
    the Python values [pyval] of Base.v are used). *)
From Coq Require Import Sorting.Sorted Sorting.Permutation.
From Verif Require Import Base SpecCoord.
Import SpecFloat.
Local Open Scope Z_scope.

(** a range-like parameter value, a text or a list of texts, stands for [cells] *)
Inductive value_cells : pyval -> list (Z * Z) -> Prop :=
| vc_text t cells : entry_cells t cells -> value_cells (VStr t) cells
| vc_list es css : es <> [] -> Forall2 entry_cells es css ->
    value_cells (VList (map VStr es)) (List.concat css).

(** an entry of the context parameter: its text, the range given by the user
    and the cells the range stands for *)
Definition ctx_entry := (text * pyval * list (Z * Z))%type.
Definition ce_text (e : ctx_entry) : text := fst (fst e).
Definition ce_cells (e : ctx_entry) : list (Z * Z) := snd e.

(** what "attached exactly to the headers concerned, longest first" means *)
Definition attaches (concerned : list (Z * Z) -> Z -> Z -> Prop)
    (entries : list ctx_entry) (row : list pyval) (header : Z * Z) : Prop :=
  exists kept dropped,
    row = map (fun e => VStr (ce_text e)) kept /\
    Permutation (kept ++ dropped) entries /\
    Forall (fun e => concerned (ce_cells e) (fst header) (snd header)) kept /\
    Forall (fun e => ~ concerned (ce_cells e) (fst header) (snd header)) dropped /\
    StronglySorted (fun a b => (List.length (ce_cells b) <= List.length (ce_cells a))%nat) kept.

(** ** Parameter values *)

(** the texts used as parameter names *)
Definition pname (s : string) : text := list_ascii_of_string s.

Definition critical_names : list text :=
  [pname "time_header_coord"; pname "headers_coord"; pname "data_starts"; pname "frequency"].

(** a parameter is given when the dictionary holds something else than None *)
Definition given (k : text) (d : dict) : Prop := exists v, dget k d = Some v /\ v <> VNone.

(** a value given once, or the elements of a list of values *)
Definition each (P : pyval -> Prop) (v : pyval) : Prop :=
  match v with
  | VList l => Forall P l
  | _ => P v
  end.

(** what the user may write for each parameter; comparisons are Python's [==] *)
Definition flag (v : pyval) : Prop := py_eq v (VBool true) = true \/ py_eq v (VBool false) = true.
Definition an_int (v : pyval) : Prop := (exists z, v = VInt z) \/ (exists b, v = VBool b).
Definition a_text (v : pyval) : Prop := exists t, v = VStr t.
Definition a_list (v : pyval) : Prop := exists l, v = VList l.
Definition a_dict (v : pyval) : Prop := exists l, v = VDict l.
(** the reading of a frequency: capital letters, Y standing for A in Y, YQQQQ
    and QQQQY *)
Definition freq_reading (t : text) : text :=
  let u := upper t in
  if text_eqb u (pname "Y") then pname "A"
  else if text_eqb u (pname "YQQQQ") then pname "AQQQQ"
  else if text_eqb u (pname "QQQQY") then pname "QQQQA"
  else u.

(** its letters are among A, S, Q, M, W, D *)
Definition frequency_text (v : pyval) : Prop :=
  exists t, v = VStr t /\ Forall (fun c => In c (pname "ASQMWD")) (freq_reading t).

Inductive acceptable : text -> pyval -> Prop :=
| acc_none k : acceptable k VNone
| acc_alignment v : each (fun x => x = VStr (pname "vertical") \/ x = VStr (pname "horizontal")) v ->
    acceptable (pname "alignment") v
| acc_flag k v : In k [pname "continuity"; pname "blank_rows"; pname "missings";
                       pname "time_multicolumn"; pname "time_composed"] ->
    each flag v -> acceptable k v
| acc_time_alignment v :
    each (fun x => py_eq x (VInt (-1)) = true \/ py_eq x (VInt 0) = true \/ py_eq x (VInt 1) = true) v ->
    acceptable (pname "time_alignment") v
| acc_data_starts v : each an_int v -> acceptable (pname "data_starts") v
| acc_data_ends v : each (fun x => an_int x \/ x = VNone) v -> acceptable (pname "data_ends") v
| acc_headers v : each a_text v -> acceptable (pname "headers_coord") v
| acc_names v : each (fun x => a_text x \/ x = VNone) v -> acceptable (pname "series_names") v
| acc_composed v : each (fun x => a_list x \/ a_text x \/ x = VNone) v ->
    acceptable (pname "composed_headers_coord") v
| acc_time_header v : each (fun x => a_text x \/ a_list x) v -> acceptable (pname "time_header_coord") v
| acc_missing_value v : acceptable (pname "missing_value") v
| acc_context l : Forall (fun kv => a_dict (snd kv) \/ a_list (snd kv) \/ a_text (snd kv) \/ snd kv = VNone) l ->
    acceptable (pname "context") (VDict l)
| acc_no_context : acceptable (pname "context") (VList [])
| acc_frequency v : each frequency_text v -> acceptable (pname "frequency") v.

(** the value series [i] has for parameter [k] *)
Definition series_value (p : dict) (k : text) (i : nat) (v : pyval) : Prop :=
  exists l, dgetN k p = VList l /\ nth_error l i = Some v.

(** the number of series of a Parameters object is the length of its longest
    per-series list (missing_value, whose lists are of markers, apart) *)
Definition series_count (p : dict) (n : nat) : Prop :=
  (forall k l, In (k, VList l) p -> k <> pname "missing_value" -> (List.length l <= n)%nat) /\
  (exists k l, In (k, VList l) p /\ k <> pname "missing_value" /\ List.length l = n).

(** the cells of the headers a headers_coord value declares: plain cells and
    ranges, or a composed range (the cells of its last component, as far as
    every component reaches) *)
Inductive header_cells : pyval -> list (Z * Z) -> Prop :=
| hc_plain v cells : value_cells v cells -> header_cells v cells
| hc_composed parens init lst cells : init <> [] -> Forall component_ok (init ++ [lst]) ->
    (forall i p, nth_error cells i = Some p <->
       nth_error (cp_cells lst) i = Some p /\
       Forall (fun k => (i < List.length (cp_cells k))%nat) init) ->
    header_cells (VStr (composed_range parens (init ++ [lst]))) cells.

Definition is_list_value (v : pyval) : Prop := exists l, v = VList l.

(** a parameter given once: as such or as a one-element list *)
Definition given_once (k : text) (d : dict) (v : pyval) : Prop :=
  ~ is_list_value v /\ (dget k d = Some v \/ dget k d = Some (VList [v])).

(** a Python integer and its value (True is 1 and False is 0) *)
Inductive int_value : pyval -> Z -> Prop :=
| iv_int z : int_value (VInt z) z
| iv_true : int_value (VBool true) 1
| iv_false : int_value (VBool false) 0.
(** the first data row or column declared *)
Definition first_data (d : dict) (z : Z) : Prop :=
  exists v x, dget (pname "data_starts") d = Some v /\
    (v = x \/ exists l, v = VList (x :: l)) /\ int_value x z.

(** a header cell without text: empty, or holding "", zero or False *)
Definition no_value (v : pyval) : Prop :=
  v = VNone \/ v = VStr [] \/ v = VInt 0 \/ v = VBool false \/ (exists s, v = VFloat (S754_zero s)) \/
  v = VList [] \/ v = VDict [].
(** [l'] is made of the elements of [l] at the positions [idx] *)
Definition selects {A} (idx : list nat) (l l' : list A) : Prop :=
  map Some l' = map (nth_error l) idx.

(** no list is longer than [n]: neither a parameter given as a list of values,
    nor the cells (or the lists) the time header stands for *)
Definition lists_fit (d : dict) (n : nat) : Prop :=
  (forall k l, dget k d = Some (VList l) ->
     ~ In k [pname "headers_coord"; pname "time_header_coord"; pname "context"; pname "missing_value"] ->
     (List.length l <= n)%nat) /\
  (exists tv, dget (pname "time_header_coord") d = Some tv /\
    ((exists tcells, value_cells tv tcells /\ (List.length tcells <= n)%nat) \/
     (exists ls, tv = VList (map VList ls) /\ (List.length ls <= n)%nat))).

(** the header of a series, or one of its composed headers, has a value *)
Definition cell_has_value (value : Z -> Z -> pyval) (h : pyval) : Prop :=
  exists t r c, h = VStr t /\ cell_named t r c /\ ~ no_value (value r c).
Definition has_header (value : Z -> Z -> pyval) (h comp : pyval) : Prop :=
  cell_has_value value h \/ exists cs x, comp = VList cs /\ In x cs /\ cell_has_value value x.
(** a header that names a cell; composed headers that name cells, or none *)
Definition names_a_cell (v : pyval) : Prop := exists t r c, v = VStr t /\ cell_named t r c.
Definition composed_cells (v : pyval) : Prop :=
  v = VNone \/ exists cs, v = VList cs /\ Forall names_a_cell cs.
(** every list of the object has one value per series *)
Definition one_per_series (p : dict) (n : nat) : Prop :=
  forall k l, In (k, VList l) p -> List.length l = n.

(** values that are Python classes cannot come from a file or from a user who
    writes parameters; they are excluded below *)
Definition not_type (v : pyval) : Prop := forall t, v <> VType t.
Definition plain (v : pyval) : Prop :=
  not_type v /\
  (match v with VList l => Forall not_type l | VDict l => Forall (fun kv => not_type (snd kv)) l | _ => True end).
