(** What cell names and ranges of cells mean, independently of the model. *)
From Coq Require Import List Ascii String ZArith Sorting.Sorted.
Import ListNotations.
Local Open Scope Z_scope.

Definition txt (s : string) : list ascii := list_ascii_of_string s.

(** A = 1, ..., Z = 26, in either case *)
Definition letter_number (c : ascii) (n : Z) : Prop :=
  exists k, n = Z.of_nat k + 1 /\
    (nth_error (txt "ABCDEFGHIJKLMNOPQRSTUVWXYZ") k = Some c \/
     nth_error (txt "abcdefghijklmnopqrstuvwxyz") k = Some c).

(** A .. Z, AA .. ZZ, AAA .. ZZZ *)
Inductive column_number : list ascii -> Z -> Prop :=
| cn_one c n : letter_number c n -> column_number [c] n
| cn_more t m c n : column_number t m -> letter_number c n -> column_number (t ++ [c]) (26 * m + n).

Inductive decimal : list ascii -> Z -> Prop :=
| dec_one c k : nth_error (txt "0123456789") k = Some c -> decimal [c] (Z.of_nat k)
| dec_more t m c k : decimal t m -> nth_error (txt "0123456789") k = Some c ->
    decimal (t ++ [c]) (10 * m + Z.of_nat k).

(** the text [t] names the cell in row [r], column [c] *)
Definition cell_named (t : list ascii) (r c : Z) : Prop :=
  exists l d, t = l ++ d /\ column_number l c /\ (List.length l <= 3)%nat /\ decimal d r /\ 1 <= r.

(** row by row, left to right *)
Definition before (a b : Z * Z) : Prop := fst a < fst b \/ (fst a = fst b /\ snd a < snd b).

(** [cells] lists every cell of the rectangle with those corners, once, row by
    row and left to right *)
Definition rectangle (r1 c1 r2 c2 : Z) (cells : list (Z * Z)) : Prop :=
  (forall r c, In (r, c) cells <-> r1 <= r <= r2 /\ c1 <= c <= c2) /\
  NoDup cells /\ StronglySorted before cells.

(** the cells an entry of a header parameter stands for *)
Inductive entry_cells : list ascii -> list (Z * Z) -> Prop :=
| entry_cell t r c : cell_named t r c -> entry_cells t [(r, c)]
| entry_range x y sep r1 c1 r2 c2 cells :
    cell_named x r1 c1 -> cell_named y r2 c2 ->
    sep = "-"%char \/ sep = ":"%char ->
    rectangle r1 c1 r2 c2 cells -> entry_cells (x ++ sep :: y) cells.

(** names of a list of cells *)
Definition names_cells (ts : list (list ascii)) (cells : list (Z * Z)) : Prop :=
  Forall2 (fun t p => cell_named t (fst p) (snd p)) ts cells.

(** an unbroken left to right run of cells in one row *)
Definition row_run (cells : list (Z * Z)) : Prop :=
  exists r c n, cells = map (fun k => (r, c + Z.of_nat k)) (seq 0 n).
(** an unbroken top to bottom run of cells in one column *)
Definition column_run (cells : list (Z * Z)) : Prop :=
  exists r c n, cells = map (fun k => (r + Z.of_nat k, c)) (seq 0 n).

(** the usual way to write the name of a cell: capital letters and no leading
    zero in the row number *)
Definition canonical_name (t : list ascii) : Prop :=
  exists l d, t = l ++ d /\
    Forall (fun c => In c (txt "ABCDEFGHIJKLMNOPQRSTUVWXYZ")) l /\
    Forall (fun c => In c (txt "0123456789")) d /\
    hd_error d <> Some "0"%char.

(** one component of a composed range: from [cp_x] to [cp_y], standing for
    [cp_cells] *)
Record component := mkcomp { cp_x : list ascii; cp_y : list ascii; cp_cells : list (Z * Z) }.
Definition component_ok (k : component) : Prop :=
  exists r1 c1 r2 c2, cell_named (cp_x k) r1 c1 /\ cell_named (cp_y k) r2 c2 /\
    rectangle r1 c1 r2 c2 (cp_cells k).

(** texts separated by underscores *)
Fixpoint underscored (l : list (list ascii)) : list ascii :=
  match l with
  | [] => []
  | [t] => t
  | t :: l' => t ++ "_"%char :: underscored l'
  end.
(** "(x1_x2_..)-(y1_y2_..)", the parentheses being optional *)
Definition composed_range (parens : bool) (ks : list component) : list ascii :=
  if parens then
    "("%char :: underscored (map cp_x ks) ++ txt ")-(" ++ underscored (map cp_y ks) ++ [")"%char]
  else underscored (map cp_x ks) ++ "-"%char :: underscored (map cp_y ks).

(** a context entry standing for [cells] concerns the cell in row [r], column
    [c]: it lies at or below a horizontal run and under one of its cells, or at
    or right of a vertical run and beside one of its cells *)
Definition concerns_row (cells : list (Z * Z)) (r c : Z) : Prop :=
  exists row, (forall p, In p cells -> fst p = row) /\ row <= r /\ exists p, In p cells /\ snd p = c.
Definition concerns_column (cells : list (Z * Z)) (r c : Z) : Prop :=
  exists col, (forall p, In p cells -> snd p = col) /\ col <= c /\ exists p, In p cells /\ fst p = r.
Definition in_one_row (cells : list (Z * Z)) : Prop :=
  exists row, forall p, In p cells -> fst p = row.
Definition in_one_column (cells : list (Z * Z)) : Prop :=
  exists col, forall p, In p cells -> snd p = col.

(** number of letters of a column: A..Z, AA..ZZ, AAA..ZZZ *)
Definition letters_of_column (c : Z) : Z := if c <=? 26 then 1 else if c <=? 702 then 2 else 3.

(** the second cell shares the row or the column of the first *)
Definition no_diagonal_start (cells : list (Z * Z)) : Prop :=
  match cells with
  | a :: b :: _ => fst a = fst b \/ snd a = snd b
  | _ => True
  end.

(** i-th cell of a component *)
Definition comp_cell (i : nat) (t : list ascii) (k : component) : Prop :=
  exists p, nth_error (cp_cells k) i = Some p /\ cell_named t (fst p) (snd p).
