(** Cell coordinates and worksheets as openpyxl 2.5.0 presents them. *)
From Verif Require Import Base.
Local Open Scope Z_scope.

(** openpyxl.utils.get_column_letter: bijective base 26, columns 1..18278 *)
Definition letter_of (k : Z) : ascii := ascii_of_N (Z.to_N (64 + k)).
Fixpoint col_letters_aux (fuel : nat) (c : Z) (acc : text) : text :=
  match fuel with
  | O => acc
  | S k =>
      if c <=? 0 then acc
      else
        let r := (c - 1) mod 26 + 1 in
        col_letters_aux k ((c - r) / 26) (letter_of r :: acc)
  end.
Definition max_column : Z := 18278.
Definition col_letters (c : Z) : text := col_letters_aux 3 c [].
Definition get_column_letter (c : Z) : res text :=
  if (1 <=? c) && (c <=? max_column) then Ok (col_letters c) else Err EValue.

(** openpyxl.utils.column_index_from_string: 1 to 3 letters, any case *)
Definition letters_val (t : text) : Z :=
  fold_left (fun acc c => acc * 26 + (code (up_ch c) - 64)) t 0.
Definition column_index_from_string (t : text) : res Z :=
  let n := List.length t in
  if (Nat.leb 1 n) && (Nat.leb n 3) && forallb is_letter t then Ok (letters_val t)
  else Err EValue.

(** ws[coord] for a single cell: (row, column).  Simplification: absolute
    references ("$A$1") are not modelled; texts naming a whole row, a whole
    column or row 0 give a tuple in openpyxl, whose use as a cell raises
    AttributeError, and so do they here. *)
Definition parse_coord (t : text) : res (Z * Z) :=
  let l := take_while is_letter t in
  let d := drop_while is_letter t in
  if (Nat.leb (List.length l) 3) && forallb is_digit d then
    if (Nat.eqb (List.length l) 0) || (Nat.eqb (List.length d) 0) then Err EAttr
    else if digits_val d =? 0 then Err EAttr
    else Ok (digits_val d, letters_val l)
  else Err EValue.

(** cell.coordinate *)
Definition coord_text (row col : Z) : text := col_letters col ++ Z_text row.

(** A worksheet: cell values by (row, column), the largest row and column that
    have a cell object, and the title.  Reading a cell through ws[...] or
    ws.cell(...) creates it, hence may enlarge the extent ([touch]). *)
Record worksheet := mkws {
  cell : Z -> Z -> pyval;
  max_row : Z;
  max_col : Z;
  title : text
}.

Definition touch (r c : Z) (w : worksheet) : worksheet :=
  mkws (cell w) (Z.max (max_row w) r) (Z.max (max_col w) c) (title w).

Definition write (r c : Z) (v : pyval) (w : worksheet) : worksheet :=
  mkws (fun r' c' => if (r' =? r) && (c' =? c) then v else cell w r' c')
       (Z.max (max_row w) r) (Z.max (max_col w) c) (title w).

(** positions a cell object can have *)
Definition cell_ok (r c : Z) : bool := (1 <=? r) && (1 <=? c) && (c <=? max_column).

(** value of ws.cell(row=r, column=c): ValueError for r or c < 1 *)
Definition read (w : worksheet) (r c : Z) : res pyval :=
  if cell_ok r c then Ok (cell w r c) else Err EValue.

(** ws[coord].value *)
Definition read_coord (w : worksheet) (t : text) : res pyval :=
  do rc <- parse_coord t; read w (fst rc) (snd rc).
