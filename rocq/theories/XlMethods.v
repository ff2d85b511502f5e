(** utils/xl_methods.py *)
From Verif Require Import Base Coord Comparing.
Local Open Scope Z_scope.

(** utils/xl_methods.py:20-45 common_row_or_column *)
Definition common_row_or_column (coords : list text) : res Z :=
  do _ <- assert_ (Nat.leb 2 (List.length coords));
  do ps <- mapM parse_coord coords;
  match ps with
  | (row, col) :: _ =>
      if forallb (fun p => fst p =? row) ps then Ok row
      else if forallb (fun p => snd p =? col) ps then Ok col
      else Err EOther
  | [] => Err EAssert
  end.

(** Python's lexicographic [<=] on texts; cell.column is a text of letters in
    openpyxl 2.5 *)
Fixpoint text_leb (a b : text) : bool :=
  match a, b with
  | [], _ => true
  | _ :: _, [] => false
  | x :: a', y :: b' =>
      (code x <? code y) || ((code x =? code y) && text_leb a' b')
  end.

(** utils/xl_methods.py:48-81 coord_in_scope *)
Definition coord_in_scope (coord : text) (coords : list text) : res bool :=
  do _ <- assert_ (Nat.leb 2 (List.length coords));
  do ps <- mapM parse_coord coords;
  match ps with
  | (row, col) :: _ =>
      if forallb (fun p => fst p =? row) ps then
        do rc <- parse_coord coord;
        Ok ((row <=? fst rc) && existsb (fun p => snd p =? snd rc) ps)
      else if forallb (fun p => snd p =? col) ps then
        do rc <- parse_coord coord;
        Ok (text_leb (col_letters col) (col_letters (snd rc))
            && existsb (fun p => fst p =? fst rc) ps)
      else Err EOther
  | [] => Err EAssert
  end.

(** utils/xl_methods.py:84-143 consecutive_cells; [al] is the local variable
    alignment: None, Some true = "vertical", Some false = "horizontal".  The
    first cell always takes the first branch, and only it does, because rows
    and columns start at 1. *)
Fixpoint consecutive_from (row col : Z) (al : option bool) (cells : list text)
    : res bool :=
  match cells with
  | [] => Ok true
  | x :: cells' =>
      do rc <- parse_coord x;
      let r := fst rc in
      let c := snd rc in
      match al with
      | None =>
          if r =? row then
            if col + 1 =? c then consecutive_from row (col + 1) (Some true) cells'
            else Ok false
          else if c =? col then
            if row + 1 =? r then consecutive_from (row + 1) col (Some false) cells'
            else Ok false
          else consecutive_from row col None cells'
      | Some true =>
          if negb (r =? row) then Ok false
          else if negb (col + 1 =? c) then Ok false
          else consecutive_from row (col + 1) al cells'
      | Some false =>
          if negb (c =? col) then Ok false
          else if negb (row + 1 =? r) then Ok false
          else consecutive_from (row + 1) col al cells'
      end
  end.
Definition consecutive_cells (cells : list text) : res bool :=
  match cells with
  | [] => Ok true
  | x :: cells' =>
      do rc <- parse_coord x; consecutive_from (fst rc) (snd rc) None cells'
  end.

(** utils/xl_methods.py:232-258 xl_coordinates_range.  Simplification: ranges
    of whole rows or columns ("A:C", "1:3") raise here; openpyxl expands them
    over the (empty) scratch sheet. *)
Definition rect_coords (r1 c1 r2 c2 : Z) : list text :=
  flat_map (fun r => map (fun c => coord_text r c) (zrange c1 c2)) (zrange r1 r2).
Definition xl_coordinates_range (start en : text) : res (list text) :=
  match en with
  | [] => Ok [start]
  | _ =>
      do a <- parse_coord start;
      do b <- parse_coord en;
      Ok (rect_coords (fst a) (snd a) (fst b) (snd b))
  end.

(** utils/xl_methods.py:208-229 make_ws_copy: every cell of ws.rows is copied *)
Definition make_ws_copy (w : worksheet) : worksheet :=
  mkws (fun r c => if (1 <=? r) && (r <=? max_row w) && (1 <=? c) && (c <=? max_col w)
                   then cell w r c else VNone)
       (max_row w) (max_col w) (title w).

(** A workbook: its worksheets in order. *)
Definition workbook := list worksheet.

(** utils/xl_methods.py:183-205 make_wb_copy *)
Definition make_wb_copy (wb : workbook) : workbook := map make_ws_copy wb.

(** utils/xl_methods.py:298-311 normalize_value (time zones are not modelled) *)
Definition normalize_value (v : pyval) : pyval :=
  match v with
  | VStr t => VStr (strip t)
  | VNone => VStr []
  | _ => v
  end.

(** utils/xl_methods.py:314-323 normalize_time_value: drops the time zone *)
Definition normalize_time_value (v : pyval) : pyval := v.

(** utils/xl_methods.py:277-293, the body of the double loop *)
Definition compare_cell_values (v1 v2 : pyval) : res unit :=
  let '(x1, x2) :=
    match py_float v1, py_float v2 with
    | Ok f1, Ok f2 => (VFloat f1, VFloat f2)
    | _, _ => (normalize_value v1, normalize_value v2)
    end in
  match x1, x2 with
  | VFloat _, VFloat _ =>
      do b <- approx_equal v1 v2 tol_1e5; assert_ b
  | _, _ => assert_ (py_eq x1 x2)
  end.

(** utils/xl_methods.py:270-295 compare_cells_ws (zip truncates both ways) *)
Definition compare_cells_ws (w1 w2 : worksheet) : res bool :=
  do _ <- mapM (fun r =>
            mapM (fun c => compare_cell_values (cell w1 r c) (cell w2 r c))
                 (zrange 1 (Z.min (max_col w1) (max_col w2))))
          (zrange 1 (Z.min (max_row w1) (max_row w2)));
  Ok true.

(** utils/xl_methods.py:261-267 compare_cells *)
Fixpoint compare_cells (wb1 wb2 : workbook) : res bool :=
  match wb1, wb2 with
  | w1 :: wb1', w2 :: wb2' => do _ <- compare_cells_ws w1 w2; compare_cells wb1' wb2'
  | _, _ => Ok true
  end.
