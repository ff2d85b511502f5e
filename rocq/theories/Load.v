(** Opening files (xlseries.py:53-68, utils/xl_methods.py:146-180) and the
    loops that copy sheets (utils/xl_methods.py:183-229). *)
From Verif Require Import Base Coord Params XlMethods.
Local Open Scope Z_scope.

(** What xlrd 1.0.0 finds in a cell of an .xls file.  Dates are numbers whose
    format is that of a date. *)
Inductive xls_cell :=
| XEmpty
| XText (t : text)
| XNumber (f : spec_float)
| XDate (f : spec_float)
| XBool (b : bool)
| XError (z : Z).

(** a sheet of xlrd: name, nrows, ncols, cells by (row, col) from 0 *)
Record xls_sheet := mkxls { xs_name : text; xs_rows : nat; xs_cols : nat; xs_cell : nat -> nat -> xls_cell }.

(** sheet.cell_value(row, col) *)
Definition cell_value (c : xls_cell) : pyval :=
  match c with
  | XEmpty => VStr []
  | XText t => VStr t
  | XNumber f | XDate f => VFloat f
  | XBool b => VInt (if b then 1 else 0)
  | XError z => VInt z
  end.

(** openpyxl's check_string, on assigning to cell.value: texts are cut at 32767
    characters, control characters are refused (IllegalCharacterError) *)
Definition illegal_ch (c : ascii) : bool :=
  let k := code c in
  (k <=? 8) || ((11 <=? k) && (k <=? 12)) || ((14 <=? k) && (k <=? 31)).
Definition text_limit : nat := Z.to_nat 32767.
Definition bound_value (v : pyval) : res pyval :=
  match v with
  | VStr t => let t' := firstn text_limit t in if existsb illegal_ch t' then Err EOther else Ok (VStr t')
  | _ => Ok v
  end.

(** 165-170: [while nrows * ncols == 0].  The same numbers are read each time,
    so a sheet without cells is waited for without end: [None]. *)
Fixpoint wait_cells (fuel : nat) (nrows ncols : nat) (s : xls_sheet) : option (nat * nat) :=
  if Nat.eqb (nrows * ncols) 0 then
    match fuel with
    | O => None
    | S k => wait_cells k (xs_rows s) (xs_cols s) s
    end
  else Some (nrows, ncols).

(** wb.create_sheet(title): nothing in it (its title is taken as valid and
    new, as the names of the sheets of a file are) *)
Definition new_ws (t : text) : worksheet := mkws (fun _ _ => VNone) 1 1 t.

(** 174-177: the cells, row by row *)
Definition set_cell (s : xls_sheet) (w : worksheet) (rc : nat * nat) : res worksheet :=
  let '(row, col) := rc in
  let r := Z.of_nat row + 1 in
  let c := Z.of_nat col + 1 in
  if cell_ok r c then do v <- bound_value (cell_value (xs_cell s row col)); Ok (write r c v w)
  else Err EValue.
Definition cells_of (nrows ncols : nat) : list (nat * nat) :=
  flat_map (fun row => map (pair row) (seq 0 ncols)) (seq 0 nrows).

(** 146-180 open_xls_as_xlsx, [None] when it does not end within [fuel] rounds
    of the loop *)
Fixpoint open_sheets (fuel : nat) (sheets : list xls_sheet) (wb : workbook) : option (res workbook) :=
  match sheets with
  | [] => Some (Ok wb)
  | s :: sheets' =>
      match wait_cells fuel 0 0 s with
      | None => None
      | Some (nrows, ncols) =>
          match foldM (set_cell s) (cells_of nrows ncols) (new_ws (xs_name s)) with
          | Err x => Some (Err x)
          | Ok w => open_sheets fuel sheets' (wb ++ [w])
          end
      end
  end.
Definition open_xls_as_xlsx (fuel : nat) (xlrd : text -> res (list xls_sheet)) (path : text) : option (res workbook) :=
  if ends_with (T ".xls") path then
    match xlrd path with
    | Ok sheets => open_sheets fuel sheets []
    | Err x => Some (Err x)
    end
  else Some (Err EAssert).

(** xlseries.py:53-68 _load_wb; [xlsx] is openpyxl's load_workbook *)
Definition load_wb (fuel : nat) (xlsx : text -> res workbook) (xlrd : text -> res (list xls_sheet)) (path : text)
    : option (res workbook) :=
  if ends_with (T ".xlsx") path then Some (xlsx path)
  else if ends_with (T ".xls") path then open_xls_as_xlsx fuel xlrd path
  else Some (Err EValue).

(** utils/xl_methods.py:222-227, the loop of make_ws_copy over ws.rows; each
    cell of the copy is found by its coordinate *)
Definition copy_cell (w : worksheet) (w' : worksheet) (rc : nat * nat) : res worksheet :=
  let r := Z.of_nat (fst rc) + 1 in
  let c := Z.of_nat (snd rc) + 1 in
  do p <- parse_coord (coord_text r c);
  do v <- bound_value (cell w r c);
  Ok (write (fst p) (snd p) v w').
Definition copy_loop (w : worksheet) : res worksheet :=
  foldM (copy_cell w) (cells_of (Z.to_nat (max_row w)) (Z.to_nat (max_col w))) (new_ws (title w)).
