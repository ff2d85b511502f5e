(** What is expected of opening files (C57). *)
From Verif Require Import Base Coord XlMethods Load SpecScrape.
Local Open Scope Z_scope.

(** how the contents of a cell are seen; a cell without contents shows an empty
    text and a date its number *)
Inductive shown : xls_cell -> pyval -> Prop :=
| sh_empty : shown XEmpty (VStr [])
| sh_text t : shown (XText t) (VStr t)
| sh_number f : shown (XNumber f) (VFloat f)
| sh_date f : shown (XDate f) (VFloat f)
| sh_true : shown (XBool true) (VInt 1)
| sh_false : shown (XBool false) (VInt 0)
| sh_error z : shown (XError z) (VInt z).

(** texts an Excel cell can hold: tab, line feed and carriage return are the
    only control characters *)
Definition printable (t : text) : Prop :=
  Z.of_nat (List.length t) <= 32767 /\ forall c, In c t -> 32 <= code c \/ code c = 9 \/ code c = 10 \/ code c = 13.
Definition usual_cell (x : xls_cell) : Prop := match x with XText t => printable t | _ => True end.
Definition usual_value (v : pyval) : Prop := match v with VStr t => printable t | _ => True end.

Definition has_cells (s : xls_sheet) : Prop := (1 <= xs_rows s)%nat /\ (1 <= xs_cols s)%nat.
Definition usual_sheet (s : xls_sheet) : Prop :=
  has_cells s /\ Z.of_nat (xs_cols s) <= 256 /\
  forall r c, (r < xs_rows s)%nat -> (c < xs_cols s)%nat -> usual_cell (xs_cell s r c).

(** the sheet [w] holds what [s] held, and no more *)
Definition kept_sheet (s : xls_sheet) (w : worksheet) : Prop :=
  title w = xs_name s /\ max_row w = Z.of_nat (xs_rows s) /\ max_col w = Z.of_nat (xs_cols s) /\
  (forall r c, (r < xs_rows s)%nat -> (c < xs_cols s)%nat ->
     shown (xs_cell s r c) (cell w (Z.of_nat r + 1) (Z.of_nat c + 1))) /\
  bounded w.
