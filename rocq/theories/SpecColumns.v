(** What is expected of a time index in several columns or rows (C64). *)
From Verif Require Import Base SpecCal SpecCoord Coord Params ParseTime TimeIndex SpecTime SpecData SpecParse.
Local Open Scope Z_scope.

(** what a cell adds to the date of its row: an empty one nothing, a text with
    words in it itself, a whole number (or a text with just its digits) its
    digits *)
Definition word_char (c : ascii) : Prop := ~ white c /\ ~ among "0123456789+-_" c.
Inductive piece : pyval -> list text -> Prop :=
| pc_none : piece VNone []
| pc_empty : piece (VStr []) []
| pc_white t : t <> [] -> Forall white t -> piece (VStr t) [t]
| pc_words t c : In c t -> word_char c -> t <> T "None" -> piece (VStr t) [t]
| pc_number z c u : decimal (c :: u) z -> c <> "0"%char -> piece (VInt z) [c :: u]
| pc_digits a b z c u : Forall white a -> Forall white b -> decimal (c :: u) z -> c <> "0"%char -> piece (VStr (a ++ (c :: u) ++ b)) [c :: u].

(** the pieces one after the other, with a blank between them *)
Inductive joined : list text -> text -> Prop :=
| jn_none : joined [] []
| jn_one t : joined [t] t
| jn_more t ts u : ts <> [] -> joined ts u -> joined (t :: ts) (t ++ T " " ++ u).
Inductive said (ts : list text) : pyval -> Prop :=
| sd_text t c : joined ts t -> In c t -> ~ white c -> said ts (VStr t)
| sd_nothing t : joined ts t -> Forall white t -> said ts VNone.

(** the cell at a position of the line of a header *)
Inductive line_cell (p : sp) (w : worksheet) (pos : Z) (h : text) : pyval -> Prop :=
| lc_column r c : sp_al p = Vert -> cell_named h r c -> line_cell p w pos h (cell w pos c)
| lc_row r c : sp_al p = Horiz -> cell_named h r c -> line_cell p w pos h (cell w r pos).
(** what the lines of the index say at a position *)
Definition lines_say (p : sp) (w : worksheet) (pos : Z) (v : pyval) : Prop :=
  exists hs vs tss, sp_th p = ThList hs /\ Forall2 (line_cell p w pos) hs vs /\ Forall2 piece vs tss /\ said (List.concat tss) v.
(** there is no date at a position of the lines *)
Inductive plain_cell : pyval -> Prop :=
| pl_none : plain_cell VNone
| pl_bool b : plain_cell (VBool b)
| pl_int z : plain_cell (VInt z)
| pl_float f : plain_cell (VFloat f)
| pl_text t : plain_cell (VStr t).
Definition no_dates_at (p : sp) (w : worksheet) (pos : Z) : Prop :=
  forall hs h v, sp_th p = ThList hs -> In h hs -> line_cell p w pos h v -> plain_cell v.

(** an index in several columns (rows) that ends at position [m]: with the sheet
    or the data_ends, or, in columns, before blanks *)
Definition columns_end (p : sp) (w : worksheet) (m : Z) : Prop :=
  exists last, last_one p w last /\
    (m = last /\ no_dates_at p w (m + 1) \/
     sp_al p = Vert /\ m < last /\
     (lines_say p w (m + 1) VNone /\ no_dates_at p w (m + 2) /\ ~ tolerates_blanks p \/
      (forall q, m < q <= last -> lines_say p w q VNone) /\ no_dates_at p w (last + 1))).
Definition columns_index (p : sp) (w : worksheet) (f : string) (m : Z) : Prop :=
  sp_multi p = true /\ (exists h hs, sp_th p = ThList (h :: hs) /\ Forall (fun t => exists r c, cell_named t r c) (h :: hs)) /\
  sp_freq p = T f /\ columns_end p w m /\ within_sheet p (sp_starts p) m /\ sp_starts p <= m /\ sp_starts p < m - sp_ta p.

(** the ways of writing quarters, months and years (C40 - C42) *)
Inductive style := StQuarter (s : quarter_style) | StMonth (s : month_style) | StYear (s : year_style).
Definition style_letter (st : style) : string := match st with StQuarter _ => "Q" | StMonth _ => "M" | StYear _ => "A" end.
Definition style_cell (e : env) (st : style) (v : pyval) (last : option datetime) (d : datetime) : Prop :=
  match st with
  | StQuarter s => quarter_cell s v last d
  | StMonth s => month_cell e s v last d
  | StYear s => year_cell s v d
  end.
