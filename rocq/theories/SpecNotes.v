(** What is expected of a note right below the last date of a time index (C65). *)
From Verif Require Import Base SpecCal SpecCoord Coord Params ParseTime TimeIndex SpecTime SpecData SpecParse SpecColumns.
Local Open Scope Z_scope.

(** *** Texts that are no date *)

(** the first word of the text (at most 50 letters long) is not the name of a
    month in any language, or too short to be one *)
Inductive no_month (e : env) : text -> Prop :=
| nm word rest : Forall letter word -> (List.length word <= 50)%nat -> ~ begins letter rest ->
    ((List.length word < 3)%nat \/ month_lookup e (capitalize word) = None) -> no_month e (word ++ rest).
Definition begins_with_word (t : text) : Prop :=
  exists a b c r, t = a :: b :: c :: r /\ letter a /\ letter b /\ letter c.
(** below quarters (semesters): a text that begins with a letter and has no
    digits, parentheses, "I" or "V"; below months and years: a text without
    digits and, below months, without a month at its beginning *)
Inductive note_text (e : env) : string -> text -> Prop :=
| nt_quarters t : begins letter t -> filler t -> note_text e "Q" t
| nt_semesters t : begins letter t -> filler t -> note_text e "S" t
| nt_months t : t <> [] -> no_digit t -> no_month e t -> note_text e "M" t
| nt_years t : t <> [] -> no_digit t -> note_text e "A" t.
(** the blanks around it do not matter *)
Definition note_cell (e : env) (f : string) (v : pyval) : Prop := exists t u, v = VStr t /\ trimmed t u /\ note_text e f u.
(** below dates stored as such: a text without digits that begins with a word
    of three letters or more, not a month *)
Definition note_below_dates (e : env) (v : pyval) : Prop :=
  exists t u, v = VStr t /\ trimmed t u /\ no_digit u /\ begins_with_word u /\ no_month e u.

(** *** Indexes in a column that end at [m], with something right below *)
Definition column_above (p : sp) (w : worksheet) (f : string) (m : Z) : Prop :=
  sp_al p = Vert /\ sp_ends p = None /\ sp_freq p = T f /\ 1 <= sp_starts p <= m /\ m < max_row w /\ sp_starts p < m - sp_ta p.
Definition one_column (p : sp) : Prop := one_line p /\ exists t r c, sp_th p = ThStr t /\ cell_named t r c.
Definition many_columns (p : sp) : Prop :=
  sp_multi p = true /\ exists h hs, sp_th p = ThList (h :: hs) /\ Forall (fun t => exists r c, cell_named t r c) (h :: hs).
(** one of the styles of composed texts, for a frequency *)
Inductive composed_style (e : env) : string -> (pyval -> option datetime -> datetime -> Prop) -> Prop :=
| cs_quarters st : composed_style e "Q" (quarter_cell st)
| cs_months st : composed_style e "M" (month_cell e st)
| cs_years st : composed_style e "A" (fun v _ d => year_cell st v d)
| cs_semesters : composed_style e "S" semester_cell.
