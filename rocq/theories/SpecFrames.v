(** What is expected of the frames handed back (C34 - C37). *)
From Verif Require Import Base Cal SpecCal Coord Params ParseTime TimeIndex GetData PeriodRange DataFrame Scrape SpecData.
From Coq Require Import Sorted.
Local Open Scope Z_scope.

(** the frames in a result *)
Inductive frame_of : dfs_t -> df -> Prop :=
| fo_one d : frame_of (DF d) d
| fo_list l x d : In x l -> frame_of x d -> frame_of (DL l) d.

(** one name per column, one value per date in every column *)
Definition rectangular (d : df) : Prop :=
  List.length (df_cols d) = List.length (df_data d) /\
  Forall (fun col => List.length col = List.length (pr_dates (df_index d))) (df_data d).

(** *** Column names *)

(** the i-th name made of a name *)
Definition numbered (n : text) (i : Z) : text := if i =? 1 then n else n ++ "."%char :: Z_text i.
(** the first one that is not taken *)
Definition next_name (taken : list text) (n col : text) : Prop :=
  exists i, 1 <= i /\ col = numbered n i /\ ~ In col taken /\ forall j, 1 <= j < i -> In (numbered n j) taken.
Inductive column_names : list text -> list text -> Prop :=
| cns_nil : column_names [] []
| cns_snoc ns n cols col : column_names ns cols -> next_name cols n col -> column_names (ns ++ [n]) (cols ++ [col]).
(** no name looks like a numbered one of another *)
Definition plain_names (ns : list text) : Prop :=
  forall a b i, In a ns -> In b ns -> 2 <= i -> a <> numbered b i.
Definition occurrences (n : text) (ns : list text) : nat := count_occ (list_eq_dec ascii_dec) ns n.

(** *** Frames and series *)

(** what a series contributes: for every frequency its period range, the name
    and the values *)
Definition piece : Type := prange * (text * list spec_float).
(** frequency, first and last date *)
Definition same_periods (a b : prange) : Prop :=
  pr_freq a = pr_freq b /\ hd_error (pr_dates a) = hd_error (pr_dates b) /\ hd_error (rev (pr_dates a)) = hd_error (rev (pr_dates b)).
(** looking at a cell may extend the sheet, nothing else *)
Definition same_cells (w w' : worksheet) : Prop :=
  (forall r c, cell w r c = cell w' r c) /\ max_row w <= max_row w' /\ max_col w <= max_col w'.
(** the coordinate of the time index of a series *)
Definition index_coord (s : sp) (t : text) : Prop :=
  (sp_th s = ThStr t) \/ (sp_multi s = true /\ exists ts, sp_th s = ThList (t :: ts)).
Definition contributes (e : env) (w : worksheet) (s : sp) (ps : list piece) : Prop :=
  exists w' t line en prs nvs, same_cells w w' /\ get_data e w s = Ok nvs /\
    index_coord s t /\ coord_line (sp_al s) t = Ok line /\ sp_ends s = Some en /\
    nvs <> [] /\ series_prs e w' (sp_freq s) (sp_starts s) line en (sp_ta s) (sp_al s) = Ok prs /\
    ps = combine prs nvs.

(** the pieces that belong with [pr], in order *)
Inductive belonging (pr : prange) : list piece -> list piece -> Prop :=
| be_nil : belonging pr [] []
| be_in p l l' : same_periods pr (fst p) -> belonging pr l l' -> belonging pr (p :: l) (p :: l')
| be_out p l l' : ~ same_periods pr (fst p) -> belonging pr l l' -> belonging pr (p :: l) l'.
(** a frame with the pieces of a period range.  Daily data with as many values
    as working days, and not as many as days, are dated with those *)
Definition working_days (pr b : prange) : Prop :=
  pr_freq pr = T "D" /\ List.length (pr_dates b) <> List.length (pr_dates pr) /\
  exists x y, hd_error (pr_dates pr) = Some x /\ hd_error (rev (pr_dates pr)) = Some y /\ b = business_range x y.
Definition frame_with (pr : prange) (ps : list piece) (d : df) : Prop :=
  (df_index d = pr \/ working_days pr (df_index d)) /\
  column_names (map (fun p => fst (snd p)) ps) (df_cols d) /\
  df_data d = map (fun p => snd (snd p)) ps.

(** every header contributes its pieces, in order, and every piece is in exactly
    one frame, together with those of the same periods and no others *)
Definition sorted_into (e : env) (w : worksheet) (p : dict) (dfs : list df) : Prop :=
  exists cs prs,
    py_len (dgetN n_headers_coord p) = Ok (List.length cs) /\
    (forall i ps, nth_error cs i = Some ps -> exists s, series_sp p i = Ok s /\ contributes e w s ps) /\
    Forall2 (fun pr d => exists ps, belonging pr (List.concat cs) ps /\ frame_with pr ps d) prs dfs /\
    (forall i j a b, nth_error prs i = Some a -> nth_error prs j = Some b -> same_periods a b -> i = j) /\
    (forall pc, In pc (List.concat cs) -> exists pr, In pr prs /\ same_periods pr (fst pc)).

(** *** Period starts *)

(** days of the week: 2 January 2000 was a Sunday *)
Definition sunday (d : datetime) : Prop :=
  exists k, days_after (7 * k) d (mkdt 2000 1 2 (dt_s d)) \/ days_after (7 * k) (mkdt 2000 1 2 (dt_s d)) d.
Definition saturday (d : datetime) : Prop := exists b, next_day d b /\ sunday b.
Definition working_day (d : datetime) : Prop := ~ saturday d /\ ~ sunday d.
(** the first dates of the periods of a frequency; weeks start on Sunday *)
Definition period_start (f : string) (d : datetime) : Prop :=
  match f with
  | "D" => True
  | "W" => sunday d
  | "M" => dt_d d = 1
  | "Q" => dt_d d = 1 /\ In (dt_m d) [1; 4; 7; 10]
  | "A" => dt_d d = 1 /\ dt_m d = 1
  | _ => False
  end%string.
Definition not_later (a b : datetime) : Prop := a = b \/ earlier a b.
(** the dates pandas can hold: from 1677-09-21 00:12:44 to 2262-04-11 23:47:16 *)
Definition timestamp (d : datetime) : Prop :=
  not_later (mkdt 1677 9 21 (12 * 60 + 44)) d /\ not_later d (mkdt 2262 4 11 (23 * 3600 + 47 * 60 + 16)).
Definition in_order (l : list datetime) : Prop := StronglySorted earlier l.
(** the dates of an index of frequency [f] from [s] to [en]: the period starts
    between them, at the time of day of [s].  Semesters are counted from the
    first month that starts between them *)
Definition month_start (s d : datetime) : Prop := real_date d /\ dt_d d = 1 /\ dt_s d = dt_s s /\ not_later s d.
Definition first_month (s d : datetime) : Prop := month_start s d /\ forall x, month_start s x -> not_later d x.
Definition index_date (f : string) (s en d : datetime) : Prop :=
  if string_dec f "S" then exists d0 k, first_month s d0 /\ 0 <= k /\ months_after (6 * k) d0 d /\ not_later d en
  else real_date d /\ period_start f d /\ dt_s d = dt_s s /\ not_later s d /\ not_later d en.
(** the names of the frequencies in pandas *)
Inductive pandas_name : string -> string -> Prop :=
| pn_d : pandas_name "D" "D"
| pn_w : pandas_name "W" "W-SUN"
| pn_m : pandas_name "M" "MS"
| pn_q : pandas_name "Q" "QS-JAN"
| pn_s : pandas_name "S" "6MS"
| pn_a : pandas_name "A" "AS-JAN".
Definition covers (f : string) (s en : datetime) (pr : prange) : Prop :=
  (exists n, pandas_name f n /\ pr_freq pr = T n) /\ in_order (pr_dates pr) /\ forall d, In d (pr_dates pr) <-> index_date f s en d.
(** the working days from [s] to [en]; when [en] is none, to the next one *)
Definition midnight (d : datetime) : datetime := mkdt (dt_y d) (dt_m d) (dt_d d) 0.
Definition office_day (d : datetime) : Prop := real_date d /\ dt_s d = 0 /\ working_day d.
Definition covers_working (s en : datetime) (pr : prange) : Prop :=
  pr_freq pr = T "B" /\ in_order (pr_dates pr) /\
  forall d, In d (pr_dates pr) <-> office_day d /\ not_later (midnight s) d /\
    forall x, office_day x -> not_later (midnight en) x -> not_later d x.

(** what pandas makes of other values is a date of the calendar *)
Definition real_stamps (e : env) : Prop := forall v d, timestamp_of e v = Ok d -> real_date d.
(** as many values as dates, or as working days for daily data *)
Definition fits (pc : piece) : Prop :=
  let n := List.length (snd (snd pc)) in
  n = List.length (pr_dates (fst pc)) \/ exists b, working_days (fst pc) b /\ n = List.length (pr_dates b).
(** a frame has the values in a column of that name, numbered if it is repeated *)
Definition in_frame (d : df) (n : text) (vs : list spec_float) : Prop :=
  exists k i, 1 <= i /\ nth_error (df_cols d) k = Some (numbered n i) /\ nth_error (df_data d) k = Some vs.
(** a name and values of the i-th series *)
Definition column_from (e : env) (w : worksheet) (p : dict) (i : nat) (c : text * list spec_float) : Prop :=
  exists s nvs, series_sp p i = Ok s /\ get_data e w s = Ok nvs /\ In c nvs.

(** *** Series of several frequencies *)

(** the positions take the letters of the frequency in turn *)
Definition position_letter (s : sp) (q : Z) : option ascii := cycle_letter (sp_freq s) (Z.to_nat (q - sp_starts s)).
Definition first_place (s : sp) (c : ascii) (q : Z) : Prop :=
  sp_starts s <= q /\ position_letter s q = Some c /\ forall q', sp_starts s <= q' < q -> position_letter s q' <> Some c.
Definition last_place (s : sp) (en : Z) (c : ascii) (q : Z) : Prop :=
  sp_starts s <= q <= en /\ position_letter s q = Some c /\ forall q', q < q' <= en -> position_letter s q' <> Some c.
(** in columns, a last cycle with all the letters; in rows, at least one cycle *)
Definition cycles_ok (s : sp) (en : Z) : Prop :=
  let n := Z.of_nat (List.length (sp_freq s)) in
  match sp_al s with
  | Vert => forall c, In c (sp_freq s) -> exists q, sp_starts s <= q <= en /\ (q - sp_starts s) / n = (en - sp_starts s) / n /\ position_letter s q = Some c
  | Horiz => n <= en - sp_starts s + 1
  end.
