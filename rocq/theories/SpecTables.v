(** What is expected of a call on a sheet with several tables, each with its own
    time header, rows and frequency, and with dates that are not beside the
    values (C72, C73). *)
From Verif Require Import Base Cal SpecCal SpecCoord SpecParams Coord XlMethods Params ParseTime TimeIndex PeriodRange DataFrame Scrape Xlseries
  SpecTime SpecData SpecFrames SpecScrape SpecParse SpecEnd SpecGaps.
Local Open Scope Z_scope.

(** a series: its name, its frequency, the dates and the values it should have,
    and where its data end when the parameters do not say *)
Record table := mktable { tb_name : text; tb_freq : string; tb_dates : list datetime; tb_values : list spec_float; tb_reach : Z }.

(** ** The index *)

(** it ends at [m] whatever cells are added to the sheet: data_ends says so, or,
    in a column, a blank (only blanks, when blanks are skipped) follows *)
Inductive settled (s : sp) (w : worksheet) (m : Z) : Prop :=
| se_given last : sp_ends s = Some last ->
    m = last \/ sp_al s = Vert /\ m < last /\ (forall q, m < q <= last -> blank_at s w q) -> settled s w m
| se_blank : sp_ends s = None -> sp_al s = Vert -> m <= max_row w -> blank_at s w (m + 1) -> ~ tolerates_blanks s -> settled s w m
| se_blanks : sp_ends s = None -> sp_al s = Vert -> m <= max_row w -> (forall q, m < q -> blank_at s w q) -> settled s w m.

(** dates in order from the first row of the data to [m], with no more blanks
    than allowed *)
Record orderly (s : sp) (w : worksheet) (f : string) (m : Z) : Prop := {
  or_line : one_line s /\ exists t r c, sp_th s = ThStr t /\ cell_named t r c;
  or_simple : sp_composed s = false;
  or_inside : within_sheet s (sp_starts s) m;
  or_last : holds_date s w m;
  or_runs : short_runs s w (sp_starts s) m;
  or_dated : dated s w (sp_starts s) m;
  or_typos : no_typos s f w (sp_starts s) m;
  or_years : before_9999 s w (sp_starts s) m;
  or_some : sp_starts s <= m /\ sp_starts s < m - sp_ta s;
  or_settled : settled s w m
}.

(** ** The values *)

(** what is in the column (row) of the header, from the first row of the data on *)
Definition down (s : sp) (w : worksheet) (l : list pyval) : Prop :=
  exists r c, cell_named (sp_hc s) r c /\ forall k v, nth_error l k = Some v -> along (sp_al s) w (line_of (sp_al s) (r, c)) (sp_starts s + Z.of_nat k) = v.

Inductive readings (s : sp) (w : worksheet) (en : Z) (ds : list datetime) : list spec_float -> Prop :=
(** a value for every date, which is [time_alignment] rows away; the rows
    without a date have nothing, or anything when the series is not continuous *)
| vo_rows rows l ms vs : en = sp_starts s + Z.of_nat (List.length rows) - 1 -> sp_mv s = VList ms ->
    (sp_missings s = true -> ~ In (VStr (T "Implicit")) ms) ->
    the_dates rows ds -> (exists x y, hd_error rows = Some (Some x) /\ List.last rows None = Some y) ->
    (forall k x, nth_error rows k = Some (Some x) -> holds s w (sp_starts s + sp_ta s + Z.of_nat k) (VDate x)) ->
    (forall k, nth_error rows k = Some None -> blank_at s w (sp_starts s + sp_ta s + Z.of_nat k)) ->
    (sp_cont s = true -> In None rows -> sp_blank s = true) ->
    down s w l -> beside (sp_cont s) (stands_for (sp_missings s) ms) rows l vs -> readings s w en ds vs
(** periods left out, and the dates beside the values *)
| vo_gaps xs l ms ys vs : en = sp_starts s + Z.of_nat (List.length xs) - 1 -> sp_mv s = VList ms ->
    sp_missings s = true -> In (VStr (T "Implicit")) ms -> sp_ta s = 0 ->
    (forall k x, nth_error xs k = Some x -> holds s w (sp_starts s + Z.of_nat k) (VDate x)) ->
    hd_error ds = hd_error xs -> down s w l -> Forall2 (stands_for true ms) l ys -> spread ds xs ys vs -> readings s w en ds vs.

Definition end_of (s : sp) (tb : table) : Z := match sp_ends s with Some z => z | None => tb_reach tb end.

Record in_table (e : env) (w : worksheet) (s : sp) (tb : table) : Prop := {
  it_frequency : periodic (tb_freq tb) /\ sp_freq s = T (tb_freq tb);
  it_index : exists m, orderly s w (tb_freq tb) m /\ tb_reach tb = m - sp_ta s;
  it_consecutive : consecutive (tb_freq tb) (tb_dates tb);
  it_start : exists x, hd_error (tb_dates tb) = Some x /\ period_start (tb_freq tb) x;
  it_years : Forall (fun x => real_date x /\ 1678 <= dt_y x <= 2261) (tb_dates tb);
  it_inside : sp_starts s < end_of s tb /\ 1 <= sp_starts s + sp_ta s /\ (sp_al s = Horiz -> end_of s tb < 18278 /\ end_of s tb + sp_ta s < 18278);
  it_name : series_name e w s (tb_name tb);
  it_values : readings s w (end_of s tb) (tb_dates tb) (tb_values tb)
}.

(** ** The parameters and the frames *)

(** an object with all the parameters of [n] series *)
Definition for_series (p : dict) (ss : list sp) : Prop :=
  ss <> [] /\ (forall k, In k PARAM_NAMES -> exists l, dgetN k p = VList l /\ List.length l = List.length ss) /\
  forall i s, nth_error ss i = Some s -> series_sp p i = Ok s.
(** series of the same time header without data_ends end where the first of
    them does *)
Definition end_together (ss : list sp) (tbs : list table) : Prop :=
  forall i j s s' tb tb', nth_error ss i = Some s -> nth_error tbs i = Some tb -> nth_error ss j = Some s' -> nth_error tbs j = Some tb' ->
  sp_th s = sp_th s' -> sp_ends s' = None -> tb_reach tb = tb_reach tb'.

(** the series one after the other: those with the dates of a frame are its
    next columns, the others start a new frame *)
Definition dates_of (pn : string) (tb : table) : prange := mkpr (T pn) (tb_dates tb).
Inductive collected : list table -> list df -> Prop :=
| cl_none : collected [] []
| cl_new tbs frs tb pn : collected tbs frs -> pandas_name (tb_freq tb) pn -> (forall d, In d frs -> df_index d <> dates_of pn tb) ->
    collected (tbs ++ [tb]) (frs ++ [mkdf (dates_of pn tb) [tb_name tb] [tb_values tb]])
| cl_more tbs l l' tb pn cols data col : collected tbs (l ++ mkdf (dates_of pn tb) cols data :: l') -> pandas_name (tb_freq tb) pn ->
    next_name cols (tb_name tb) col ->
    collected (tbs ++ [tb]) (l ++ mkdf (dates_of pn tb) (cols ++ [col]) (data ++ [tb_values tb]) :: l').
