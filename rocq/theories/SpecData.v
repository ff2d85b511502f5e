(** What is expected of the values of a series (C30 - C33, C53). *)
From Verif Require Import Base SpecCal SpecCoord Coord Params ParseTime TimeIndex SpecTime.
Local Open Scope Z_scope.

(** *** Numbers written in cells *)

Definition digit (c : ascii) : Prop := (48 <= nat_of_ascii c <= 57)%nat.
(** digits, possibly separated by single underscores, and the digits alone *)
Inductive digits : text -> text -> Prop :=
| dg_one d : digit d -> digits [d] [d]
| dg_more d t ds : digit d -> digits t ds -> digits (d :: t) (d :: ds)
| dg_under d t ds : digit d -> digits t ds -> digits (d :: "_"%char :: t) (d :: ds).
Inductive digits0 : text -> text -> Prop :=
| d0_none : digits0 [] []
| d0_some t ds : digits t ds -> digits0 t ds.
(** the number a sequence of digits stands for *)
Inductive decimal : text -> Z -> Prop :=
| dc_nil : decimal [] 0
| dc_snoc t n d : decimal t n -> digit d -> decimal (t ++ [d]) (10 * n + (Z.of_nat (nat_of_ascii d) - 48)).
Inductive sign : text -> bool -> Prop :=
| sg_none : sign [] false
| sg_plus : sign ["+"%char] false
| sg_minus : sign ["-"%char] true.
Inductive exponent : text -> Z -> Prop :=
| ex_none : exponent [] 0
| ex_plus c s t ds n : In c ["e"%char; "E"%char] -> sign s false -> digits t ds -> decimal ds n -> exponent (c :: s ++ t) n
| ex_minus c s t ds n : In c ["e"%char; "E"%char] -> sign s true -> digits t ds -> decimal ds n -> exponent (c :: s ++ t) (- n).
(** digits, digits. , digits.digits or .digits: all the digits and how many of
    them are after the point *)
Inductive mantissa : text -> text -> Z -> Prop :=
| mt_int t ds : digits t ds -> mantissa t ds 0
| mt_point t ds u es : digits0 t ds -> digits0 u es -> ds ++ es <> [] ->
    mantissa (t ++ "."%char :: u) (ds ++ es) (Z.of_nat (List.length es)).
(** the texts that float() reads as a decimal number: (-1)^neg * m * 10^e *)
Inductive decimal_text : text -> bool -> Z -> Z -> Prop :=
| dt_intro a s m x b neg ds k n e : Forall white a -> Forall white b -> sign s neg -> mantissa m ds k -> exponent x e -> decimal ds n ->
    decimal_text (a ++ s ++ m ++ x ++ b) neg n (e - k).
(** a letter, in either case *)
Definition same_letter (c x : ascii) : Prop := c = x \/ (Z.of_nat (nat_of_ascii c) = Z.of_nat (nat_of_ascii x) - 32 /\ (97 <= nat_of_ascii x <= 122)%nat).
Definition spelled (s : string) (t : text) : Prop := Forall2 same_letter t (T s).
Inductive special_text : text -> spec_float -> Prop :=
| st_inf a s t b neg : Forall white a -> Forall white b -> sign s neg -> spelled "inf" t \/ spelled "infinity" t ->
    special_text (a ++ s ++ t ++ b) (S754_infinity neg)
| st_nan a s t b neg : Forall white a -> Forall white b -> sign s neg -> spelled "nan" t ->
    special_text (a ++ s ++ t ++ b) S754_nan.

(** the number in a cell: floats as they are, ints and decimal texts correctly
    rounded ([float_of_Z] and [float_of_dec], see C53), as float() reads them;
    an int too large for a float is not a number *)
Inductive cell_number : pyval -> spec_float -> Prop :=
| cn_float f : cell_number (VFloat f) f
| cn_int z : float_of_Z z <> S754_infinity (z <? 0) -> cell_number (VInt z) (float_of_Z z)
| cn_bool b : cell_number (VBool b) (float_of_Z (if b then 1 else 0))
| cn_text t neg m e : decimal_text t neg m e -> cell_number (VStr t) (float_of_dec neg m e)
| cn_special t f : special_text t f -> cell_number (VStr t) f.

(** *** The cells of a series *)

(** the cell of the series at a position: that row of the header's column, or
    that column of the header's row *)
Inductive series_cell (p : sp) (pos : Z) : Z -> Z -> Prop :=
| sc_column r c : sp_al p = Vert -> cell_named (sp_hc p) r c -> series_cell p pos pos c
| sc_row r c : sp_al p = Horiz -> cell_named (sp_hc p) r c -> series_cell p pos r pos.
Definition in_series (p : sp) (w : worksheet) (pos : Z) (v : pyval) : Prop :=
  exists r c, series_cell p pos r c /\ cell w r c = v.
(** all of them, from data_starts to data_ends, in order *)
Inductive cells_from (p : sp) (w : worksheet) (en : Z) : Z -> list pyval -> Prop :=
| cf_end a : en < a -> cells_from p w en a []
| cf_cell a v l : a <= en -> in_series p w a v -> cells_from p w en (a + 1) l -> cells_from p w en a (v :: l).
Definition own_cells (p : sp) (w : worksheet) (l : list pyval) : Prop :=
  exists en, sp_ends p = Some en /\ cells_from p w en (sp_starts p) l.
(** and the cells of the time index at the same places *)
Inductive dated_cells_from (p : sp) (w : worksheet) (en : Z) : Z -> list (pyval * pyval) -> Prop :=
| df_end a : en < a -> dated_cells_from p w en a []
| df_cell a v t l : a <= en -> in_series p w a v -> holds p w (a + sp_ta p) t -> dated_cells_from p w en (a + 1) l ->
    dated_cells_from p w en a ((v, t) :: l).

(** the marker of missing values; texts are compared without the blanks around
    them in continuous series *)
Inductive stripped : pyval -> pyval -> Prop :=
| sd_text a t b : Forall white a -> Forall white b -> (forall c r, t = c :: r -> ~ white c) -> (forall c r, t = r ++ [c] -> ~ white c) ->
    stripped (VStr (a ++ t ++ b)) (VStr t)
| sd_other v : (forall t, v <> VStr t) -> stripped v v.
Definition marker (p : sp) (v : pyval) : Prop :=
  exists ms m, sp_mv p = VList ms /\ In m ms /\ py_eq v m = true.

(** values of a continuous series *)
Inductive continuous_values (p : sp) : list pyval -> list spec_float -> Prop :=
| cv_end : continuous_values p [] []
| cv_blank l vs : sp_blank p = true -> continuous_values p l vs -> continuous_values p (VNone :: l) vs
| cv_marker v v' l vs : (sp_blank p = true -> v <> VNone) -> sp_missings p = true -> stripped v v' -> marker p v' ->
    continuous_values p l vs -> continuous_values p (v :: l) (S754_nan :: vs)
| cv_number v v' f l vs : (sp_blank p = true -> v <> VNone) -> stripped v v' -> (sp_missings p = true -> ~ marker p v') ->
    cell_number v f -> continuous_values p l vs -> continuous_values p (v :: l) (f :: vs).

(** values of a non continuous series: a text of blanks is as good as nothing *)
Inductive content : pyval -> pyval -> Prop :=
| co_white t : Forall white t -> content (VStr t) VNone
| co_other v : (forall t, v = VStr t -> ~ Forall white t) -> content v v.
Definition is_datetime (v : pyval) : Prop := exists d, v = VDate d.
(** what a cell is worth: NaN if it has the marker of missing values, a number
    if it has one *)
Inductive worth (p : sp) (v : pyval) : spec_float -> Prop :=
| wo_marker v' : sp_missings p = true -> content v v' -> marker p v' -> worth p v S754_nan
| wo_number f : (sp_missings p = true -> ~ marker p v) -> cell_number v f -> worth p v f.
Inductive loose_values (p : sp) : list (pyval * pyval) -> list spec_float -> Prop :=
| lv_end : loose_values p [] []
| lv_taken v t f l vs : is_datetime t -> worth p v f -> loose_values p l vs -> loose_values p ((v, t) :: l) (f :: vs)
| lv_left v t l vs : ~ is_datetime t \/ (forall f, ~ worth p v f) -> loose_values p l vs -> loose_values p ((v, t) :: l) vs.

(** *** The values of a series, of either kind *)
Inductive values_read (p : sp) (w : worksheet) : list spec_float -> Prop :=
| vr_continuous cells vs : sp_cont p = true -> own_cells p w cells -> continuous_values p cells vs -> values_read p w vs
| vr_loose en pairs vs : sp_cont p = false -> sp_ends p = Some en -> dated_cells_from p w en (sp_starts p) pairs ->
    loose_values p pairs vs -> values_read p w vs.
(** the markers of missing values are a list, as Parameters always makes them,
    and missing periods are not left out *)
Definition marker_list (p : sp) : Prop := sp_missings p = true -> exists ms, sp_mv p = VList ms.
Definition not_implicit (p : sp) : Prop := sp_missings p = true -> exists ms, sp_mv p = VList ms /\ ~ In (VStr (T "Implicit")) ms.
(** *** The name of a series *)

(** a parameter without a value *)
Inductive not_given : pyval -> Prop :=
| ng_none : not_given VNone
| ng_text : not_given (VStr [])
| ng_list : not_given (VList [])
| ng_dict : not_given (VDict [])
| ng_false : not_given (VBool false)
| ng_zero : not_given (VInt 0)
| ng_zero_float b : not_given (VFloat (S754_zero b)).
Inductive entries (v : pyval) : list pyval -> Prop :=
| en_list l : v = VList l -> entries v l
| en_none : not_given v -> entries v [].
(** the value of a cell as a text *)
Inductive written_as (e : env) : pyval -> text -> Prop :=
| wa_text t : written_as e (VStr t) t
| wa_int z : written_as e (VInt z) (Z_text z)
| wa_none : written_as e VNone (T "None")
| wa_true : written_as e (VBool true) (T "True")
| wa_false : written_as e (VBool false) (T "False")
| wa_float f : written_as e (VFloat f) (float_str e f)
| wa_date d : written_as e (VDate d) (date_str e d).
Inductive joined (sep : string) : list text -> text -> Prop :=
| jo_one t : joined sep [t] t
| jo_more t l u : joined sep l u -> joined sep (t :: l) (t ++ T sep ++ u).
Definition context_text (v : pyval) (t : text) : Prop := exists u, v = VStr u /\ stripped (VStr u) (VStr t).
Definition parent_text (w : worksheet) (v : pyval) (t : text) : Prop :=
  exists k r c u, v = VStr k /\ cell_named k r c /\ cell w r c = VStr u /\ stripped (VStr u) (VStr t).
Definition header_text (e : env) (w : worksheet) (p : sp) (t : text) : Prop :=
  exists r c u, cell_named (sp_hc p) r c /\ written_as e (cell w r c) u /\ stripped (VStr u) (VStr t).
(** the name given by the user, or "context - context - parent parent header"
    without the blanks around each of them *)
Inductive series_name (e : env) (w : worksheet) (p : sp) : text -> Prop :=
| sn_given n : sp_name p = VStr n -> n <> [] -> series_name e w p n
| sn_headers cs ks ps qs t h n : not_given (sp_name p) ->
    header_text e w p t -> entries (sp_comp p) cs -> Forall2 (parent_text w) cs ps -> joined " " (ps ++ [t]) h ->
    entries (sp_ctx p) ks -> Forall2 context_text ks qs -> joined " - " (qs ++ [h]) n -> series_name e w p n.
(** the cells of the series and of its index are in the sheet *)
Definition in_sheet (al : align) (pos : Z) : Prop := 1 <= pos /\ (al = Horiz -> pos <= 18278).
Definition series_in_sheet (p : sp) : Prop := (exists r c, cell_named (sp_hc p) r c) /\
  forall en q, sp_ends p = Some en -> sp_starts p <= q <= en -> in_sheet (sp_al p) q.
Definition index_in_sheet (p : sp) : Prop :=
  (exists t r c, (sp_th p = ThStr t /\ sp_multi p = false \/ exists ts, sp_th p = ThList (t :: ts) /\ sp_multi p = true) /\ cell_named t r c) /\
  forall en q, sp_ends p = Some en -> sp_starts p <= q <= en -> in_sheet (sp_al p) (q + sp_ta p).

(** *** Values of several frequencies *)

(** the letter of the k-th value, and the values of one letter *)
Definition cycle_letter (fr : text) (k : nat) : option ascii := nth_error fr (k mod List.length fr).
Fixpoint values_of (fr : text) (c : ascii) (k : nat) (vs : list spec_float) : list spec_float :=
  match vs with
  | [] => []
  | v :: vs' => match cycle_letter fr k with
                | Some d => if ascii_dec d c then v :: values_of fr c (S k) vs' else values_of fr c (S k) vs'
                | None => values_of fr c (S k) vs'
                end
  end.
(** the distinct letters of the first values, in order of appearance *)
Inductive letters_of (fr : text) : nat -> list ascii -> Prop :=
| lo_none : letters_of fr 0 []
| lo_old n cs c : letters_of fr n cs -> cycle_letter fr n = Some c -> In c cs -> letters_of fr (S n) cs
| lo_new n cs c : letters_of fr n cs -> cycle_letter fr n = Some c -> ~ In c cs -> letters_of fr (S n) (cs ++ [c]).

(** *** Implicit missings *)

(** the time a cell of the index stands for: its date, or what arrow makes of
    another value *)
Inductive time_in (e : env) : pyval -> datetime -> Prop :=
| tn_date d : time_in e (VDate d) d
| tn_other v d : (forall d', v <> VDate d') -> arrow_of e v = Ok d -> time_in e v d.
(** observations at the periods [ks] of a grid, NaN at all the others *)
Definition placed (ks : list nat) (vals full : list spec_float) : Prop :=
  List.length full = S (List.last ks 0%nat) /\
  (forall i k v, nth_error ks i = Some k -> nth_error vals i = Some v -> nth_error full k = Some v) /\
  (forall k, (k < List.length full)%nat -> ~ In k ks -> nth_error full k = Some S754_nan).

(** *** Numbers stored as text *)

(** the decimal text of an integer, as float() reads it; "-0" is another number *)
Definition int_text (t : text) (z : Z) : Prop :=
  exists neg m, decimal_text t neg m 0 /\ z = (if neg then - m else m) /\ (neg = true -> m <> 0).
(** the same cell, or an int and its text (that is not a marker) *)
Inductive retyped (p : sp) : pyval -> pyval -> Prop :=
| rt_same v : retyped p v v
| rt_text z t : int_text t z -> float_of_Z z <> S754_infinity (z <? 0) ->
    (sp_missings p = true -> ~ marker p (VInt z) /\ ~ marker p (VStr t) /\ forall v, stripped (VStr t) v -> ~ marker p v) ->
    retyped p (VInt z) (VStr t).
(** the cells the name of the series is made of *)
Definition header_cell (p : sp) (r c : Z) : Prop := cell_named (sp_hc p) r c \/
  exists cs t, sp_comp p = VList cs /\ In (VStr t) cs /\ cell_named t r c.
(** [w'] is [w] with some ints of the series stored as text *)
Definition text_stored (p : sp) (w w' : worksheet) : Prop :=
  (forall en q r c, sp_ends p = Some en -> sp_starts p <= q <= en -> series_cell p q r c -> retyped p (cell w r c) (cell w' r c)) /\
  (forall r c, header_cell p r c -> cell w r c = cell w' r c) /\
  (forall q v, holds p w q v <-> holds p w' q v).
