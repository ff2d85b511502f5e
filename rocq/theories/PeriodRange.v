(** strategies/get/period_range.py: the dates a series runs over. *)
From Verif Require Import Base Cal Coord Params ParseTime TimeIndex.
Local Open Scope Z_scope.

(** a pandas DatetimeIndex or PeriodIndex: frequency and dates *)
Record prange := mkpr { pr_freq : text; pr_dates : list datetime }.

(** ** pandas.date_range, for the frequencies the code asks for *)

(** Timestamp.min / Timestamp.max at second resolution *)
Definition ts_in_bounds (d : datetime) : bool :=
  dt_leb (mkdt 1677 9 21 764) d && dt_leb d (mkdt 2262 4 11 85636).

(** an end of the range: pandas converts it to a Timestamp *)
Definition to_timestamp (e : env) (v : pyval) : res datetime :=
  match v with
  | VDate d => if ts_in_bounds d then Ok d else Err EValue
  | VNone => Err EValue
  | _ => timestamp_of e v
  end.

(** first day of the month [k] months after that of [d], same time of day *)
Definition month_begin (d : datetime) (k : Z) : datetime :=
  let total := dt_y d * 12 + (dt_m d - 1) + k in
  mkdt (total / 12) (total mod 12 + 1) 1 (dt_s d).

(** the next date that is a start of the period, [d] itself if it is one *)
Definition roll_month (d : datetime) : datetime :=
  if dt_d d =? 1 then d else month_begin d 1.
Definition roll_quarter (d : datetime) : datetime :=
  let k := (dt_m d - 1) mod 3 in
  if (dt_d d =? 1) && (k =? 0) then d else month_begin d (3 - k).
Definition roll_year (d : datetime) : datetime :=
  if (dt_d d =? 1) && (dt_m d =? 1) then d else month_begin d (13 - dt_m d).
Definition add_days (d : datetime) (n : Z) : datetime :=
  let '(y, m, dd) := ord2ymd (dt_ord d + n) in mkdt y m dd (dt_s d).
Definition roll_sunday (d : datetime) : datetime := add_days d ((6 - weekday d) mod 7).

(** while cur <= end: yield cur; cur = next(cur) *)
Fixpoint gen_dates (fuel : nat) (step : datetime -> datetime) (cur en : datetime) : list datetime :=
  match fuel with
  | O => []
  | S k => if dt_leb cur en then cur :: gen_dates k step (step cur) en else []
  end.

(** period_range.py:37-46 _convert_freq followed by pandas.date_range(start,
    end, freq).  The number of dates is at most the number of days.
    InvalidFrequency (a ValueError) for anything else. *)
Definition date_range (s en : datetime) (freq : text) : res prange :=
  let fuel := Z.to_nat (dt_ord en - dt_ord s + 1) in
  if text_eqb freq (T "D") then
    Ok (mkpr (T "D") (gen_dates fuel (fun d => add_days d 1) s en))
  else if text_eqb freq (T "W") then
    Ok (mkpr (T "W-SUN") (gen_dates fuel (fun d => add_days d 7) (roll_sunday s) en))
  else if text_eqb freq (T "M") then
    Ok (mkpr (T "MS") (gen_dates fuel (fun d => month_begin d 1) (roll_month s) en))
  else if text_eqb freq (T "Q") then
    Ok (mkpr (T "QS-JAN") (gen_dates fuel (fun d => month_begin d 3) (roll_quarter s) en))
  else if text_eqb freq (T "S") then
    Ok (mkpr (T "6MS") (gen_dates fuel (fun d => month_begin d 6) (roll_month s) en))
  else if text_eqb freq (T "A") then
    Ok (mkpr (T "AS-JAN") (gen_dates fuel (fun d => month_begin d 12) (roll_year s) en))
  else Err EValue.

Definition range_of (e : env) (s en : pyval) (freq : text) : res prange :=
  do a <- to_timestamp e s; do b <- to_timestamp e en; date_range a b freq.

(** pd.period_range(start, end, freq="B"): working days; an end on a weekend
    counts as the following Monday *)
Definition roll_business (d : datetime) : datetime :=
  let k := weekday d in if k <? 5 then d else add_days d (7 - k).
Definition business_range (s en : datetime) : prange :=
  let s' := roll_business (mkdt (dt_y s) (dt_m s) (dt_d s) 0) in
  let e' := roll_business (mkdt (dt_y en) (dt_m en) (dt_d en) 0) in
  mkpr (T "B") (filter (fun d => weekday d <? 5)
    (gen_dates (Z.to_nat (dt_ord e' - dt_ord s' + 1)) (fun d => add_days d 1) s' e')).

(** ** The two strategies *)

(** period_range.py:57-81 single frequency *)
Definition single_prs (e : env) (w : worksheet) (freq : text) (starts : Z) (line ends ta : Z)
    (al : align) : res (list prange) :=
  do s <- axis_read al w line (starts + ta);
  do en <- axis_read al w line (ends + ta);
  do r <- range_of e s en freq;
  Ok [r].

(** list(ws.rows)[a:b] (or columns): positions, then the cell of each one on
    the line of the time index; IndexError if the line is beyond the extent *)
Definition other_max (al : align) (w : worksheet) : Z :=
  match al with Vert => max_col w | Horiz => max_row w end.
Definition slice_cells (al : align) (w : worksheet) (line a b : Z) : res (list pyval) :=
  let ps := py_slice (zrange 1 (axis_max al w)) a b in
  match ps with
  | [] => Ok []
  | _ => if line <=? other_max al w then Ok (map (axis_val al w line) ps) else Err EIndex
  end.

(** for cell, f in zip(cells, freqs): keep the first true value of each f *)
Fixpoint keep_first (m : ascii -> pyval) (l : list (pyval * ascii)) : ascii -> pyval :=
  match l with
  | [] => m
  | (v, f) :: l' =>
      keep_first (if truthy (m f) then m
                  else fun c => if ch_eqb c f then v else m c) l'
  end.

(** distinct characters in order of first appearance (a dict over freq) *)
Fixpoint uniq (seen : text) (t : text) : text :=
  match t with
  | [] => []
  | c :: t' => if ch_in c seen then uniq seen t' else c :: uniq (seen ++ [c]) t'
  end.

(** period_range.py:93-160 multifrequency *)
Definition multi_prs (e : env) (w : worksheet) (freq : text) (ini line ends : Z)
    (al : align) : res (list prange) :=
  let n := Z.of_nat (List.length freq) in
  do sc <- slice_cells al w line (ini - 1) (ini + n - 1);
  let starts := keep_first (fun _ => VNone) (combine sc freq) in
  let fe0 := (ends - ini + 1) mod n in
  let fe := if fe0 =? 0 then n else fe0 in
  do endm <- match al with
             | Vert =>
                 do ec <- slice_cells al w line (ends - fe) ends;
                 Ok (keep_first (fun _ => VNone)
                       (combine (rev ec) (rev (firstn (Z.to_nat fe) freq))))
             | Horiz =>
                 do ec <- slice_cells al w line (ends - n) ends;
                 let lf := skipn (Z.to_nat (fe - 1)) freq ++ firstn (Z.to_nat fe) freq in
                 Ok (keep_first (fun _ => VNone) (combine (rev ec) (rev lf)))
             end;
  mapM (fun f => range_of e (starts f) (endm f) [f]) (uniq [] freq).

(** strategies.py:511-543 _get_series_prs *)
Definition series_prs (e : env) (w : worksheet) (freq : text) (starts line ends ta : Z)
    (al : align) : res (list prange) :=
  if accepts_freq true freq then multi_prs e w freq starts line ends al
  else if accepts_freq false freq then single_prs e w freq starts line ends ta al
  else Err EOther.
