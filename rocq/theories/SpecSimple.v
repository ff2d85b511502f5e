(** What a text with a day, a month and a year may denote (C45). *)
From Verif Require Import Base Coord Params SpecCal SpecCoord SpecTime SpecData SpecParse Cal ParseTime TimeIndex.
Local Open Scope Z_scope.

(** *** The three parts; one left empty counts as 1 *)

Inductive day_part : text -> Z -> Prop :=
| dp_empty : day_part [] 1
| dp_number t n : (1 <= List.length t <= 2)%nat -> decimal t n -> day_part t n.
(** a number, or letters that arrow reads as a month (an English name, possibly
    with something after it, and when it is the first part of the text with
    something before it) *)
Inductive month_part (e : env) (first : bool) : text -> Z -> Prop :=
| mp_empty : month_part e first [] 1
| mp_number t n : (1 <= List.length t <= 2)%nat -> decimal t n -> month_part e first t n
| mp_name t n : (3 <= List.length t)%nat -> ~ Forall digit t -> arrow_month e first t = Some n -> month_part e first t n.
(** "Y" stands for no year at all and counts for nothing after a year; of six
    digits the last two are the year *)
Inductive year_part : text -> Z -> Prop :=
| yp_empty : year_part [] 1
| yp_letter t : upper t = T "Y" -> year_part t 1
| yp_two t y : year2 t y -> year_part t y
| yp_four t y : List.length t = 4%nat -> decimal t y -> year_part t y
| yp_five t c y : List.length t = 4%nat -> decimal t y -> upper [c] = T "Y" -> year_part (t ++ [c]) y
| yp_six t u y : List.length t = 4%nat -> Forall digit t -> year2 u y -> year_part (t ++ u) y.

Definition separates (c : ascii) : Prop := among "-./" c.
Definition unseparated (t : text) : Prop := Forall (fun c => ~ separates c) t.
(** the parts of a text and the orders they may be in *)
Inductive parts : text -> text -> text -> text -> Prop :=
| parts_of a s b s' c : unseparated a -> separates s -> unseparated b -> separates s' -> unseparated c ->
    parts (a ++ s :: b ++ s' :: c) a b c.
Inductive ordered (e : env) (a b c : text) : datetime -> Prop :=
| od_dmy d m y : day_part a d -> month_part e false b m -> year_part c y -> ordered e a b c (mkdt y m d 0)
| od_mdy d m y : month_part e true a m -> day_part b d -> year_part c y -> ordered e a b c (mkdt y m d 0)
| od_ymd d m y : year_part a y -> month_part e false b m -> day_part c d -> ordered e a b c (mkdt y m d 0).
(** one of the dates of the calendar a text may denote *)
Definition denotes (e : env) (u : text) (d : datetime) : Prop := exists a b c, parts u a b c /\ ordered e a b c d /\ real_date d.
Definition may_denote (e : env) (t : text) (d : datetime) : Prop := exists u, trimmed t u /\ denotes e u d.

(** *** The neighbours *)

(** [n] periods after; at most 20 periods after *)
Inductive periods_after (f : string) (n : nat) (a b : datetime) : Prop :=
| pa_days k : period_days f = Some k -> days_after (n * k) a b -> periods_after f n a b
| pa_months k : period_months f = Some k -> months_after (Z.of_nat n * k) a b -> periods_after f n a b.
Definition soon_after (f : string) (a b : datetime) : Prop :=
  earlier a b /\ exists m, periods_after f 20 a m /\ ~ earlier m b.
(** cells with nothing to compare with (cells hold no lists or dictionaries, but
    the type of values has them) *)
Definition nothing (v : pyval) : Prop :=
  In v [VNone; VStr []; VInt 0; VBool false; VFloat (S754_zero true); VFloat (S754_zero false); VList []; VDict []].
(** what the cell after may be read as: a date, or one of the dates a text (or
    the text of a number with decimals) may denote *)
Inductive next_date (e : env) : pyval -> datetime -> Prop :=
| nx_date d : next_date e (VDate d) d
| nx_text t d : may_denote e t d -> next_date e (VStr t) d
| nx_float f d : denotes e (float_str e f) d -> next_date e (VFloat f) d.

(** *** Dates written without ambiguity for this program: day, month, year; or a
    four digit year, month, day *)
Inductive written (e : env) : pyval -> datetime -> Prop :=
| wr_dmy t u a b c d m y : trimmed t u -> parts u a b c -> day_part a d -> month_part e false b m -> year_part c y ->
    real_date (mkdt y m d 0) -> written e (VStr t) (mkdt y m d 0)
| wr_ymd t u a b c d m y : trimmed t u -> parts u a b c -> year4 a y -> month_part e false b m -> day_part c d ->
    real_date (mkdt y m d 0) -> written e (VStr t) (mkdt y m d 0).
(** dates in order, one period after the other, or at most 20 periods apart when
    missings are declared *)
Definition near_sequence (p : sp) (f : string) (d : Z -> datetime) (last : Z) : Prop :=
  (forall q, sp_starts p <= q <= last -> dt_y (d q) < 9979) /\
  (sp_missings p = true /\ explicit_marker p /\ (forall q, sp_starts p < q <= last -> soon_after f (d (q - 1)) (d q)) \/
   sp_missings p = false /\ (forall q, sp_starts p < q <= last -> one_period f (d (q - 1)) (d q))).

(** *** Two digit years *)
Definition full_year (v : Z) : Z := if v <=? 68 then 2000 + v else 1900 + v.
