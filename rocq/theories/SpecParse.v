(** What the texts of composed time indexes denote (C40 - C44). *)
From Verif Require Import Base Coord Params SpecCal SpecCoord SpecTime SpecData Cal ParseTime TimeIndex.
Local Open Scope Z_scope.

Definition among (s : string) (c : ascii) : Prop := In c (T s).
Definition no_digit (t : text) : Prop := Forall (fun c => ~ digit c) t.
Definition begins (P : ascii -> Prop) (t : text) : Prop := exists c r, t = c :: r /\ P c.

(** *** Pieces of the texts *)

(** a note: one to three digits between parentheses *)
Inductive note : text -> Prop :=
| note_of ds : (1 <= List.length ds <= 3)%nat -> Forall digit ds -> note ("("%char :: ds ++ [")"%char]).
(** a four digit year (there is no year 0), a two digit year *)
Inductive year4 : text -> Z -> Prop :=
| y4 t y : List.length t = 4%nat -> decimal t y -> 1 <= y -> year4 t y.
Inductive year2 : text -> Z -> Prop :=
| y2 t y : List.length t = 2%nat -> decimal t (y mod 100) -> 1969 <= y <= 2068 -> year2 t y.
Inductive roman : text -> Z -> Prop :=
| roman_1 : roman (T "I") 1 | roman_2 : roman (T "II") 2
| roman_3 : roman (T "III") 3 | roman_4 : roman (T "IV") 4.
Inductive number4 : text -> Z -> Prop :=
| number_1 : number4 (T "1") 1 | number_2 : number4 (T "2") 2
| number_3 : number4 (T "3") 3 | number_4 : number4 (T "4") 4.
Definition quarter_sign (t : text) (q : Z) : Prop := roman t q \/ number4 t q.

(** what may be around them: characters other than digits, parentheses and the
    letters of roman numerals *)
Definition filler (t : text) : Prop := Forall (fun c => ~ among "0123456789IV()" c) t.
(** the end of a quarter text: at most two notes, nothing after the second *)
Inductive notes : text -> Prop :=
| notes_0 a : filler a -> notes a
| notes_1 a n b : filler a -> note n -> filler b -> notes (a ++ n ++ b)
| notes_2 a n b m : filler a -> note n -> filler b -> note m -> notes (a ++ n ++ b ++ m).
(** the beginning of a text: nothing, an asterisk or a note *)
Inductive mark : text -> Prop :=
| mark_none : mark []
| mark_star : mark ["*"%char]
| mark_note n b : note n -> Forall white b -> mark (n ++ b).
(** the end of a text: an asterisk or a note, and at most three characters *)
Definition short (t : text) : Prop := (List.length t <= 3)%nat.
Inductive tail : text -> Prop :=
| tail_plain b x : Forall white b -> short x -> tail (b ++ x)
| tail_star b x : Forall white b -> short x -> tail ("*"%char :: b ++ x)
| tail_note b n b' x : Forall white b -> note n -> Forall white b' -> short x -> tail (b ++ n ++ b' ++ x).
(** separators between a roman numeral and a year *)
Definition separator (s : string) (t : text) : Prop := Forall (among s) t /\ ~ begins (fun c => ~ among "-/. " c) t.
(** a word: no blanks, digits or parentheses *)
Definition word (t : text) : Prop := Forall (fun c => ~ among "0123456789()" c /\ ~ white c) t.
Definition spaces (t : text) : Prop := Forall (fun c => c = " "%char) t.

(** *** Quarters *)

(** the styles of the documentation: "III * (2) *" and "1986 1o trim.";
    "III.1963 (1)"; "2o Trim 07"; "IV 01" *)
Inductive quarter_style := QPlain | QDotted | QWord | QShort.
Inductive quarter_text : quarter_style -> text -> option Z -> Z -> Prop :=
| qt_plain a k s q : filler a -> quarter_sign k q -> notes s -> quarter_text QPlain (a ++ k ++ s) None q
| qt_year a yt b k s y q : filler a -> year4 yt y -> filler b -> quarter_sign k q -> notes s ->
    quarter_text QPlain (a ++ yt ++ b ++ k ++ s) (Some y) q
| qt_dotted a k s yt b y q : mark a -> roman k q -> separator "-/.T " s -> year4 yt y -> tail b ->
    quarter_text QDotted (a ++ k ++ s ++ yt ++ b) (Some y) q
| qt_word a s k u s1 v s2 yt b y q : filler a -> word a -> ~ In "*"%char a -> spaces s -> number4 k q ->
    word u -> spaces s1 -> word v -> spaces s2 -> (v <> [] -> s1 <> []) -> (v = [] -> s2 = []) -> u ++ s1 <> [] ->
    year2 yt y -> tail b -> quarter_text QWord (a ++ s ++ k ++ u ++ s1 ++ v ++ s2 ++ yt ++ b) (Some y) q
| qt_short a k s yt b y q : a = [] \/ a = ["*"%char] -> roman k q -> separator "-/.T " s -> year2 yt y -> tail b -> ~ begins digit b ->
    quarter_text QShort (a ++ k ++ s ++ yt ++ b) (Some y) q.
Definition quarter_month (q m : Z) : Prop := m = 3 * q - 2.

(** the date of a month: a text without year takes the year of the date before *)
Inductive month_of : option Z -> Z -> option datetime -> datetime -> Prop :=
| mo_year y m last : month_of (Some y) m last (mkdt y m 1 0)
| mo_last m l : month_of None m (Some l) (mkdt (dt_y l) m 1 0).

(** *** Months *)

Inductive letter : ascii -> Prop :=
| lt_upper c : (65 <= nat_of_ascii c <= 90)%nat -> letter c
| lt_lower c : (97 <= nat_of_ascii c <= 122)%nat -> letter c.
(** a month name in one of the languages of arrow, which are not modelled *)
Inductive month_name (e : env) : text -> Z -> Prop :=
| mn t m : (3 <= List.length t <= 50)%nat -> Forall letter t -> month_lookup e (capitalize t) = Some m -> 1 <= m <= 12 -> month_name e t m.
(** a month number, of one or two digits *)
Inductive month_number : text -> Z -> Prop :=
| mb t m : (1 <= List.length t <= 2)%nat -> decimal t m -> 1 <= m <= 12 -> month_number t m.
(** between the name and the year: an asterisk or a note, blanks, a separator *)
Inductive joint : text -> Prop :=
| joint_blank b : Forall white b -> joint b
| joint_sep b c b' : Forall white b -> among ".-/," c -> Forall white b' -> joint (b ++ c :: b').
Inductive joint_mark : text -> Prop :=
| jm_none j : joint j -> joint_mark j
| jm_star j : joint j -> joint_mark ("*"%char :: j)
| jm_note b n j : Forall white b -> note n -> joint j -> joint_mark (b ++ n ++ j).
Inductive dot : text -> Prop := dot_none : dot [] | dot_one : dot ["."%char].
(** between numbers, and after a lone month number *)
Definition symbols (t : text) : Prop := Forall (fun c => ~ digit c /\ ~ letter c /\ ~ among "()" c) t.

(** the styles of the documentation: "1991 Ene", "Mayo.  (3)  1991", "Junio *";
    "1991-05", "5/1991", "05" *)
Inductive month_style := MName | MNumber.
Inductive month_text (e : env) : month_style -> text -> option Z -> Z -> Prop :=
| mt_year_name yt j t r y m : year4 yt y \/ year2 yt y -> joint_mark j -> month_name e t m -> ~ begins letter r ->
    month_text e MName (yt ++ j ++ t ++ r) (Some y) m
| mt_name_year t d j yt r y m : month_name e t m -> dot d -> joint_mark j -> year4 yt y \/ year2 yt y /\ ~ begins digit r ->
    month_text e MName (t ++ d ++ j ++ yt ++ r) (Some y) m
| mt_name t r m : month_name e t m -> no_digit r -> ~ begins letter r -> month_text e MName (t ++ r) None m
| mt_name_note t d b n r m : month_name e t m -> dot d -> Forall white b -> note n -> no_digit r ->
    month_text e MName (t ++ d ++ b ++ n ++ r) None m
| mt_year_number yt s t r y m : year4 yt y -> symbols s -> month_number t m -> (List.length t = 2%nat \/ ~ begins digit r) ->
    month_text e MNumber (yt ++ s ++ t ++ r) (Some y) m
| mt_number_year t s yt r y m : month_number t m -> symbols s -> s <> [] -> year4 yt y ->
    month_text e MNumber (t ++ s ++ yt ++ r) (Some y) m
| mt_number t r m : month_number t m -> symbols r -> month_text e MNumber (t ++ r) None m.

(** *** Years *)

(** characters other than digits and parentheses, notes among them *)
Definition plain (t : text) : Prop := Forall (fun c => ~ among "0123456789()" c) t.
Inductive noted : text -> Prop :=
| nd_note a n b : plain a -> note n -> plain b -> noted (a ++ n ++ b).
(** "(2) 1991 *", "1995/96 (1)" *)
Inductive year_style := YOne | YRange.
Inductive year_text : year_style -> text -> Z -> Prop :=
| yt_one a yt b y : plain a \/ noted a -> year4 yt y -> plain b \/ noted b -> year_text YOne (a ++ yt ++ b) y
| yt_range a yt c d b y : a = [] \/ noted a -> year4 yt y -> digit c -> digit d -> b = [] \/ noted b ->
    year_text YRange (a ++ yt ++ ["/"%char; c; d] ++ b) y.

(** *** Semesters: "I 01", "II" *)
Inductive semester_text : text -> option Z -> Z -> Prop :=
| st_year a k s yt b y q : mark a -> roman k q -> q <= 2 -> separator "-/.S " s -> year2 yt y -> tail b ->
    semester_text (a ++ k ++ s ++ yt ++ b) (Some y) q
| st_plain a k s q : mark a -> roman k q -> q <= 2 -> separator "-/.S " s -> semester_text (a ++ k ++ s) None q.
Definition semester_month (q m : Z) : Prop := m = 6 * q - 5.

(** *** Cells *)

(** the text of a cell, without the blanks around *)
Definition trimmed (t u : text) : Prop := stripped (VStr t) (VStr u).
(** what a cell says: its text, or the digits of a whole number *)
Inductive says : pyval -> text -> Prop :=
| sy_text t u : trimmed t u -> says (VStr t) u
| sy_number z c u : decimal (c :: u) z -> c <> "0"%char -> says (VInt z) (c :: u).

(** A cell is read as the date [d] by the strategy [s]: when it is the first one
    of the index and the way of reading is still to be chosen, and when [s] was
    chosen before.  [f] is the frequency of the series, [last] the date before,
    [next] the cell after. *)
Definition reads (e : env) (f : string) (s : strat) (v : pyval) (last : option datetime) (next : pyval) (d : datetime) : Prop :=
  forall chosen, chosen = None \/ chosen = Some s ->
  parse_with_pool e (mktp true (T f)) chosen v last next = (Some s, Ok d).
Definition real_last (last : option datetime) : Prop := forall l, last = Some l -> real_date l.

(** what a cell denotes, given the date before *)
Definition quarter_cell (st : quarter_style) (v : pyval) (last : option datetime) (d : datetime) : Prop :=
  exists u y q m, says v u /\ quarter_text st u y q /\ quarter_month q m /\ month_of y m last d.
Definition month_cell (e : env) (st : month_style) (v : pyval) (last : option datetime) (d : datetime) : Prop :=
  exists u y m, says v u /\ month_text e st u y m /\ month_of y m last d.
Definition semester_cell (v : pyval) (last : option datetime) (d : datetime) : Prop :=
  exists u y q m, says v u /\ semester_text u y q /\ semester_month q m /\ month_of y m last d.
(** whole part of a number with decimals *)
Inductive whole : spec_float -> Z -> Prop :=
| wh_big m x : 0 <= x -> whole (S754_finite false m x) (Zpos m * 2 ^ x)
| wh_small m x z : x < 0 -> z * 2 ^ (- x) <= Zpos m < (z + 1) * 2 ^ (- x) -> whole (S754_finite false m x) z.
(** a year may also be a number with decimals (1991.0): its whole part *)
Inductive year_cell : year_style -> pyval -> datetime -> Prop :=
| yc_text st v u y : says v u -> year_text st u y -> year_cell st v (mkdt y 1 1 0)
| yc_float f y : whole f y -> 1000 <= y <= 9999 -> year_cell YOne (VFloat f) (mkdt y 1 1 0).

(** *** The whole index *)

(** the dates [d] of the positions of the index, and the one before a position *)
Definition previous (p : sp) (d : Z -> datetime) (q : Z) : option datetime :=
  if q =? sp_starts p then None else Some (d (q - 1)).
(** dates in order, one period after the other unless missings are declared *)
Definition sequence (p : sp) (f : string) (d : Z -> datetime) (last : Z) : Prop :=
  (forall q, sp_starts p <= q <= last -> real_date (d q) /\ dt_y (d q) < 9999) /\
  (sp_missings p = true /\ explicit_marker p /\ (forall q, sp_starts p < q <= last -> earlier (d (q - 1)) (d q)) \/
   sp_missings p = false /\ (forall q, sp_starts p < q <= last -> one_period f (d (q - 1)) (d q))).
(** the cleaning succeeds, the index ends where it ends, holds those dates, and
    nothing else is changed *)
Definition cleaned (e : env) (w : worksheet) (p : sp) (d : Z -> datetime) (last : Z) : Prop :=
  exists w', clean_time_index e w p = (w', Ok (last - sp_ta p)) /\
    (forall q, sp_starts p <= q <= last -> holds p w' q (VDate (d q))) /\
    (forall i j, (forall q, sp_starts p <= q <= last -> ~ index_cell p q i j) -> cell w' i j = cell w i j).
(** an index in one column (row), its header in a cell, whose positions are cells
    of the sheet up to [last] *)
Definition plain_index (p : sp) (w : worksheet) (f : string) (last : Z) : Prop :=
  one_line p /\ (exists t r c, sp_th p = ThStr t /\ cell_named t r c) /\ sp_freq p = T f /\
  index_ends p w last /\ within_sheet p (sp_starts p) last /\ sp_starts p <= last /\ sp_starts p < last - sp_ta p.
