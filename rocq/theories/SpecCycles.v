(** What is expected of a whole call on a table of several frequencies (C67). *)
From Verif Require Import Base Cal SpecCal SpecCoord SpecParams Coord XlMethods Params ParseTime TimeIndex PeriodRange DataFrame Scrape Xlseries
  SpecTime SpecData SpecFrames SpecScrape SpecAttempts SpecEnd.
Local Open Scope Z_scope.

(** the frequency of one letter *)
Definition letter (c : ascii) : string := String c EmptyString.
(** of a list that goes with a cycle of letters, from the [k]-th one on, those
    that go with the letter [c] *)
Fixpoint share {A} (fr : text) (c : ascii) (k : nat) (l : list A) : list A :=
  match l with
  | [] => []
  | x :: l' => match cycle_letter fr k with
               | Some d => if ascii_dec d c then x :: share fr c (S k) l' else share fr c (S k) l'
               | None => share fr c (S k) l'
               end
  end.

(** a frequency of two letters or more, every one of them known to pandas *)
Definition several_letters (f : string) : Prop :=
  (2 <= List.length (T f))%nat /\ forall c, In c (T f) -> periodic (letter c).

(** where [n] positions may stop: in a column anywhere if the last cycle has every
    letter, in a row anywhere after one cycle *)
Definition stops_well (al : align) (fr : text) (n : nat) : Prop :=
  (2 <= n)%nat /\
  match al with
  | Vert => forall c, In c fr -> exists k, (k < n)%nat /\ (k / List.length fr = (n - 1) / List.length fr)%nat /\ cycle_letter fr k = Some c
  | Horiz => (List.length fr <= n)%nat
  end.
(** dates along a line from position [starts] on, the letters of the frequency
    going round; those of each letter are consecutive period starts of its
    frequency; a last cycle with every letter (in a row, at least one cycle),
    ending with the sheet or (in a column) before blanks; one value beside every
    date for each header *)
Record cycle_table (d : dict) (w : worksheet) (cells : list (Z * Z)) (time : Z * Z) (starts ends : Z) (f : string) (se : settings)
    (ds : list datetime) (data : list (list spec_float)) : Prop := {
  cy_ends : ends = starts + Z.of_nat (List.length ds) - 1;
  cy_plain : se_composed se = false;
  cy_cycles : stops_well (se_align se) (T f) (List.length ds);
  cy_dates : forall k x, nth_error ds k = Some x -> along (se_align se) w (line_of (se_align se) time) (starts + Z.of_nat k) = VDate x;
  cy_consecutive : forall c, In c (T f) -> consecutive (letter c) (share (T f) c 0 ds);
  cy_start : forall c, In c (T f) -> exists x, hd_error (share (T f) c 0 ds) = Some x /\ period_start (letter c) x;
  cy_years : Forall (fun x => 1678 <= dt_y x <= 2261) ds;
  cy_after : forall rc, hd_error cells = Some rc -> depth_of (se_align se) rc < starts;
  cy_inside : 1 <= starts /\ (se_align se = Horiz -> ends < 18278);
  cy_stop : stops d w time ends se;
  cy_values : Forall2 (fun rc vs => List.length vs = List.length ds /\
    forall k x, nth_error vs k = Some x ->
      stands_for (se_missings se) (se_markers se) (along (se_align se) w (line_of (se_align se) rc) (starts + Z.of_nat k)) x) cells data
}.
(** the frame of one letter: its dates, and its share of the values of every
    series *)
Definition letter_frame (f : string) (names : list text) (ds : list datetime) (data : list (list spec_float)) (c : ascii) (fr : df) : Prop :=
  exists n cols, pandas_name (letter c) n /\ column_names names cols /\
    fr = mkdf (mkpr (T n) (share (T f) c 0 ds)) cols (map (share (T f) c 0) data).
