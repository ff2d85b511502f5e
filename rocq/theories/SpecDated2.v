(** What is expected of the dates of the numbers of a series of several
    frequencies, and of one with implicit missings (C66). *)
From Verif Require Import Base SpecCal SpecCoord Coord Params ParseTime TimeIndex SpecTime SpecParams SpecData SpecFrames SpecDated SpecEnd SpecCycles.
From Coq Require Import Sorted.
Local Open Scope Z_scope.

(** every value of a letter is read from a row of that letter and has the date
    in it; the rows are those of the letter, each once, in order *)
Definition dated_by_cycle (s : sp) (w : worksheet) (en : Z) (c : ascii) (dates : list datetime) (vs : list spec_float) : Prop :=
  List.length dates = List.length vs /\
  exists rows, StronglySorted Z.lt rows /\ List.length rows = List.length vs /\
  (forall q, In q rows <-> sp_starts s <= q <= en /\ position_letter s q = Some c) /\
  forall k q d x, nth_error rows k = Some q -> nth_error dates k = Some d -> nth_error vs k = Some x ->
    holds s w q (VDate d) /\ exists v, in_series s w q v /\ read_as s v x.
(** a date in every row; those of each letter are one period after the other *)
Definition cycle_rows (s : sp) (w : worksheet) (en : Z) (ds : list datetime) : Prop :=
  Z.of_nat (List.length ds) = en - sp_starts s + 1 /\
  (forall k d, nth_error ds k = Some d -> holds s w (sp_starts s + Z.of_nat k) (VDate d)) /\
  forall c, In c (sp_freq s) -> consecutive (letter c) (share (sp_freq s) c 0 ds).

(** dates with gaps: [grid] has all the periods from the first date to the last
    one, and the [i]-th row the date of its [nth i ks] *)
Definition rows_with_gaps (s : sp) (f : string) (w : worksheet) (en : Z) (grid : list datetime) (ks : list nat) : Prop :=
  consecutive f grid /\ Forall real_date grid /\ StronglySorted lt ks /\ Z.of_nat (List.length ks) = en - sp_starts s + 1 /\
  hd_error ks = Some 0%nat /\ S (List.last ks 0%nat) = List.length grid /\
  forall i k, nth_error ks i = Some k -> exists d, nth_error grid k = Some d /\ holds s w (sp_starts s + Z.of_nat i) (VDate d).
(** every value stands beside its date, or beside none and then it is NaN; and
    no row is forgotten *)
Definition dated_with_gaps (s : sp) (w : worksheet) (en : Z) (dates : list datetime) (vs : list spec_float) : Prop :=
  List.length dates = List.length vs /\
  (forall k d x, nth_error dates k = Some d -> nth_error vs k = Some x ->
    (exists q v, sp_starts s <= q <= en /\ holds s w q (VDate d) /\ in_series s w q v /\ read_as s v x) \/
    x = S754_nan /\ forall q, sp_starts s <= q <= en -> ~ holds s w q (VDate d)) /\
  (forall q, sp_starts s <= q <= en -> exists k d x v, nth_error dates k = Some d /\ nth_error vs k = Some x /\ holds s w q (VDate d) /\ in_series s w q v /\ read_as s v x).
