(** Theorems about the cleaning of time indexes (C24 - C29). *)
From Verif Require Import Base BaseFacts Cal Coord Params ParseTime TimeIndex SpecCal CalFacts SpecCoord SpecCoordFacts TimeFacts SpecTime
  TimeProofs TimeProofs2 Demo.
Local Open Scope Z_scope.

(** *** sheets for the examples *)
Definition month (y m : Z) : pyval := day y m 1.
Definition column (title : string) (vs : list pyval) : worksheet := sheet_of (T "s") (map (fun v => [v]) (VStr (T title) :: vs)).
Definition row (title : string) (vs : list pyval) : worksheet := sheet_of (T "s") [VStr (T title) :: vs].
Definition series (al : align) (ends : option Z) (blanks missings : bool) (ta : Z) (f : string) : sp :=
  mksp al (VStr (T "x")) (T "B1") VNone VNone 2 ends true blanks missings (VList [VStr (T "NA")]) ta false (ThStr (T "A1")) false (T f).
Lemma rows_real t rows : forallb (fun v => match v with VDate d => valid_dt d | _ => true end) (List.concat rows) = true -> real_dates (sheet_of t rows).
Proof.
  intros H r c d E. unfold sheet_of in E. cbn [cell] in E. destruct ((1 <=? r) && (1 <=? c)); [|discriminate].
  rewrite forallb_forall in H. apply valid_real. apply (H (VDate d)). rewrite <- E. apply in_concat.
  exists (nth (Z.to_nat (r - 1)) rows []). split.
  - apply nth_In. destruct (Nat.lt_ge_cases (Z.to_nat (r - 1)) (List.length rows)) as [|G]; auto.
    rewrite (nth_overflow rows) in E by auto. destruct (Z.to_nat (c - 1)); discriminate.
  - apply nth_In. destruct (Nat.lt_ge_cases (Z.to_nat (c - 1)) (List.length (nth (Z.to_nat (r - 1)) rows []))) as [|G]; auto.
    rewrite nth_overflow in E by auto. discriminate.
Qed.
Lemma pair_snd {A B} (x : A * B) b : snd x = b -> x = (fst x, b).
Proof. destruct x; cbn; intros ->; auto. Qed.
Ltac here := apply (holds_iff _ 1); [reflexivity|vm_compute; reflexivity].
Ltac real_ := apply rows_real; vm_compute; reflexivity.

(** ** C24 The cleaned time index is strictly increasing *)

(** for every sheet, between the first position of the data and the end found,
    any two dates are in order; the only exception is a last date that was
    repeated in the sheet, next one *)
Theorem C24_increasing_partial : forall e w p w' en, real_dates w -> single_frequency p -> explicit_marker p ->
  clean_time_index e w p = (w', Ok en) ->
  forall i j a b, sp_starts p <= i -> i < j -> j <= en + sp_ta p -> holds p w' i (VDate a) -> holds p w' j (VDate b) ->
  earlier a b \/ (j = en + sp_ta p /\ holds p w j (VDate b) /\ sp_ends p = None /\
                  exists k, i <= k < j /\ holds p w' k (VDate b)).
Proof. exact c24_increasing. Qed.
Print Assumptions C24_increasing_partial.
(** a month typed backwards is corrected on the way *)
Example C24_case :
  let w := column "date" [month 2000 1; month 2000 2; month 2000 1; month 2000 4; VStr (T "(*) estimated")] in
  let p := series Vert None false false 0 "M" in
  let w' := fst (clean_time_index demo_env w p) in
  real_dates w /\ single_frequency p /\ explicit_marker p /\ snd (clean_time_index demo_env w p) = Ok 5 /\
  holds p w' 3 (month 2000 2) /\ holds p w' 4 (month 2000 3) /\ holds p w' 5 (month 2000 4).
Proof.
  cbv zeta. split; [real_|]. split; [reflexivity|]. split; [discriminate|]. split; [vm_compute; reflexivity|].
  split; [here|]. split; here.
Qed.

(** with data_ends there is no exception *)
Theorem C24_with_data_ends : forall e w p w' en z, real_dates w -> single_frequency p -> explicit_marker p ->
  sp_ends p = Some z -> clean_time_index e w p = (w', Ok en) ->
  forall i j a b, sp_starts p <= i -> i < j -> j <= en + sp_ta p -> holds p w' i (VDate a) -> holds p w' j (VDate b) -> earlier a b.
Proof.
  intros e w p w' en z R SF EX EN H i j a b L1 L2 L3 A B.
  destruct (c24_increasing e w p w' en R SF EX H i j a b L1 L2 L3 A B) as [|(_ & _ & N & _)]; [assumption|congruence].
Qed.
Print Assumptions C24_with_data_ends.
Example C24_with_data_ends_case :
  let w := column "date" [month 2000 1; VNone; month 2003 2; month 2010 3] in
  let p := series Vert (Some 5) true true 0 "M" in
  snd (clean_time_index demo_env w p) = Ok 5 /\ holds p (fst (clean_time_index demo_env w p)) 4 (month 2003 2).
Proof. cbv zeta. split; [vm_compute; reflexivity|here]. Qed.

(** the exception exists: the last date is repeated and both copies belong to
    the index *)
Theorem C24_repeated_end_refuted : exists e w p w' en i j a, real_dates w /\ single_frequency p /\ explicit_marker p /\
  clean_time_index e w p = (w', Ok en) /\ sp_starts p <= i < j /\ j <= en + sp_ta p /\
  holds p w' i (VDate a) /\ holds p w' j (VDate a).
Proof.
  set (w := column "date" [month 2000 1; month 2000 2; month 2000 2]). set (p := series Vert None false false 0 "M").
  exists demo_env, w, p, (fst (clean_time_index demo_env w p)), 4, 3, 4, (mkdt 2000 2 1 0).
  split; [real_|]. split; [reflexivity|]. split; [discriminate|].
  split; [apply pair_snd; vm_compute; reflexivity|].
  split; [cbn; lia|]. split; [cbn; lia|]. split; here.
Qed.
Print Assumptions C24_repeated_end_refuted.

(** ** C25 Without missings the time index is gapless *)
Theorem C25_gapless_partial : forall e w p w' en f, real_dates w -> sp_freq p = T f -> periodic f -> explicit_marker p -> sp_missings p = false ->
  clean_time_index e w p = (w', Ok en) ->
  forall i j a b, sp_starts p <= i -> i < j -> j <= en + sp_ta p -> holds p w' i (VDate a) -> holds p w' j (VDate b) ->
  (forall k, i < k < j -> ~ holds_date p w' k) ->
  one_period f a b \/ (j = en + sp_ta p /\ sp_ends p = None /\ holds p w j (VDate b) /\ a = b).
Proof. exact c25_gapless. Qed.
Print Assumptions C25_gapless_partial.
Theorem C25_with_data_ends : forall e w p w' en f z, real_dates w -> sp_freq p = T f -> periodic f -> explicit_marker p -> sp_missings p = false ->
  sp_ends p = Some z -> clean_time_index e w p = (w', Ok en) ->
  forall i j a b, sp_starts p <= i -> i < j -> j <= en + sp_ta p -> holds p w' i (VDate a) -> holds p w' j (VDate b) ->
  (forall k, i < k < j -> ~ holds_date p w' k) -> one_period f a b.
Proof.
  intros e w p w' en f z R FQ PF EX MS EN H i j a b L1 L2 L3 A B N.
  destruct (c25_gapless e w p w' en f R FQ PF EX MS H i j a b L1 L2 L3 A B N) as [|(_ & Q & _)]; [assumption|congruence].
Qed.
Print Assumptions C25_with_data_ends.
Example C25_case :
  let w := column "date" [month 2000 1; month 2000 4; VNone; month 2000 7; month 2000 11] in
  let p := series Vert (Some 6) true false 0 "Q" in
  sp_freq p = T "Q" /\ periodic "Q" /\ snd (clean_time_index demo_env w p) = Ok 6 /\
  holds p (fst (clean_time_index demo_env w p)) 6 (month 2000 10).
Proof. cbv zeta. split; [reflexivity|]. split; [cbn; auto|]. split; [vm_compute; reflexivity|here]. Qed.
(** the same exception; and one period of the semester frequency is a second *)
Theorem C25_repeated_end_refuted : exists e w p w' en i a, real_dates w /\ sp_freq p = T "M" /\ explicit_marker p /\ sp_missings p = false /\
  clean_time_index e w p = (w', Ok en) /\ sp_starts p <= i /\ i + 1 <= en + sp_ta p /\
  holds p w' i (VDate a) /\ holds p w' (i + 1) (VDate a) /\ ~ one_period "M" a a.
Proof.
  set (w := column "date" [month 2000 1; month 2000 2; month 2000 2]). set (p := series Vert None false false 0 "M").
  exists demo_env, w, p, (fst (clean_time_index demo_env w p)), 4, 3, (mkdt 2000 2 1 0).
  split; [real_|]. split; [reflexivity|]. split; [discriminate|]. split; [reflexivity|].
  split; [apply pair_snd; vm_compute; reflexivity|].
  split; [cbn; lia|]. split; [cbn; lia|]. split; [here|]. split; [here|].
  intros [k K _|k K [Q _]]; [discriminate|]. inversion K; subst. cbn in Q. lia.
Qed.
Print Assumptions C25_repeated_end_refuted.
Theorem C25_semester_refuted : exists e w p w' en a b, real_dates w /\ sp_freq p = T "S" /\ explicit_marker p /\ sp_missings p = false /\
  clean_time_index e w p = (w', Ok en) /\ holds p w' 2 (VDate a) /\ holds p w' 3 (VDate b) /\ ~ months_after 6 a b.
Proof.
  set (w := column "date" [month 2000 1; month 2000 7]). set (p := series Vert None false false 0 "S").
  exists demo_env, w, p, (fst (clean_time_index demo_env w p)), 3, (mkdt 2000 1 1 0), (mkdt 2000 1 1 1).
  split; [real_|]. split; [reflexivity|]. split; [discriminate|]. split; [reflexivity|].
  split; [apply pair_snd; vm_compute; reflexivity|].
  split; [here|]. split; [here|]. intros [Q _]. cbn in Q. lia.
Qed.
Print Assumptions C25_semester_refuted.

(** ** C26 Valid dates are kept *)

(** with gaps allowed, or none present, the dates at the beginning of the index
    stay as they are whatever comes after them and however the cleaning ends *)
Theorem C26_kept_partial : forall e w p w' r f m last, real_dates w -> one_line p -> sp_composed p = false -> sp_freq p = T f -> frequency_letter f ->
  dated p w (sp_starts p) m -> no_typos p f w (sp_starts p) m -> last_one p w last -> m <= last ->
  clean_time_index e w p = (w', r) -> forall q v, q <= m -> holds p w q v -> holds p w' q v.
Proof. exact c26_kept. Qed.
Print Assumptions C26_kept_partial.

(** and an index of dates only is accepted: the end is its last position and no
    cell of the sheet changes *)
Theorem C26_accepted_partial : forall e w p f t r c last, real_dates w -> one_line p -> sp_th p = ThStr t -> cell_named t r c ->
  sp_composed p = false -> sp_freq p = T f -> frequency_letter f ->
  last_one p w last -> within_sheet p (sp_starts p) last ->
  dated p w (sp_starts p) last -> no_typos p f w (sp_starts p) last -> before_9999 p w (sp_starts p) last ->
  short_runs p w (sp_starts p) last -> holds_date p w last ->
  sp_starts p <= last -> sp_starts p < last - sp_ta p ->
  exists w', clean_time_index e w p = (w', Ok (last - sp_ta p)) /\ forall i j, cell w' i j = cell w i j.
Proof. exact c26_accepted. Qed.
Print Assumptions C26_accepted_partial.

(** a row of dates with a gap and a blank meets all the hypotheses *)
Definition gap_row : worksheet := row "date" [month 2000 1; month 2000 2; VNone; month 2007 5].
Definition gap_series : sp := series Horiz None true true 0 "M".
Example C26_case : real_dates gap_row /\ one_line gap_series /\ cell_named (T "A1") 1 1 /\ frequency_letter "M" /\ last_one gap_series gap_row 5 /\
  within_sheet gap_series 2 5 /\ dated gap_series gap_row 2 5 /\ no_typos gap_series "M" gap_row 2 5 /\ before_9999 gap_series gap_row 2 5 /\
  short_runs gap_series gap_row 2 5 /\ holds_date gap_series gap_row 5 /\ snd (clean_time_index demo_env gap_row gap_series) = Ok 5.
Proof.
  assert (V : forall q v, holds gap_series gap_row q v -> axis_val Horiz gap_row 1 q = v) by (intros q v; apply holds_iff; reflexivity).
  assert (Q4 : forall q, 2 <= q <= 5 -> q = 2 \/ q = 3 \/ q = 4 \/ q = 5) by (intros; lia).
  split; [real_|]. split; [reflexivity|]. split; [apply cell_named_iff; reflexivity|]. split; [cbn; auto|]. split; [apply lo_cols; reflexivity|].
  split; [split; [lia|reflexivity]|]. split; [split|].
  - intros q Q. destruct (Q4 q Q) as [->|[->|[-> | ->]]]; [right|right|left|right]; try (eexists; here).
    exists VNone. split; [here|constructor].
  - intros i j x y I L J HX HY. apply V in HX, HY.
    assert (LI : 2 <= i <= 5) by lia. assert (LJ : 2 <= j <= 5) by lia.
    destruct (Q4 i LI) as [->|[->|[-> | ->]]], (Q4 j LJ) as [->|[->|[-> | ->]]]; try lia; vm_compute in HX, HY; inversion HX; inversion HY; subst;
      unfold earlier; cbn; lia.
  - split; [left; split; [reflexivity|discriminate]|]. split.
    { intros q d Q HD. apply V in HD. destruct (Q4 q Q) as [->|[->|[-> | ->]]]; vm_compute in HD; inversion HD; cbn; lia. }
    split; [left; split; [right; reflexivity|intros; lia]|]. split; [eexists; here|]. vm_compute. reflexivity.
Qed.

(** with missings False (the first of the default attempts) gaps are silently
    closed: 2000, 2002, 2010 become 2000, 2001, 2002 *)
Theorem C26_gaps_refuted : exists e w p w' en, real_dates w /\ one_line p /\ sp_composed p = false /\ explicit_marker p /\
  (forall q, 2 <= q <= 4 -> holds_date p w q) /\ dated p w 2 4 /\
  clean_time_index e w p = (w', Ok en) /\
  holds p w 3 (month 2002 1) /\ holds p w' 3 (month 2001 1) /\ holds p w 4 (month 2010 1) /\ holds p w' 4 (month 2002 1).
Proof.
  set (w := column "year" [month 2000 1; month 2002 1; month 2010 1]). set (p := series Vert None false false 0 "A").
  exists demo_env, w, p, (fst (clean_time_index demo_env w p)), 4.
  assert (V : forall q v, holds p w q v -> axis_val Vert w 1 q = v) by (intros q v; apply holds_iff; reflexivity).
  assert (Q4 : forall q, 2 <= q <= 4 -> q = 2 \/ q = 3 \/ q = 4) by (intros; lia).
  assert (D : forall q, 2 <= q <= 4 -> holds_date p w q).
  { intros q Q. destruct (Q4 q Q) as [->|[-> | ->]]; eexists; here. }
  split; [real_|]. split; [reflexivity|]. split; [reflexivity|]. split; [discriminate|]. split; [exact D|]. split; [split|].
  - auto.
  - intros i j x y I L J HX HY. apply V in HX, HY.
    assert (LI : 2 <= i <= 4) by lia. assert (LJ : 2 <= j <= 4) by lia.
    destruct (Q4 i LI) as [->|[-> | ->]], (Q4 j LJ) as [->|[-> | ->]]; try lia; vm_compute in HX, HY; inversion HX; inversion HY; subst;
      unfold earlier; cbn; lia.
  - split; [apply pair_snd; vm_compute; reflexivity|].
    split; [here|]. split; [here|]. split; here.
Qed.
Print Assumptions C26_gaps_refuted.

(** ** C27 Cleaning touches only the time index *)
Theorem C27_only_the_index : forall e w p w' r last, clean_time_index e w p = (w', r) -> last_one p w last ->
  forall i j, (forall pos, sp_starts p <= pos <= last -> ~ index_cell p pos i j) -> cell w' i j = cell w i j.
Proof. exact c27_outside. Qed.
Print Assumptions C27_only_the_index.
(** a cell that changes becomes a date or is emptied *)
Theorem C27_dates_or_nothing : forall e w p w' r, clean_time_index e w p = (w', r) ->
  forall i j, cell w' i j = cell w i j \/ cell w' i j = VNone \/ exists d, cell w' i j = VDate d.
Proof. exact c27_values. Qed.
Print Assumptions C27_dates_or_nothing.
Example C27_case :
  let w := sheet_of (T "s") [[VStr (T "date"); VStr (T "x")]; [VStr (T "01-02-2000"); VStr (T "02-02-2000")]; [VStr (T "02-02-2000"); VInt 3]] in
  let p := series Vert None false false 0 "D" in
  let w' := fst (clean_time_index demo_env w p) in
  snd (clean_time_index demo_env w p) = Ok 3 /\ cell w' 2 1 = day 2000 2 1 /\ cell w' 3 1 = day 2000 2 2 /\
  cell w' 1 1 = VStr (T "date") /\ cell w' 2 2 = VStr (T "02-02-2000").
Proof. vm_compute. repeat split. Qed.

(** ** C28 The end of the series is the last date *)

(** when the time index is aligned with the data or below it, the end found is
    a date and the last one up to the place where the reading stopped, after
    which nothing was changed *)
Theorem C28_last_date_partial : forall e w p w' en last, real_dates w -> clean_time_index e w p = (w', Ok en) -> last_one p w last ->
  sp_starts p < en /\ (0 <= sp_ta p -> holds_date p w' (en + sp_ta p)) /\
  exists stop, en + sp_ta p <= stop <= last /\
    (forall q, en + sp_ta p < q <= stop -> ~ holds_date p w' q) /\
    (forall q v, stop < q -> holds p w q v -> holds p w' q v).
Proof. exact c28_end. Qed.
Print Assumptions C28_last_date_partial.
Example C28_case :
  let w := column "date" [month 2000 1; month 2000 2; month 2000 3; VNone; VStr (T "Source: the office"); VStr (T "(1) estimated")] in
  snd (clean_time_index demo_env w (series Vert None false false 0 "M")) = Ok 4 /\
  snd (clean_time_index demo_env w (series Vert None true false 0 "M")) = Ok 4.
Proof. vm_compute. repeat split. Qed.
(** horizontally a note after the last date is not skipped: it raises *)
Theorem C28_horizontal_note_refuted : exists e w p x, real_dates w /\ dated p w 2 4 /\ holds_date p w 4 /\
  holds p w 5 (VStr (T "note")) /\ last_one p w 5 /\ snd (clean_time_index e w p) = Err x.
Proof.
  set (w := row "date" [month 2000 1; month 2000 2; month 2000 3; VStr (T "note")]). set (p := series Horiz None false false 0 "M").
  exists demo_env, w, p, EType.
  assert (V : forall q v, holds p w q v -> axis_val Horiz w 1 q = v) by (intros q v; apply holds_iff; reflexivity).
  assert (Q4 : forall q, 2 <= q <= 4 -> q = 2 \/ q = 3 \/ q = 4) by (intros; lia).
  split; [real_|]. split; [split|].
  - intros q Q. right. destruct (Q4 q Q) as [->|[-> | ->]]; eexists; here.
  - intros i j a b I L J HX HY. apply V in HX, HY.
    assert (LI : 2 <= i <= 4) by lia. assert (LJ : 2 <= j <= 4) by lia.
    destruct (Q4 i LI) as [->|[-> | ->]], (Q4 j LJ) as [->|[-> | ->]]; try lia; vm_compute in HX, HY; inversion HX; inversion HY; subst;
      unfold earlier; cbn; lia.
  - split; [eexists; here|]. split; [here|]. split; [apply lo_cols; reflexivity|]. vm_compute. reflexivity.
Qed.
Print Assumptions C28_horizontal_note_refuted.
(** when the dates are one position before the data, an index without a single
    date is accepted *)
Theorem C28_offset_refuted : exists e w p w' en, real_dates w /\ sp_ta p = -1 /\ clean_time_index e w p = (w', Ok en) /\
  forall q, ~ holds_date p w' q.
Proof.
  set (w := column "date" [VNone; VNone]). set (p := series Vert None false false (-1) "M").
  exists demo_env, w, p, (fst (clean_time_index demo_env w p)), 3.
  split; [real_|]. split; [reflexivity|].
  split; [apply pair_snd; vm_compute; reflexivity|].
  intros q [d D]. assert (Q : q = 2 \/ q = 3 \/ ~ (2 <= q <= 3)) by lia. destruct Q as [-> | [-> | Q]].
  1,2: apply (holds_iff p 1) in D; [vm_compute in D; discriminate|reflexivity].
  destruct D as (r & c & IC & D).
  rewrite (c27_outside demo_env w p (fst (clean_time_index demo_env w p)) (snd (clean_time_index demo_env w p)) 3 (surjective_pairing _)) in D.
  - unfold w, column, sheet_of in D. cbn [cell] in D. destruct ((1 <=? r) && (1 <=? c)); [|discriminate].
    destruct (Z.to_nat (r - 1)) as [|[|[|[|n]]]], (Z.to_nat (c - 1)) as [|[|m]]; cbn in D; discriminate.
  - apply lo_rows; reflexivity.
  - intros pos P IC'. inversion IC; [|discriminate]. subst. inversion IC'; [|discriminate]. subst. apply Q. exact P.
Qed.
Print Assumptions C28_offset_refuted.

(** ** C29 Blank runs are tolerated up to a limit *)

(** in every successful reading: it ended at the last position, or at a cell
    that is not a date (without data_ends), or at a blank; a run of 41 blanks
    always stops it when blanks are tolerated, the first blank when they are
    not, and when they are only the 41st blank of a run does *)
Theorem C29_where_it_stops : forall e w p w' en last, real_dates w -> one_line p -> clean_time_index e w p = (w', Ok en) -> last_one p w last ->
  exists stop, sp_starts p <= stop <= last /\ read_until p w w' stop /\
    (forall q, en + sp_ta p < q <= stop -> ~ holds_date p w' q) /\ en + sp_ta p <= stop /\
    (stop < last -> sp_ends p = None \/ blank_at p w stop) /\
    (tolerates_blanks p -> forall a, sp_starts p <= a -> a + 40 <= last -> (forall q, a <= q <= a + 40 -> blank_at p w q) -> stop <= a + 40) /\
    (~ tolerates_blanks p -> forall q, sp_starts p <= q <= last -> blank_at p w q -> stop <= q) /\
    (tolerates_blanks p -> stop < last -> blank_at p w stop ->
       sp_starts p <= stop - 40 /\ forall q, stop - 40 <= q <= stop -> blank_at p w q).
Proof. exact c29_all. Qed.
Print Assumptions C29_where_it_stops.
Definition long_run (n : nat) : worksheet := column "date" (month 2000 1 :: month 2000 2 :: repeat VNone n ++ [month 2000 3]).
Example C29_case :
  snd (clean_time_index demo_env (long_run 40) (series Vert None true false 0 "M")) = Ok 44 /\
  snd (clean_time_index demo_env (long_run 41) (series Vert None true false 0 "M")) = Ok 3 /\
  snd (clean_time_index demo_env (long_run 1) (series Vert None false false 0 "M")) = Ok 3.
Proof. vm_compute. repeat split. Qed.
(** runs of up to 40 blanks between dates are accepted *)
Theorem C29_tolerated : forall e w p f t r c last, real_dates w -> one_line p -> sp_th p = ThStr t -> cell_named t r c ->
  sp_composed p = false -> sp_freq p = T f -> frequency_letter f ->
  last_one p w last -> within_sheet p (sp_starts p) last ->
  dated p w (sp_starts p) last -> no_typos p f w (sp_starts p) last -> before_9999 p w (sp_starts p) last ->
  tolerates_blanks p -> (forall q, sp_starts p <= q -> q + 40 <= last -> exists k, q <= k <= q + 40 /\ holds_date p w k) ->
  holds_date p w last -> sp_starts p <= last -> sp_starts p < last - sp_ta p ->
  exists w', clean_time_index e w p = (w', Ok (last - sp_ta p)) /\ forall i j, cell w' i j = cell w i j.
Proof.
  intros e w p f t r c last R OL TH CN NC FQ FL LO WS DT NT B9 TB SR. 
  apply (c26_accepted e w p f t r c last); auto. left. auto.
Qed.
Print Assumptions C29_tolerated.
