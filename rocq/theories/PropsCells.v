(** C58: comparing workbooks cell by cell. *)
From Coq Require Import Reals.
From Verif Require Import Base BaseFacts Cal SpecCal Coord Comparing XlMethods PeriodRange DataFrame SpecData SpecParse SpecFloats SpecScrape SpecCells SpecFrames SpecCompare ComparingProofs CompareProofs ScrapeProofs RangeProofs CellsProofs
  Demo PropsScrape.

(** When the comparison returns, every pair of cells in a place both workbooks
    reach holds the same, up to small differences of numbers and blanks around
    texts; otherwise it raises.  It never returns False. *)
Theorem C58_detects wb1 wb2 x : compare_cells wb1 wb2 = Ok x ->
  x = true /\ forall i w1 w2 r c, nth_error wb1 i = Some w1 -> nth_error wb2 i = Some w2 -> both_reach w1 w2 r c ->
    cell_content (cell w1 r c) -> cell_content (cell w2 r c) -> alike (cell w1 r c) (cell w2 r c).
Proof.
  intros H. apply compare_cells_only in H as [-> H]. split; auto. intros i w1 w2 r c A B R C1 C2.
  destruct (compare_ws_only _ _ _ (H i w1 w2 A B)) as [_ K]. apply compare_alike; auto.
Qed.
Print Assumptions C58_detects.

(** Workbooks with the same contents where both reach pass, and blanks around
    texts that do not read as numbers do not matter. *)
Theorem C58_equal wb1 wb2 :
  (forall i w1 w2 r c, nth_error wb1 i = Some w1 -> nth_error wb2 i = Some w2 -> both_reach w1 w2 r c ->
     cell_content (cell w1 r c) /\ cell w1 r c = cell w2 r c \/
     exists u, reads_as (cell w1 r c) u /\ reads_as (cell w2 r c) u /\ exists z, py_float (VStr u) = Err z) ->
  compare_cells wb1 wb2 = Ok true.
Proof.
  intros H. apply compare_cells_ok. intros i w1 w2 A B. apply compare_ws_ok. intros r c R.
  destruct (H i w1 w2 r c A B R) as [[C <-]|(u & U1 & U2 & Z)].
  - apply compare_same. auto.
  - apply (compare_texts _ _ u); auto.
Qed.
Print Assumptions C58_equal.

(** a workbook passes against itself and against its copy, whatever the floats
    and ints in it *)
Theorem C58_itself wb : (forall w r c, In w wb -> cell_content (cell w r c) \/ (exists f, cell w r c = VFloat f) \/ exists z, cell w r c = VInt z) ->
  compare_cells wb wb = Ok true /\ compare_cells wb (make_wb_copy wb) = Ok true.
Proof.
  intros H. split.
  - apply compare_cells_ok. intros i w1 w2 A B. rewrite A in B. injection B as <-. apply compare_ws_ok. intros r c R.
    apply compare_same. apply nth_error_In in A. destruct (H w1 r c A) as [|[|]]; auto.
  - apply compare_cells_ok. intros i w1 w2 A B. unfold make_wb_copy in B. rewrite nth_error_map, A in B. injection B as <-.
    apply compare_ws_ok. intros r c (R1 & R2 & R3 & R4). cbn [make_ws_copy cell].
    replace (_ && _)%bool with true by lia.
    apply compare_same. apply nth_error_In in A. destruct (H w1 r c A) as [|[|]]; auto.
Qed.
Print Assumptions C58_itself.

(** Rows, columns and sheets only one of the workbooks has are not looked at. *)
Theorem C58_more_refuted : exists w1 w2, bounded w1 /\ bounded w2 /\
  compare_cells [w1] [w2] = Ok true /\ compare_cells [w2] [w1] = Ok true /\ compare_cells [w1] [] = Ok true /\
  exists r c, cell w1 r c = VInt 9 /\ cell w2 r c = VNone.
Proof.
  exists (sheet_of (T "Data") [[VStr (T "a"); VInt 5]; [VStr (T "b"); VInt 9]])%Z, (sheet_of (T "Data") [[VStr (T "a"); VInt 5]])%Z.
  split; [apply sheet_of_bounded|]. split; [apply sheet_of_bounded|].
  split; [vm_compute; reflexivity|]. split; [vm_compute; reflexivity|]. split; [reflexivity|].
  exists 2%Z, 2%Z. split; reflexivity.
Qed.
Print Assumptions C58_more_refuted.

(** Blanks around a text that reads as a number do matter, and so does the way
    it is written. *)
Theorem C58_blanks_refuted : exists a b u, reads_as a u /\ reads_as b u /\
  compare_cells [sheet_of (T "Data") [[a]]] [sheet_of (T "Data") [[b]]] = Err EAssert.
Proof.
  exists (VStr (T "5")), (VStr (T " 5")), (T "5"). split; [constructor; apply trim_strip; reflexivity|].
  split; [constructor; apply trim_strip; reflexivity|]. vm_compute. reflexivity.
Qed.
Print Assumptions C58_blanks_refuted.

Example C58_case :
  compare_cells [demo] [demo] = Ok true /\
  compare_cells [sheet_of (T "Data") [[VStr (T "a "); VInt 100000; VNone]]] [sheet_of (T "Other") [[VStr (T "a"); VInt 100001; VStr (T "  ")]]] = Ok true /\
  compare_cells [sheet_of (T "Data") [[VStr (T "a "); VInt 100000]]] [sheet_of (T "Data") [[VStr (T "a"); VInt 100002]]] = Err EAssert /\
  compare_cells [sheet_of (T "Data") [[VStr (T "a"); VNone]]] [sheet_of (T "Data") [[VStr (T "a"); VInt 0]]] = Err EAssert /\
  compare_cells [sheet_of (T "Data") [[day 2000 1 1]]] [sheet_of (T "Data") [[day 2000 1 2]]] = Err EAssert.
Proof. vm_compute. repeat split. Qed.

(** ** comparing the dates and the values of series *)

(** two ranges of dates of the four usual frequencies pass as equal when they
    are: looking at the frequency and at both ends is enough *)
Theorem C58_ranges s en f r s' en' f' r' : real_date s -> real_date en -> real_date s' -> real_date en' ->
  date_range s en (T f) = Ok r -> date_range s' en' (T f') = Ok r' ->
  (compare_period_ranges r r' = true <-> r = r' /\ pr_dates r <> []).
Proof.
  intros A B A' B' D D'. unfold compare_period_ranges. split.
  - intros H. apply andb_true_iff in H as [F H]. apply text_eqb_eq in F.
    unfold pr_first, pr_last in H.
    destruct (hd_error (pr_dates r)) as [a|] eqn:E1; [|discriminate]. destruct (hd_error (pr_dates r')) as [a'|] eqn:E2; [|discriminate].
    destruct (hd_error (rev (pr_dates r))) as [b|] eqn:E3; [|discriminate]. destruct (hd_error (rev (pr_dates r'))) as [b'|] eqn:E4; [|discriminate].
    apply andb_true_iff in H as [H1 H2]. apply dt_eqb_eq in H1, H2. subst a' b'.
    split; [|intros N; rewrite N in E1; discriminate].
    apply (same_range f s en r f' s' en' r'); auto; [split; [auto|split; congruence]|intros N; rewrite N in E1; discriminate].
  - intros [<- N]. rewrite text_eqb_refl. unfold pr_first, pr_last.
    destruct (pr_dates r) as [|d l] eqn:E; [congruence|]. cbn [hd_error].
    destruct (rev (d :: l)) as [|d' l'] eqn:E2; [apply (f_equal (@List.length _)) in E2; rewrite rev_length in E2; discriminate|].
    cbn [hd_error]. rewrite !dt_eqb_refl. auto.
Qed.
Print Assumptions C58_ranges.
Example C58_ranges_case : exists r r',
  date_range (mkdt 2000 1 15 0) (mkdt 2000 6 20 0) (T "M") = Ok r /\ date_range (mkdt 2000 2 1 0) (mkdt 2000 6 1 0) (T "M") = Ok r' /\
  compare_period_ranges r r' = true /\ List.length (pr_dates r) = 5%nat.
Proof. do 2 eexists. split; [vm_compute; reflexivity|]. split; [vm_compute; reflexivity|]. split; vm_compute; reflexivity. Qed.

(** lists of values pass when they agree value by value ... *)
Theorem C58_values fs gs : (forall f, In f fs \/ In f gs -> valid_binary prec emax f = true) ->
  compare_list_values (map VFloat fs) (map VFloat gs) = Ok true ->
  forall i f g, nth_error fs i = Some f -> nth_error gs i = Some g -> agree f g.
Proof.
  revert gs. induction fs as [|f fs IH]; intros [|g gs] V H [|i] a b A B; cbn in A, B; try discriminate; cbn [map compare_list_values] in H;
    apply bind_ok in H as [[|] [H1 H2]]; try discriminate.
  - injection A as <-. injection B as <-. apply approx_agree; auto; apply V; [left|right]; left; auto.
  - apply (IH gs) with i; auto. intros x [X|X]; apply V; [left|right]; right; auto.
Qed.
Print Assumptions C58_values.
Theorem C58_values_same fs : compare_list_values (map VFloat fs) (map VFloat fs) = Ok true.
Proof. induction fs as [|f fs IH]; cbn [map compare_list_values]; auto. rewrite approx_refl. auto. Qed.
Print Assumptions C58_values_same.
(** ... but the longer one may go on *)
Theorem C58_values_refuted : exists fs gs, compare_list_values (map VFloat fs) (map VFloat gs) = Ok true /\ List.length fs <> List.length gs.
Proof. exists [], [S754_nan]. split; [reflexivity|discriminate]. Qed.
Print Assumptions C58_values_refuted.
Example C58_values_case :
  compare_list_values (map VFloat [float_of_Z 3; S754_nan]) (map VFloat [float_of_Z 3; S754_nan]) = Ok true /\
  compare_list_values (map VFloat [float_of_Z 3; S754_nan]) (map VFloat [float_of_Z 4; S754_nan]) = Ok false.
Proof. split; vm_compute; reflexivity. Qed.
