(** Proofs for C91: the parts. *)
From Coq Require Import ZifyBool ZifyNat.
From Verif Require Import Base BaseFacts Cal Coord CoordFacts XlMethods Params ParseTime TimeIndex TimeProofs GetData PeriodRange DataFrame Scrape Xlseries
  SpecCoord SpecCoordFacts SpecParams ParamsProofs3 SpecAttempts SpecTime SpecData DataFacts SpecReach SpecFrames SpecScrape ScrapeFacts ScrapeProofs ScrapeProofs2 ReachProofs ReachProofs2 ReachProofs3 SpecSelect SelectProofs SelectProofs2 SelectProofs3 SelectProofs4 SpecNaming SpecValue SpecWrite.
Local Open Scope Z_scope.

(** ** The record of a series with other marks *)
Definition remark (s : sp) (mv : pyval) : sp :=
  mksp (sp_al s) (sp_name s) (sp_hc s) (sp_comp s) (sp_ctx s) (sp_starts s) (sp_ends s) (sp_cont s) (sp_blank s) (sp_missings s) mv (sp_ta s) (sp_multi s) (sp_th s) (sp_composed s) (sp_freq s).
Lemma body_remark f f' : (forall k, k <> n_missing_value -> f' k = f k) -> body f' = (do s <- body f; Ok (remark s (f' n_missing_value))).
Proof.
  intros E. unfold body.
  assert (X : forall g, sp_of (map (fun k => (k, g k)) PARAM_NAMES) =
    do al' <- as_align (g n_alignment); do hc' <- as_text (g n_headers_coord); do ds' <- as_int (g n_data_starts);
    do de' <- (if truthy (g n_data_ends) then do z <- as_int (g n_data_ends); Ok (Some z) else Ok None);
    do ta' <- as_int (g n_time_alignment); do th' <- as_theader (g n_time_header); do fr' <- as_text (g n_frequency);
    Ok (mksp al' (g n_series_names) hc' (g n_composed) (g n_context) ds' de' (truthy (g n_continuity)) (truthy (g n_blank_rows)) (truthy (g n_missings)) (g n_missing_value) ta'
        (truthy (g n_time_multicolumn)) th' (truthy (g n_time_composed)) fr')) by (intros g; reflexivity).
  rewrite !X. clear X.
  rewrite (E n_alignment), (E n_headers_coord), (E n_data_starts), (E n_data_ends), (E n_time_alignment), (E n_time_header), (E n_frequency), (E n_continuity), (E n_blank_rows), (E n_missings), (E n_time_multicolumn), (E n_time_composed), (E n_series_names), (E n_composed), (E n_context) by discriminate.
  destruct (as_align (f n_alignment)); cbn [bind]; [|reflexivity]. destruct (as_text (f n_headers_coord)); cbn [bind]; [|reflexivity]. destruct (as_int (f n_data_starts)); cbn [bind]; [|reflexivity].
  destruct (if truthy (f n_data_ends) then _ else _); cbn [bind]; [|reflexivity]. destruct (as_int (f n_time_alignment)); cbn [bind]; [|reflexivity].
  destruct (as_theader (f n_time_header)); cbn [bind]; [|reflexivity]. destruct (as_text (f n_frequency)); cbn [bind]; reflexivity.
Qed.
Lemma body_marks f s : body f = Ok s -> sp_mv s = f n_missing_value /\ sp_missings s = truthy (f n_missings).
Proof.
  unfold body. intros H.
  assert (X : forall g, sp_of (map (fun k => (k, g k)) PARAM_NAMES) =
    do al' <- as_align (g n_alignment); do hc' <- as_text (g n_headers_coord); do ds' <- as_int (g n_data_starts);
    do de' <- (if truthy (g n_data_ends) then do z <- as_int (g n_data_ends); Ok (Some z) else Ok None);
    do ta' <- as_int (g n_time_alignment); do th' <- as_theader (g n_time_header); do fr' <- as_text (g n_frequency);
    Ok (mksp al' (g n_series_names) hc' (g n_composed) (g n_context) ds' de' (truthy (g n_continuity)) (truthy (g n_blank_rows)) (truthy (g n_missings)) (g n_missing_value) ta'
        (truthy (g n_time_multicolumn)) th' (truthy (g n_time_composed)) fr')) by (intros g; reflexivity).
  rewrite X in H. repeat match type of H with bind _ _ = Ok _ => apply bind_ok in H; destruct H as (? & _ & H) end. injection H as <-. auto.
Qed.
(** the cleaning does not look into a list of marks *)
Lemma clean_remark e w s ms ms' : sp_mv s = VList ms -> clean_time_index e w (remark s (VList ms')) = clean_time_index e w s.
Proof.
  intros M.
  assert (CP : forall l c fr mi, correct_progression l c fr mi (VList ms') = correct_progression l c fr mi (VList ms)) by (intros; reflexivity).
  assert (CS : forall st d, correct_state (remark s (VList ms')) st d = correct_state s st d).
  { intros st d. unfold correct_state. rewrite M. cbn [remark sp_freq sp_missings sp_mv]. reflexivity. }
  assert (P : forall st c n, process_value e (remark s (VList ms')) st c n = process_value e s st c n).
  { intros st c n. unfold process_value. cbv zeta. change (sp_composed (remark s (VList ms'))) with (sp_composed s). change (sp_freq (remark s (VList ms'))) with (sp_freq s).
    destruct (parse_with_pool _ _ _ _ _ _) as [k r]. f_equal. destruct r as [d|]; cbn [bind]; auto. rewrite CS. reflexivity. }
  assert (CL : forall tl wl positions prev st, clean_loop e (remark s (VList ms')) tl wl positions prev st = clean_loop e s tl wl positions prev st).
  { intros tl wl. induction positions as [|pos rest IH]; intros prev st; cbn [clean_loop]; [reflexivity|].
    change (sp_al (remark s (VList ms'))) with (sp_al s). change (sp_ta (remark s (VList ms'))) with (sp_ta s). change (sp_cont (remark s (VList ms'))) with (sp_cont s). change (sp_blank (remark s (VList ms'))) with (sp_blank s).
    destruct (do c <- time_value e (sp_al s) (cs_ws st) tl pos; do n <- time_value e (sp_al s) (cs_ws st) tl (pos + 1); do _ <- axis_read (sp_al s) (cs_ws st) wl pos; Ok (c, n)) as [[c n]|x]; [|reflexivity].
    destruct (must_be_time (negb (sp_ta s =? 0)) c).
    - rewrite P. destruct (process_value e s _ c n) as [k r]. destruct r as [[[d ls] lf]|x]; [apply IH|]. destruct (exn_eqb x EDay || exn_eqb x EMonth); [apply IH|reflexivity].
    - destruct ((cs_count st <? NO_TIME_VALUE_LIMIT) && (negb (sp_cont s) || sp_blank s)); [apply IH|reflexivity]. }
  unfold clean_time_index. replace (find (fun k => combo_accepts k (remark s (VList ms'))) combos) with (find (fun k => combo_accepts k s) combos) by reflexivity.
  destruct (find _ combos) as [k|]; [|reflexivity]. destruct (k_multitable k); [reflexivity|]. unfold clean_single_table, last_position. cbn [remark sp_al sp_starts sp_ends sp_multi sp_th].
  destruct (zrange _ _); [reflexivity|]. destruct (time_lines _ _ _); [|reflexivity]. destruct (write_line _ _); [|reflexivity]. apply CL.
Qed.

(** ** Marks *)
Lemma in_plain ms v : (forall m, In m ms -> m = VNone \/ exists t, m = VStr t) -> existsb (fun x => py_eq v x) ms = true <-> In v ms.
Proof.
  intros P. rewrite existsb_exists. split.
  - intros (m & I & E). destruct (P m I) as [->|(t & ->)].
    + destruct v; try discriminate E. exact I.
    + apply py_eq_str in E. subst. exact I.
  - intros I. exists v. split; auto. destruct (P v I) as [->|(t & ->)]; auto. cbn. apply text_eqb_refl.
Qed.
Lemma in_marks2 ms ms' v v' : (forall m, In m ms -> m = VNone \/ exists t, m = VStr t) -> (forall m, In m ms' -> m = VNone \/ exists t, m = VStr t) ->
  (In v' ms' <-> In v ms) -> existsb (fun x => py_eq v' x) ms' = existsb (fun x => py_eq v x) ms.
Proof.
  intros P P' E. destruct (existsb (fun x => py_eq v x) ms) eqn:A.
  - apply (in_plain ms v P) in A. apply (in_plain ms' v' P'). tauto.
  - destruct (existsb (fun x => py_eq v' x) ms') eqn:B; auto. apply (in_plain ms' v' P') in B. apply E in B. apply (in_plain ms v P) in B. congruence.
Qed.
(** what one cell gives *)
Definition taken (s : sp) (v : pyval) : res (option spec_float) :=
  match (if sp_cont s then handle_continuous v (sp_missings s) (sp_blank s) (sp_mv s) else handle_non_continuous v (sp_missings s) (sp_mv s)) with Ok x => Ok x | Err _ => Err EOther end.
Lemma tidy_facts v : tidy v -> is_none v = false /\ (match v with VStr t => VStr (strip t) | _ => v end) = v /\ (match v with VStr t => if Nat.eqb (List.length (strip t)) 0 then VNone else v | _ => v end) = v.
Proof.
  intros (A & B & C). apply stripped_iff in C. split; [destruct v; auto; congruence|]. destruct v; auto. cbn [strip_val] in C. injection C as C. rewrite <- C. split; auto.
  destruct t; [congruence|]. reflexivity.
Qed.
Lemma taken_reads s ms v y : sp_mv s = VList ms -> (forall m, In m ms -> m = VNone \/ exists t, m = VStr t) -> tidy v -> reads (sp_missings s) ms v y -> taken s v = Ok (Some y).
Proof.
  intros M P T R. destruct (tidy_facts v T) as (A1 & A2 & A3). unfold taken, handle_continuous, handle_non_continuous. rewrite A1, A2, A3, M, andb_false_r. cbv zeta. cbn [py_in bind].
  pose proof (in_plain ms v P) as IP. destruct R as [E I|y N F].
  - rewrite E. apply IP in I. rewrite I. destruct (sp_cont s); reflexivity.
  - rewrite F. destruct (sp_missings s) eqn:SM.
    + replace (existsb (fun x => py_eq v x) ms) with false; [destruct (sp_cont s); reflexivity|]. symmetry. destruct (existsb _ ms); auto. exfalso. apply N; auto. apply IP. auto.
    + destruct (sp_cont s); reflexivity.
Qed.
Lemma taken_same s ms ms' v : sp_mv s = VList ms -> (forall m, In m ms -> m = VNone \/ exists t, m = VStr t) -> (forall m, In m ms' -> m = VNone \/ exists t, m = VStr t) ->
  ms' = ms \/ (stripped v v /\ v <> VStr [] /\ (In v ms' <-> In v ms)) -> taken (remark s (VList ms')) v = taken s v.
Proof.
  intros M P P' [->|(C & B & I)]; unfold taken; cbn [remark sp_cont sp_missings sp_blank sp_mv]; rewrite M; [reflexivity|].
  assert (A2 : (match v with VStr t => VStr (strip t) | _ => v end) = v) by (apply stripped_iff in C; destruct v; auto).
  assert (A3 : (match v with VStr t => if Nat.eqb (List.length (strip t)) 0 then VNone else v | _ => v end) = v).
  { apply stripped_iff in C. destruct v; auto. cbn [strip_val] in C. injection C as C. rewrite <- C. destruct t; [congruence|]. reflexivity. }
  unfold handle_continuous, handle_non_continuous. rewrite A2, A3. cbv zeta. cbn [py_in bind]. rewrite (in_marks2 ms ms' v v P P' I). reflexivity.
Qed.
