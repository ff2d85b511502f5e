(** A request for a table with its index in several columns gives one frame with
    its dates, names and numbers (C73). *)
From Coq Require Import ZifyBool ZifyNat.
From Verif Require Import Base BaseFacts Cal Coord CoordFacts XlMethods Params ParseTime TimeIndex GetData PeriodRange Attempts DataFrame Scrape Xlseries
  SpecCal CalFacts CalProofs SpecCoord SpecCoordFacts SpecParams ParamsProofs SpecAttempts AttemptsFacts AttemptsProofs
  SpecTime TimeFacts TimeProofs TimeProofs2 RangeExact TimeEnd SpecData DataFacts DataProofs SpecFrames SpecScrape ScrapeFacts ScrapeProofs ScrapeProofs2
  SpecParse SpecSimple SpecColumns ColumnProofs SpecEnd EndFacts EndProofs EndAttempt EndBuild EndCall SpecText EndText SpecColumnsCall ColumnsBuild ColumnsRead.
Local Open Scope Z_scope.

Section Table.
Variables (e : env) (d : dict) (cells : list (Z * Z)) (times : list (Z * Z)) (z m : Z) (f : string) (se : settings)
  (names : list text) (ds : list datetime) (data : list (list spec_float)).
Hypothesis RQ : columns_request d cells times z m f se.
Hypothesis FREQ : periodic f.
Hypothesis NOIMP : se_missings se = true -> ~ In (VStr (pname "Implicit")) (se_markers se).

Definition columns_of (hs ts : list text) (i : nat) : sp :=
  mksp (se_align se) (asked d z m f se hs ts n_series_names i) (nth i hs []) VNone VNone z
    (if is_none (dgetN n_data_ends d) then None else Some m) (se_continuity se) (se_blanks se) (se_missings se) (VList (se_markers se)) 0 true
    (ThList ts) (se_composed se) (pname f).
Lemma ends_cases : dgetN n_data_ends d = VNone /\ ~ given (pname "data_ends") d \/ given (pname "data_ends") d /\ is_none (dgetN n_data_ends d) = false.
Proof.
  destruct (cq_ends _ _ _ _ _ _ _ RQ) as [G|G].
  - left. split; auto. apply ParamsProofs2.not_given_falsy. auto.
  - right. destruct G as [NL G]. split.
    + destruct G as [G|G]; eexists; split; try exact G; discriminate.
    + change n_data_ends with (pname "data_ends"). destruct G as [G|G]; rewrite (BuildInv.dgetN_some _ _ _ G); reflexivity.
Qed.

Lemma columns_exact a n hs ts i : m <> 0 -> (forall k, In k PARAM_NAMES -> fixed a n k (asked d z m f se hs ts k)) -> (i < n)%nat ->
  series_sp a i = Ok (columns_of hs ts i).
Proof.
  intros NZ F I. assert (AL : all_lists a n).
  { intros k K. destruct (F k K) as (l & E & L & _). eauto. }
  apply (fields_sp a n i _ AL I).
  assert (V : forall k, In k PARAM_NAMES -> series_value a k i (asked d z m f se hs ts k i)) by (intros k K; apply (fixed_value a n k _ i (F k K) I)).
  assert (V' : forall k, text_in k PARAM_NAMES = true -> series_value a k i (asked d z m f se hs ts k i)) by (intros k K; apply V, text_in_In; auto).
  constructor; unfold columns_of; cbn [sp_al sp_name sp_hc sp_comp sp_ctx sp_starts sp_ends sp_cont sp_blank sp_missings sp_mv sp_ta sp_multi sp_th sp_composed sp_freq].
  - eexists. split; [apply (V' n_alignment); reflexivity|]. change (asked d z m f se hs ts n_alignment i) with (VStr (align_text (se_align se))). destruct (se_align se); reflexivity.
  - apply (V' n_series_names); reflexivity.
  - eexists. split; [apply (V' n_headers_coord); reflexivity|]. reflexivity.
  - apply (V' n_composed); reflexivity.
  - apply (V' n_context); reflexivity.
  - eexists. split; [apply (V' n_data_starts); reflexivity|]. reflexivity.
  - eexists. split; [apply (V' n_data_ends); reflexivity|].
    change (asked d z m f se hs ts n_data_ends i) with (if is_none (dgetN n_data_ends d) then VNone else VInt m). destruct (is_none (dgetN n_data_ends d)); [reflexivity|].
    cbn [truthy as_int]. replace (negb (m =? 0)) with true by lia. reflexivity.
  - eexists. split; [apply (V' n_continuity); reflexivity|]. reflexivity.
  - eexists. split; [apply (V' n_blank_rows); reflexivity|]. reflexivity.
  - eexists. split; [apply (V' n_missings); reflexivity|]. reflexivity.
  - apply (V' n_missing_value); reflexivity.
  - eexists. split; [apply (V' n_time_alignment); reflexivity|]. reflexivity.
  - eexists. split; [apply (V' n_time_multicolumn); reflexivity|]. reflexivity.
  - eexists. split; [apply (V' n_time_header); reflexivity|].
    change (asked d z m f se hs ts n_time_header i) with (VList (map VStr ts)). cbn [as_theader].
    replace (mapM as_text (map VStr ts)) with (Ok ts : res (list text)); [reflexivity|]. clear. induction ts as [|x l IH]; auto. cbn [map mapM as_text bind]. rewrite <- IH. auto.
  - eexists. split; [apply (V' n_time_composed); reflexivity|]. reflexivity.
  - eexists. split; [apply (V' n_frequency); reflexivity|]. reflexivity.
Qed.

Lemma columns_holds s w ts time q v : names_cells ts times -> hd_error times = Some time -> sp_al s = se_align se -> sp_th s = ThList ts ->
  along (se_align se) w (line_of (se_align se) time) q = v -> holds s w q v.
Proof.
  intros TN HT A T E. destruct TN as [|t tc ts' times' TN _]; [discriminate|]. inversion HT; subst tc. unfold holds.
  destruct (se_align se) eqn:SA; cbn [along line_of] in E.
  - exists q, (snd time). split; auto. eapply ic_column; eauto. eapply ih_first. eauto.
  - exists (fst time), q. split; auto. eapply ic_row; eauto. eapply ih_first. eauto.
Qed.
(** the name and the values of every series, on the sheet with the index cleaned *)
Lemma columns_values wi hs ts time a n : n = List.length cells -> names_cells hs cells -> names_cells ts times -> hd_error times = Some time ->
  (forall k, In k PARAM_NAMES -> fixed a n k (asked d z m f se hs ts k)) ->
  m = z + Z.of_nat (List.length ds) - 1 -> m <> 0 ->
  (forall k x, nth_error ds k = Some x -> along (se_align se) wi (line_of (se_align se) time) (z + Z.of_nat k) = VDate x) ->
  Forall2 (fun rc vs => List.length vs = List.length ds /\ forall k x, nth_error vs k = Some x ->
    stands_for (se_missings se) (se_markers se) (along (se_align se) wi (line_of (se_align se) rc) (z + Z.of_nat k)) x) cells data ->
  table_names e d wi cells names ->
  forall i s name vs, series_sp a i = Ok s -> nth_error names i = Some name -> nth_error data i = Some vs ->
  series_name e wi s name /\ (exists hr hc, cell_named (sp_hc s) hr hc) /\ values_read (with_ends s m) wi vs.
Proof.
  intros EN NC TN HT F c1 NZ c3 c12 TNM i s name vs E N1 N2.
  assert (S0 : forall i, (i < n)%nat -> series_sp a i = Ok (columns_of hs ts i)) by (intros j I; apply (columns_exact a n); auto).
  assert (DS : forall s, sp_al s = se_align se -> sp_th s = ThList ts -> forall k x, nth_error ds k = Some x -> holds s wi (z + Z.of_nat k) (VDate x)).
  { intros s' A T k x K. eapply columns_holds; eauto. }
  assert (LN : List.length hs = List.length cells) by (apply ParamsProofs2.names_len; auto).
  assert (LNM : List.length names = List.length cells).
  { destruct TNM as [_ L _|_ F2]; auto. symmetry. eapply F2_len; eauto. }
    assert (I : (i < n)%nat) by (rewrite EN, <- LNM; apply nth_error_Some; congruence).
    rewrite (S0 i I) in E. inversion E; subst s. clear E.
    destruct (nth_error hs i) as [h|] eqn:HI; [|apply nth_error_None in HI; lia].
    destruct (nth_error cells i) as [[r c]|] eqn:CI; [|apply nth_error_None in CI; lia].
    assert (HN : cell_named h r c) by (apply (Forall2_nth_error2 _ _ _ NC _ _ _ HI CI)).
    assert (HC : sp_hc (columns_of hs ts i) = h) by (unfold columns_of; cbn [sp_hc]; apply nth_error_nth; auto).
    assert (CV := Forall2_nth_error2 _ _ _ c12 _ _ _ CI N2). cbn beta in CV. destruct CV as [CL CV].
    split; [|split].
    + destruct TNM as [G L NE|G F2].
      * apply sn_given; [|eapply (Forall_nth_error _ _ NE); eauto]. unfold columns_of. cbn [sp_name].
        change (asked d z m f se hs ts n_series_names i) with (match dgetN (pname "series_names") d with VList l => nth i l VNone | _ => VNone end).
        rewrite (BuildInv.dgetN_some _ _ _ G). apply nth_error_nth. rewrite nth_error_map, N1. reflexivity.
      * destruct (Forall2_nth_error2 _ _ _ F2 _ _ _ CI N1) as (u & W & ST). cbn [fst snd] in W.
        apply (sn_headers e wi (columns_of hs ts i) [] [] [] [] name name name).
        -- unfold columns_of. cbn [sp_name].
           change (asked d z m f se hs ts n_series_names i) with (match dgetN (pname "series_names") d with VList l => nth i l VNone | _ => VNone end).
           rewrite (ParamsProofs2.not_given_falsy _ _ G). constructor.
        -- exists r, c, u. rewrite HC. auto.
        -- apply en_none. constructor.
        -- constructor.
        -- constructor.
        -- apply en_none. constructor.
        -- constructor.
        -- constructor.
    + exists r, c. rewrite HC. auto.
    + apply (read_series (with_ends (columns_of hs ts i) m) wi r c) with (mk := se_markers se) (ds := ds) (m := m); auto.
      * unfold with_ends. cbn [sp_hc]. rewrite HC. auto.
      * change (sp_starts (with_ends (columns_of hs ts i) m)) with z. lia.
Qed.

(** the sheet [wi] with the index cleaned, where the dates are read *)
Lemma columns_read w wi hs ts time a n : n = List.length cells -> names_cells hs cells -> names_cells ts times -> hd_error times = Some time ->
  (forall k, In k PARAM_NAMES -> fixed a n k (asked d z m f se hs ts k)) -> series_count a n ->
  m = z + Z.of_nat (List.length ds) - 1 -> (2 <= List.length ds)%nat -> consecutive f ds ->
  (exists x, hd_error ds = Some x /\ period_start f x) -> Forall (fun x => real_date x /\ 1678 <= dt_y x <= 2261) ds ->
  1 <= z /\ (se_align se = Horiz -> m < 18278) ->
  (forall k x, nth_error ds k = Some x -> along (se_align se) wi (line_of (se_align se) time) (z + Z.of_nat k) = VDate x) ->
  Forall2 (fun rc vs => List.length vs = List.length ds /\ forall k x, nth_error vs k = Some x ->
    stands_for (se_missings se) (se_markers se) (along (se_align se) wi (line_of (se_align se) rc) (z + Z.of_nat k)) x) cells data ->
  table_names e d wi cells names ->
  (columns_series (se_align se) ts (T f) z m (columns_of hs ts 0) ->
    exists w', clean_time_index e w (columns_of hs ts 0) = (w', Ok m) /\ same_values wi w') ->
  exists pn cols, pandas_name f pn /\ column_names names cols /\ alone e w a = Ok [mkdf (mkpr (T pn) ds) cols data].
Proof.
  intros EN NC TN HT F CNT c1 c2 c4 c5 c6 [c8 c9] c3 c12 TNM CL0.
  assert (NZ : m <> 0) by lia.
  assert (AL : all_lists a n) by (intros k K; destruct (F k K) as (l & E & L & _); eauto).
  assert (S0 : forall i, (i < n)%nat -> series_sp a i = Ok (columns_of hs ts i)) by (intros i I; apply (columns_exact a n); auto).
  assert (NP : (0 < n)%nat).
  { destruct (cq_headers _ _ _ _ _ _ _ RQ) as (hv & _ & _ & NE). rewrite EN. destruct cells; [congruence|cbn; lia]. }
  assert (DS : forall s, sp_al s = se_align se -> sp_th s = ThList ts -> forall k x, nth_error ds k = Some x -> holds s wi (z + Z.of_nat k) (VDate x)).
  { intros s A T k x K. eapply columns_holds; eauto. }
  assert (REAL : Forall real_date ds) by (eapply Forall_impl; [|exact c6]; cbn; tauto).
  assert (LN : List.length hs = List.length cells) by (apply ParamsProofs2.names_len; auto).
  assert (LNM : List.length names = List.length cells).
  { destruct TNM as [_ L _|_ F2]; auto. symmetry. eapply F2_len; eauto. }
  assert (OP : forall i, columns_series (se_align se) ts (T f) z (z + Z.of_nat (List.length ds) - 1) (columns_of hs ts i)).
  { intros i. unfold columns_of, columns_series.
    cbn [sp_al sp_name sp_hc sp_comp sp_ctx sp_starts sp_ends sp_cont sp_blank sp_missings sp_mv sp_ta sp_multi sp_th sp_composed sp_freq].
    rewrite <- c1. destruct (is_none (dgetN n_data_ends d)); repeat (split; auto); intros MS; exists (se_markers se); split; auto; apply NOIMP; auto. }
  assert (TS : exists (t0 : text) (ts0 : list text), ts = t0 :: ts0 /\ cell_named t0 (fst time) (snd time)).
  { destruct TN as [|t0 tc ts0 times' TN _]; [discriminate|]. inversion HT; subst tc. eauto. }
  destruct TS as (t0 & ts0 & TS & TC).
  apply (ColumnsRead.attempt_cleaned e w wi a n (se_align se) f t0 ts0 (fst time) (snd time) z ds names data); auto.
  - eapply Forall_impl; [|exact c6]; cbn; tauto.
  - rewrite <- c1. exact c9.
  - destruct (is_none (dgetN n_data_ends d)) eqn:EE; [left|right]; intros i s I E; rewrite (S0 i I) in E; inversion E; unfold columns_of; cbn [sp_ends]; rewrite EE; congruence.
  - intros i I. exists (columns_of hs ts i). split; [auto|]. rewrite <- TS. apply OP.
  - intros s (A & T & _). apply DS; auto. congruence.
  - intros s E. rewrite (S0 0%nat NP) in E. inversion E; subst s. clear E. rewrite <- c1. apply CL0. rewrite c1. apply OP.
  - congruence.
  - rewrite EN. symmetry. eapply F2_len; eauto.
  - clear - c12. induction c12 as [|rc vs cells' data' [L _] _ IH]; constructor; auto.
  - rewrite <- c1. apply (columns_values wi hs ts time a n); auto.
Qed.


(** the index of the series *)
Lemma line_along ts w q (P : pyval -> list text -> Prop) tss hs i : names_cells ts times ->
  Forall2 (fun rc x => P (along (se_align se) w (line_of (se_align se) rc) q) x) times tss ->
  exists vs, Forall2 (line_cell (columns_of hs ts i) w q) ts vs /\ Forall2 P vs tss.
Proof using.
  clear RQ FREQ NOIMP. intros N. set (s := columns_of hs ts i). assert (A : sp_al s = se_align se) by reflexivity. clearbody s.
  revert tss. induction N as [|t rc ts' cs T N IH]; intros tss F; inversion F as [|? x ? l X Y]; subst; [exists []; split; constructor|].
  destruct (IH _ Y) as (vs & V1 & V2). exists (along (se_align se) w (line_of (se_align se) rc) q :: vs). split; constructor; auto.
  destruct (se_align se) eqn:SA; cbn [along line_of]; [eapply lc_column|eapply lc_row]; eauto.
Qed.
Lemma columns_lines ts w q v hs i : names_cells ts times -> columns_say (se_align se) w times q v -> lines_say (columns_of hs ts i) w q v.
Proof.
  intros N (tss & F & SD). destruct (line_along ts w q piece tss hs i N F) as (vs & V1 & V2). exists ts, vs, tss. auto.
Qed.
Lemma columns_dates ts w q hs i : names_cells ts times -> columns_dateless (se_align se) w times q -> no_dates_at (columns_of hs ts i) w q.
Proof.
  intros N F hs' h v E I L. cbn in E. inversion E; subst hs'. clear E.
  set (s := columns_of hs ts i) in *. assert (SA : sp_al s = se_align se) by reflexivity. clearbody s.
  assert (G : forall cs, Forall2 (fun t p => cell_named t (fst p) (snd p)) ts cs -> Forall (fun rc => plain_cell (along (se_align se) w (line_of (se_align se) rc) q)) cs -> plain_cell v).
  { clear F N. intros cs M. revert I. induction M as [|t rc ts' cs T M IH]; intros I FF; [destruct I|]. inversion FF; subst. destruct I as [->|I]; [|auto].
    apply cell_named_iff in T. inversion L as [r c A CN|r c A CN]; subst; apply cell_named_iff in CN; rewrite T in CN; inversion CN; subst;
      rewrite SA in A; rewrite A in *; cbn [along line_of] in *; auto. }
  apply (G times); auto.
Qed.
Lemma columns_last w hs ts last : limit d w (se_align se) m last -> last_one (columns_of hs ts 0) w last.
Proof.
  intros [G|G].
  - apply lo_given. unfold columns_of. cbn [sp_ends]. destruct ends_cases as [[_ NG]|[_ ->]]; [contradiction|auto].
  - assert (EE : sp_ends (columns_of hs ts 0) = None).
    { unfold columns_of. cbn [sp_ends]. destruct ends_cases as [[-> _]|[G' _]]; [reflexivity|contradiction]. }
    destruct (se_align se) eqn:SA; [apply lo_rows|apply lo_cols]; auto; unfold columns_of; cbn [sp_al]; auto.
Qed.
Lemma columns_stops w hs ts : names_cells ts times -> columns_stop d w times m se -> columns_end (columns_of hs ts 0) w m.
Proof.
  intros N (last & L & G). pose proof (columns_lines ts w) as CL. pose proof (columns_dates ts w) as CD.
  exists last. split; [apply columns_last; auto|]. destruct G as [[E D]|(A & LT & G)].
  - left. split; auto.
  - right. split; [exact A|]. split; auto. rewrite A in CL, CD. destruct G as [(C & B & S1 & D1)|(S1 & D1)].
    + left. split; [apply CL; auto|]. split; [apply CD; auto|]. unfold tolerates_blanks, columns_of. cbn [sp_cont sp_blank]. rewrite C, B. intros [X|X]; discriminate.
    + right. split; [intros q Q; apply CL; auto|apply CD; auto].
Qed.
End Table.

(** ** One attempt *)
Lemma columns_alone e d w cells times z m f se names ds data hs ts a :
  columns_request d cells times z m f se -> periodic f -> (se_missings se = true -> ~ In (VStr (pname "Implicit")) (se_markers se)) ->
  names_cells hs cells -> names_cells ts times ->
  (forall k, In k PARAM_NAMES -> fixed a (List.length cells) k (asked d z m f se hs ts k)) -> series_count a (List.length cells) ->
  columns_table e d w cells times z m f se ds data -> table_names e d w cells names ->
  exists pn cols, pandas_name f pn /\ column_names names cols /\ alone e w a = Ok [mkdf (mkpr (T pn) ds) cols data].
Proof.
  intros RQ FREQ NI NC TN F CNT [c1 c2 c0 (st & c3 & c3') c4 c5 c6 c7 c8 c9 c10 c11] TNM.
  set (s := columns_of d z m f se hs ts 0).
  destruct times as [|time times'] eqn:ET. { destruct (cq_several _ _ _ _ _ _ _ RQ) as [X _]. cbn in X. lia. }
  rewrite <- ET in *. assert (HT : hd_error times = Some time) by (rewrite ET; reflexivity). specialize (c10 time HT).
  assert (TS : exists (t0 : text) (ts0 : list text), ts = t0 :: ts0 /\ cell_named t0 (fst time) (snd time)).
  { destruct TN as [|t0 tc ts0 cs TN _]; [discriminate|]. inversion HT; subst tc. eauto. }
  destruct TS as (t & ts0 & TS & TC).
  assert (Y : forall q, z <= q <= m -> real_date (date_at ds z q) /\ 1678 <= dt_y (date_at ds z q) <= 2261).
  { intros q Q. assert (N : nth_error ds (Z.to_nat (q - z)) = Some (date_at ds z q)) by (apply date_at_nth; lia).
    apply (EndAttempt.Forall_nth_error _ _ c6) in N. exact N. }
  assert (OP : forall q, z < q <= m -> one_period f (date_at ds z (q - 1)) (date_at ds z q)).
  { intros q Q. apply (consecutive_next f ds c4 (Z.to_nat (q - 1 - z))); [apply date_at_nth; lia|].
    replace (S (Z.to_nat (q - 1 - z))) with (Z.to_nat (q - z)) by lia. apply date_at_nth; lia. }
  assert (CL : cleaned e w s (date_at ds z) m).
  { apply (c64_index e w s st); auto.
    - rewrite <- c3. split; [reflexivity|]. split.
      + exists t, ts0. split; [unfold s, columns_of; cbn [sp_th]; congruence|]. rewrite <- TS. clear - TN. induction TN as [|x y l l' H _ IH]; constructor; eauto.
      + split; [reflexivity|]. split; [apply (columns_stops d cells times z m f se RQ); auto|].
        change (sp_starts s) with z. change (sp_ta s) with 0. split; [|lia]. split; [lia|]. change (sp_al s) with (se_align se). destruct (se_align se); auto; try (apply c8; auto).
    - rewrite <- c3. unfold sequence. change (sp_starts s) with z. change (sp_missings s) with (se_missings se).
      split; [intros q Q; destruct (Y q Q); split; auto; lia|].
      destruct (se_missings se) eqn:MS; [left|right; auto]. split; auto. split.
      + unfold explicit_marker. change (sp_mv s) with (VList (se_markers se)). discriminate.
      + intros q Q. apply (period_earlier f); auto; apply Y; lia.
    - intros q Q. change (sp_starts s) with z in Q. destruct (c3' (Z.to_nat (q - z)) (date_at ds z q)) as (v & V1 & V2); [apply date_at_nth; lia|].
      exists v. split.
      + apply columns_lines with (times := times); auto. replace q with (z + Z.of_nat (Z.to_nat (q - z))) by lia. exact V1.
      + unfold previous. change (sp_starts s) with z. replace (date_before ds (Z.to_nat (q - z))) with (if q =? z then None else Some (date_at ds z (q - 1))) in V2; auto.
        destruct (q =? z) eqn:QZ; [replace (Z.to_nat (q - z)) with 0%nat by lia; reflexivity|].
        assert (K : Z.to_nat (q - z) = S (Z.to_nat (q - 1 - z))) by lia. rewrite K. cbn [date_before]. symmetry. apply date_at_nth. lia. }
  destruct CL as (w1 & CT & HD & UN). change (sp_ta s) with 0 in CT. rewrite Z.sub_0_r in CT. change (sp_starts s) with z in *.
  assert (TH : forall u, index_header s u -> u = t) by (intros u [v X|v l X]; cbn in X; congruence).
  assert (LINE : forall q, z <= q <= m -> along (se_align se) w1 (line_of (se_align se) time) q = VDate (date_at ds z q)).
  { intros q Q. destruct (HD q Q) as (i & j & IC & E). rewrite <- E.
    pose proof (proj1 (cell_named_iff _ _ _) TC) as TC'. destruct IC as [u r c A IH CN|u r c A IH CN]; apply TH in IH; subst u; apply cell_named_iff in CN; rewrite TC' in CN; inversion CN; subst;
      change (sp_al s) with (se_align se) in A; rewrite A; reflexivity. }
  assert (OTHER : forall rc q, line_of (se_align se) rc <> line_of (se_align se) time -> along (se_align se) w1 (line_of (se_align se) rc) q = along (se_align se) w (line_of (se_align se) rc) q).
  { pose proof (proj1 (cell_named_iff _ _ _) TC) as TC'.
    intros rc q NE. destruct (se_align se) eqn:SA; cbn [along] in *; apply UN; intros q' Q IC;
      inversion IC as [u r c A IH CN|u r c A IH CN]; change (sp_al s) with (se_align se) in A; rewrite SA in A; try discriminate;
      apply TH in IH; subst; apply cell_named_iff in CN; rewrite TC' in CN; inversion CN; subst; apply NE; cbn [line_of]; congruence. }
  apply (columns_read e d cells times z m f se names ds data RQ FREQ NI w w1 hs ts time a (List.length cells)); auto.
  - intros k x K. assert (KL : (k < List.length ds)%nat) by (apply nth_error_Some; congruence).
    rewrite LINE by lia. f_equal. assert (N : nth_error ds (Z.to_nat (z + Z.of_nat k - z)) = Some (date_at ds z (z + Z.of_nat k))) by (apply date_at_nth; lia).
    replace (Z.to_nat (z + Z.of_nat k - z)) with k in N by lia. congruence.
  - clear - c10 c11 OTHER. induction c11 as [|rc vs cells' data' [L V] _ IH]; constructor; inversion c10; subst; auto.
    split; auto. intros k x K. rewrite OTHER; auto.
  - destruct TNM as [G L N|G FN]; [apply tn_given; auto|apply tn_headers; auto].
    clear - c10 FN OTHER. induction FN as [|rc n cells' names' (u & W & ST) _ IH]; constructor; inversion c10; subst; auto.
    exists u. split; auto. specialize (OTHER rc (depth_of (se_align se) rc)). destruct (se_align se); cbn [along line_of depth_of] in *; rewrite OTHER; auto.
  - intros _. exists w1. split; auto. intros i j. reflexivity.
Qed.

(** ** The same table on an equal sheet *)
Lemma columns_same w w' e d cells times z m f se ds data : same_sheet w w' -> columns_table e d w cells times z m f se ds data -> columns_table e d w' cells times z m f se ds data.
Proof.
  intros SM. pose proof SM as (_ & MR & MC & C).
  assert (CS : forall al q v, columns_say al w times q v -> columns_say al w' times q v).
  { intros al q v (tss & F & SD). exists tss. split; auto. eapply F2_imp; [|exact F]. intros rc l P. rewrite <- (along_same _ _ SM). auto. }
  assert (CD : forall al q, columns_dateless al w times q -> columns_dateless al w' times q).
  { intros al q F. eapply Forall_impl; [|exact F]. intros rc P. cbn beta in *. rewrite <- (along_same _ _ SM). auto. }
  intros [c1 c2 c0 (st & c3 & c3') c4 c5 c6 c7 c8 c9 c10 c11]. constructor; auto.
  - exists st. split; auto. intros k x K. destruct (c3' k x K) as (v & V1 & V2). exists v. auto.
  - destruct c9 as (last & L & G). exists last. split.
    + destruct L as [L|L]; [apply li_given; auto|]. rewrite MR, MC. apply li_sheet. auto.
    + destruct G as [[E D]|(A & LT & [(C1 & B & S1 & D1)|(S1 & D1)])]; [left; auto| |]; right; (split; [exact A|]; split; [exact LT|]).
      * left. split; [exact C1|]. split; [exact B|]. split; auto.
      * right. split; auto.
  - eapply F2_imp; [|exact c11]. intros rc l (L & V). split; auto. intros k x K. rewrite <- (along_same _ _ SM). auto.
Qed.

(** ** The call *)
Lemma c73 e uni json st wb q preserve name i d cells times z m f se names ds data :
  wb_ok st wb -> resolves uni strip (names_of st wb) q name -> first_such (fun i => title (sheet st i) = name) wb i ->
  bounded (sheet st i) ->
  columns_request d cells times z m f se -> (List.length times <= List.length cells)%nat -> (se_missings se = true -> ~ In (VStr (pname "Implicit")) (se_markers se)) ->
  columns_table e d (sheet st i) cells times z m f se ds data -> table_names e d (sheet st i) cells names ->
  exists n cols pid, pandas_name f n /\ column_names names cols /\
    snd (get_data_frames e uni json st wb (UInput (PDict d)) q false preserve) = Ok (DF (mkdf (mkpr (T n) ds) cols data), name, pid).
Proof.
  intros WB RES FS BO RQ FEW NOIMP CT TN.
  assert (FREQ : periodic f).
  { destruct (lt_index _ _ _ _ _ _ _ _ _ _ _ CT) as (sty & -> & _). destruct sty; cbn; tauto. }
  assert (NM : ~ given (pname "series_names") d \/ exists ns, dget (pname "series_names") d = Some (VList (map VStr ns)) /\ List.length ns = List.length cells).
  { destruct TN as [G L _|G _]; eauto. }
  assert (AFT := lt_after _ _ _ _ _ _ _ _ _ _ _ CT).
  assert (FL : Forall (fun c => In c (pname "ASQMWD")) (pname f)).
  { destruct FREQ as [<-|[<-|[<-|[<-|[<-|[]]]]]]; cbn; (constructor; [|constructor]); repeat first [left; reflexivity|right]. }
  destruct (ColumnsBuild.request_built json d cells times z m f se RQ FEW AFT NM FL) as (p & HP).
  destruct (ColumnsBuild.request_ready json d cells times z m f se RQ FEW AFT NM p HP) as (hs & ts & NC & TH & RDY).
  pose proof (ColumnsBuild.request_count json d cells times z m f se RQ FEW AFT NM p HP) as CNT.
  assert (NE : d <> []) by (eapply ColumnsBuild.request_nonempty; eauto).
  assert (PO : parameters_object p) by (eapply object_made; eauto).
  assert (POS : (0 < List.length cells)%nat).
  { destruct (cq_headers _ _ _ _ _ _ _ RQ) as (hv & _ & _ & N0). destruct cells; [congruence|cbn; lia]. }
  destruct (first_attempt p (List.length cells) _ PO CNT POS RDY) as (l & a & D & H & F).
  assert (MV : ~ unset p (pname "missing_value")).
  { intros U. destruct (ready_unset p (List.length cells) _ PO RDY _ U) as [_ [vv [v [S _]]]]. destruct (searchable_not_optional _ _ _ S) as (_ & _ & X). auto. }
  assert (CA : series_count a (List.length cells)).
  { assert (IA : In a l) by (destruct l; inversion H; left; auto). apply (c18 p l a _ PO CNT POS MV D IA). }
  set (P := fun frs => exists n cols, pandas_name f n /\ column_names names cols /\ frs = [mkdf (mkpr (T n) ds) cols data]).
  assert (ALONE : forall w, same_sheet (sheet st i) w -> exists fr, alone e w a = Ok fr /\ P fr).
  { intros w SM. assert (T2 := columns_same _ _ _ _ _ _ _ _ _ _ _ _ SM CT). assert (T3 := names_same _ _ SM _ _ _ _ TN).
    destruct (columns_alone e d w cells times z m f se names ds data hs ts a RQ FREQ NOIMP NC TH F CA T2 T3) as (n & cols & P1 & P2 & P3).
    eexists. split; [exact P3|]. exists n, cols. auto. }
  destruct (c23_sheet e uni json st wb (UInput (PDict d)) q false preserve WB I name p RES (object_built json st _ p HP)) as (i' & st2 & si & pid & FS' & PF & PT & PP & S1 & S2 & ->).
  rewrite (first_such_det _ _ _ _ FS' FS) in *. pose proof (copy_same _ BO) as SM. pose proof (copy_same _ (copy_bounded (sheet st i))) as SM2.
  assert (R : exists st' out pid' frs, scrape e false st2 si pid = (st', Ok (out, pid')) /\ handed frs (unwrap_result out) /\ P frs).
  { apply (scrape_first e st2 si pid l a P); auto.
    - rewrite PP. auto.
    - apply ALONE. destruct preserve; [rewrite PT by auto; auto|]. destruct (PF eq_refl) as [_ ->]. repeat (split; auto).
    - apply ALONE. destruct preserve; [rewrite PT by auto; eapply EndCall.same_trans; eauto|]. destruct (PF eq_refl) as [_ ->]. auto. }
  destruct R as (st' & out & pid' & fr & -> & U & (n & cols & P1 & P2 & ->)). exists n, cols, pid'. split; auto. split; auto.
  assert (UW : unwrap_result out = DF (mkdf (mkpr (T n) ds) cols data)) by (destruct U as [(x & E1 & E2)|[N _]]; [congruence|cbn in N; lia]).
  rewrite <- UW. auto.
Qed.
