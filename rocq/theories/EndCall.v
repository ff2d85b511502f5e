(** A request for a clean table gives one frame with its dates, names and
    numbers (C38). *)
From Coq Require Import ZifyBool ZifyNat.
From Verif Require Import Base BaseFacts Cal Coord CoordFacts XlMethods Params ParseTime TimeIndex GetData PeriodRange Attempts DataFrame Scrape Xlseries
  SpecCal CalFacts SpecCoord SpecCoordFacts SpecParams ParamsProofs SpecAttempts
  SpecTime TimeFacts TimeProofs SpecData DataFacts DataProofs SpecFrames SpecScrape ScrapeFacts ScrapeProofs ScrapeProofs2 SpecEnd EndFacts EndProofs EndAttempt EndBuild.
Local Open Scope Z_scope.

(** ** The values of one series *)
Lemma F2_len {A B} (R : A -> B -> Prop) l l' : Forall2 R l l' -> List.length l = List.length l'.
Proof. induction 1; cbn; congruence. Qed.
Lemma F2_imp {A B} (R R' : A -> B -> Prop) l l' : (forall a b, R a b -> R' a b) -> Forall2 R l l' -> Forall2 R' l l'.
Proof. intros H. induction 1; constructor; auto. Qed.
Lemma Forall2_nth_error2 {A B} (R : A -> B -> Prop) l l' : Forall2 R l l' -> forall i a b, nth_error l i = Some a -> nth_error l' i = Some b -> R a b.
Proof. induction 1 as [|x y l l' H _ IH]; intros [|i] a b E1 E2; cbn in *; try discriminate; [congruence|eauto]. Qed.
Lemma Forall_nth_error {A} (P : A -> Prop) l : Forall P l -> forall i a, nth_error l i = Some a -> P a.
Proof. intros H i a E. rewrite Forall_forall in H. apply H. eapply nth_error_In; eauto. Qed.
Section Column.
Variables (p : sp) (w : worksheet) (r c : Z).
Hypothesis header : cell_named (sp_hc p) r c.
Variable mk : list pyval.
Hypothesis the_markers : sp_mv p = VList mk.
Let v_at q := along (sp_al p) w (line_of (sp_al p) (r, c)) q.

Lemma own_at q : in_series p w q (v_at q).
Proof.
  unfold in_series, v_at. destruct (sp_al p) eqn:A; cbn [along line_of fst snd].
  - exists q, c. split; auto. eapply sc_column; eauto.
  - exists r, q. split; auto. eapply sc_row; eauto.
Qed.
Lemma stands_continuous v x : stands_for (sp_missings p) mk v x -> forall l vs, continuous_values p l vs -> continuous_values p (v :: l) (x :: vs).
Proof.
  intros [y N M|k MS NN NE ST I E] l vs C.
  - apply (cv_number p v (strip_val v) y); auto.
    + intros _ ->. inversion N.
    + apply stripped_iff; auto.
    + intros MS (ms & k & MV & I & E). rewrite the_markers in MV. inversion MV; subst ms.
      rewrite (M MS (strip_val v) k) in E; [discriminate| |auto]. right. apply stripped_iff. auto.
  - apply (cv_marker p v v); auto. exists mk, k. auto.
Qed.
Lemma stands_worth v x : stands_for (sp_missings p) mk v x -> worth p v x.
Proof.
  intros [y N M|k MS NN NE ST I E].
  - apply wo_number; auto. intros MS (ms & k & MV & I & E). rewrite the_markers in MV. inversion MV; subst ms.
    rewrite (M MS v k) in E; auto. discriminate.
  - apply (wo_marker p v v); auto; [|exists mk, k; auto]. apply co_other. intros t -> W.
    destruct t as [|ch t]; [congruence|]. inversion W; subst. inversion ST; subst; [|congruence].
    match goal with H : forall c r, _ = c :: r -> ~ white c |- _ => eapply H; eauto end.
Qed.
Lemma read_continuous : forall vs a en, en = a + Z.of_nat (List.length vs) - 1 ->
  (forall k x, nth_error vs k = Some x -> stands_for (sp_missings p) mk (v_at (a + Z.of_nat k)) x) ->
  exists cells, cells_from p w en a cells /\ continuous_values p cells vs.
Proof.
  induction vs as [|x vs IH]; intros a en E G.
  - exists []. split; constructor. cbn in E. lia.
  - destruct (IH (a + 1) en) as (cells & C1 & C2).
    + cbn [List.length] in E. lia.
    + intros k y K. replace (a + 1 + Z.of_nat k) with (a + Z.of_nat (S k)) by lia. apply G. auto.
    + exists (v_at a :: cells). split.
      * constructor; auto; [cbn [List.length] in E; lia|apply own_at].
      * apply stands_continuous; auto. replace a with (a + Z.of_nat 0) by lia. apply G. auto.
Qed.
Lemma read_loose ds : forall vs a en k0, en = a + Z.of_nat (List.length vs) - 1 -> sp_ta p = 0 ->
  (forall k x, nth_error vs k = Some x -> stands_for (sp_missings p) mk (v_at (a + Z.of_nat k)) x) ->
  (forall k, (k < List.length vs)%nat -> exists d : datetime, nth_error ds (k0 + k) = Some d /\ holds p w (a + Z.of_nat k) (VDate d)) ->
  exists pairs, dated_cells_from p w en a pairs /\ loose_values p pairs vs.
Proof.
  induction vs as [|x vs IH]; intros a en k0 E TA G D.
  - exists []. split; constructor. cbn in E. lia.
  - destruct (IH (a + 1) en (S k0)) as (cells & C1 & C2); auto.
    + cbn [List.length] in E. lia.
    + intros k y K. replace (a + 1 + Z.of_nat k) with (a + Z.of_nat (S k)) by lia. apply G. auto.
    + intros k K. destruct (D (S k)) as (d & D1 & D2); [cbn; lia|]. exists d. replace (S k0 + k)%nat with (k0 + S k)%nat by lia.
      replace (a + 1 + Z.of_nat k) with (a + Z.of_nat (S k)) by lia. auto.
    + destruct (D 0%nat) as (d & _ & D2); [cbn; lia|]. exists ((v_at a, VDate d) :: cells). split.
      * constructor; auto; [cbn [List.length] in E; lia|apply own_at|]. rewrite TA. exact D2.
      * apply lv_taken; auto; [eexists; reflexivity|]. apply stands_worth. replace a with (a + Z.of_nat 0) by lia. apply G. auto.
Qed.
Lemma read_series ds vs m : sp_ends p = Some m -> sp_ta p = 0 -> m = sp_starts p + Z.of_nat (List.length vs) - 1 ->
  (forall k x, nth_error vs k = Some x -> stands_for (sp_missings p) mk (v_at (sp_starts p + Z.of_nat k)) x) ->
  List.length vs = List.length ds -> (forall k d, nth_error ds k = Some d -> holds p w (sp_starts p + Z.of_nat k) (VDate d)) ->
  values_read p w vs.
Proof.
  intros EN TA E G L D. destruct (sp_cont p) eqn:CO.
  - destruct (read_continuous vs _ _ E G) as (cells & C1 & C2). eapply vr_continuous; eauto. exists m. auto.
  - destruct (read_loose ds vs (sp_starts p) m 0 E TA G) as (pairs & C1 & C2); [|eapply vr_loose; eauto].
    intros k K. destruct (nth_error ds (0 + k)) as [d|] eqn:ED; [exists d; auto|]. apply nth_error_None in ED. cbn in ED. lia.
Qed.
End Column.

(** ** One attempt *)
Section Table.
Variables (e : env) (d : dict) (cells : list (Z * Z)) (time : Z * Z) (z m : Z) (f : string) (se : settings)
  (names : list text) (ds : list datetime) (data : list (list spec_float)).
Hypothesis RQ : request d cells time z m f se.
Hypothesis FREQ : periodic f.
Hypothesis NOIMP : se_missings se = true -> ~ In (VStr (pname "Implicit")) (se_markers se).

Definition series_of (hs : list text) (t : text) (i : nat) : sp :=
  mksp (se_align se) (requested d z m f se hs t n_series_names i) (nth i hs []) VNone VNone z
    (if is_none (dgetN n_data_ends d) then None else Some m) (se_continuity se) (se_blanks se) (se_missings se) (VList (se_markers se)) 0 false
    (ThStr t) (se_composed se) (pname f).
Lemma ends_cases : dgetN n_data_ends d = VNone /\ ~ given (pname "data_ends") d \/ given (pname "data_ends") d /\ is_none (dgetN n_data_ends d) = false.
Proof.
  destruct (rq_ends _ _ _ _ _ _ _ RQ) as [G|G].
  - left. split; auto. apply ParamsProofs2.not_given_falsy. auto.
  - right. destruct G as [NL G]. split.
    + destruct G as [G|G]; eexists; split; try exact G; discriminate.
    + change n_data_ends with (pname "data_ends"). destruct G as [G|G]; rewrite (BuildInv.dgetN_some _ _ _ G); reflexivity.
Qed.

Lemma series_exact a n hs t i : m <> 0 -> (forall k, In k PARAM_NAMES -> fixed a n k (requested d z m f se hs t k)) -> (i < n)%nat ->
  series_sp a i = Ok (series_of hs t i).
Proof.
  intros NZ F I. assert (AL : all_lists a n).
  { intros k K. destruct (F k K) as (l & E & L & _). eauto. }
  apply (fields_sp a n i _ AL I).
  assert (V : forall k, In k PARAM_NAMES -> series_value a k i (requested d z m f se hs t k i)) by (intros k K; apply (fixed_value a n k _ i (F k K) I)).
  assert (V' : forall k, text_in k PARAM_NAMES = true -> series_value a k i (requested d z m f se hs t k i)) by (intros k K; apply V, text_in_In; auto).
  constructor; unfold series_of; cbn [sp_al sp_name sp_hc sp_comp sp_ctx sp_starts sp_ends sp_cont sp_blank sp_missings sp_mv sp_ta sp_multi sp_th sp_composed sp_freq].
  - eexists. split; [apply (V' n_alignment); reflexivity|]. change (requested d z m f se hs t n_alignment i) with (VStr (align_text (se_align se))). destruct (se_align se); reflexivity.
  - apply (V' n_series_names); reflexivity.
  - eexists. split; [apply (V' n_headers_coord); reflexivity|]. reflexivity.
  - apply (V' n_composed); reflexivity.
  - apply (V' n_context); reflexivity.
  - eexists. split; [apply (V' n_data_starts); reflexivity|]. reflexivity.
  - eexists. split; [apply (V' n_data_ends); reflexivity|].
    change (requested d z m f se hs t n_data_ends i) with (if is_none (dgetN n_data_ends d) then VNone else VInt m). destruct (is_none (dgetN n_data_ends d)); [reflexivity|].
    cbn [truthy as_int]. replace (negb (m =? 0)) with true by lia. reflexivity.
  - eexists. split; [apply (V' n_continuity); reflexivity|]. reflexivity.
  - eexists. split; [apply (V' n_blank_rows); reflexivity|]. reflexivity.
  - eexists. split; [apply (V' n_missings); reflexivity|]. reflexivity.
  - apply (V' n_missing_value); reflexivity.
  - eexists. split; [apply (V' n_time_alignment); reflexivity|]. reflexivity.
  - eexists. split; [apply (V' n_time_multicolumn); reflexivity|]. reflexivity.
  - eexists. split; [apply (V' n_time_header); reflexivity|]. reflexivity.
  - eexists. split; [apply (V' n_time_composed); reflexivity|]. reflexivity.
  - eexists. split; [apply (V' n_frequency); reflexivity|]. reflexivity.
Qed.

Lemma along_holds s w t q v : cell_named t (fst time) (snd time) -> sp_al s = se_align se -> sp_th s = ThStr t ->
  along (se_align se) w (line_of (se_align se) time) q = v -> holds s w q v.
Proof.
  intros TN A T E. unfold holds. destruct (se_align se) eqn:SA; cbn [along line_of] in E.
  - exists q, (snd time). split; auto. eapply ic_column; eauto. apply ih_one. auto.
  - exists (fst time), q. split; auto. eapply ic_row; eauto. apply ih_one. auto.
Qed.
Lemma table_last w hs t last : limit d w (se_align se) m last -> last_one (series_of hs t 0) w last.
Proof.
  intros [G|G].
  - apply lo_given. unfold series_of. cbn [sp_ends]. destruct ends_cases as [[_ NG]|[_ ->]]; [contradiction|auto].
  - assert (EE : sp_ends (series_of hs t 0) = None).
    { unfold series_of. cbn [sp_ends]. destruct ends_cases as [[-> _]|[G' _]]; [reflexivity|contradiction]. }
    destruct (se_align se) eqn:SA; [apply lo_rows|apply lo_cols]; auto; unfold series_of; cbn [sp_al]; auto.
Qed.
Lemma stops_ends w hs t : cell_named t (fst time) (snd time) -> stops d w time m se -> index_ends (series_of hs t 0) w m.
Proof.
  intros TN (last & c10 & c11). exists last. split; [apply table_last; auto|].
  destruct c11 as [->|(SA & L & B)]; [left; auto|]. right. split; [unfold series_of; cbn [sp_al]; auto|]. split; auto.
  assert (BL : forall q, blank_cell (cell w q (snd time)) -> blank_at (series_of hs t 0) w q).
  { intros q Q. exists (cell w q (snd time)). split.
    - eapply along_holds; eauto; try reflexivity. rewrite SA. reflexivity.
    - destruct Q as [->|(u & -> & W)]; [constructor|]. apply nt_white. auto. }
  destruct B as [(B1 & B2 & B3)|B]; [left|right].
  - split; [apply BL; auto|]. unfold tolerates_blanks, series_of. cbn [sp_cont sp_blank]. rewrite B1, B2. intros [X|X]; discriminate.
  - intros q Q. apply BL. auto.
Qed.
(** the name and the values of every series, on the sheet with the index cleaned *)
Lemma table_values wi hs t a n : n = List.length cells -> names_cells hs cells -> cell_named t (fst time) (snd time) ->
  (forall k, In k PARAM_NAMES -> fixed a n k (requested d z m f se hs t k)) ->
  m = z + Z.of_nat (List.length ds) - 1 -> m <> 0 ->
  (forall k x, nth_error ds k = Some x -> along (se_align se) wi (line_of (se_align se) time) (z + Z.of_nat k) = VDate x) ->
  Forall2 (fun rc vs => List.length vs = List.length ds /\ forall k x, nth_error vs k = Some x ->
    stands_for (se_missings se) (se_markers se) (along (se_align se) wi (line_of (se_align se) rc) (z + Z.of_nat k)) x) cells data ->
  table_names e d wi cells names ->
  forall i s name vs, series_sp a i = Ok s -> nth_error names i = Some name -> nth_error data i = Some vs ->
  series_name e wi s name /\ (exists hr hc, cell_named (sp_hc s) hr hc) /\ values_read (with_ends s m) wi vs.
Proof.
  intros EN NC TN F c1 NZ c3 c12 TNM i s name vs E N1 N2.
  assert (S0 : forall i, (i < n)%nat -> series_sp a i = Ok (series_of hs t i)) by (intros j I; apply (series_exact a n); auto).
  assert (DS : forall s, sp_al s = se_align se -> sp_th s = ThStr t -> forall k x, nth_error ds k = Some x -> holds s wi (z + Z.of_nat k) (VDate x)).
  { intros s' A T k x K. eapply along_holds; eauto. }
  assert (LN : List.length hs = List.length cells) by (apply ParamsProofs2.names_len; auto).
  assert (LNM : List.length names = List.length cells).
  { destruct TNM as [_ L _|_ F2]; auto. symmetry. eapply F2_len; eauto. }
    assert (I : (i < n)%nat) by (rewrite EN, <- LNM; apply nth_error_Some; congruence).
    rewrite (S0 i I) in E. inversion E; subst s. clear E.
    destruct (nth_error hs i) as [h|] eqn:HI; [|apply nth_error_None in HI; lia].
    destruct (nth_error cells i) as [[r c]|] eqn:CI; [|apply nth_error_None in CI; lia].
    assert (HN : cell_named h r c) by (apply (Forall2_nth_error2 _ _ _ NC _ _ _ HI CI)).
    assert (HC : sp_hc (series_of hs t i) = h) by (unfold series_of; cbn [sp_hc]; apply nth_error_nth; auto).
    assert (CV := Forall2_nth_error2 _ _ _ c12 _ _ _ CI N2). cbn beta in CV. destruct CV as [CL CV].
    split; [|split].
    + destruct TNM as [G L NE|G F2].
      * apply sn_given; [|eapply (Forall_nth_error _ _ NE); eauto]. unfold series_of. cbn [sp_name].
        change (requested d z m f se hs t n_series_names i) with (match dgetN (pname "series_names") d with VList l => nth i l VNone | _ => VNone end).
        rewrite (BuildInv.dgetN_some _ _ _ G). apply nth_error_nth. rewrite nth_error_map, N1. reflexivity.
      * destruct (Forall2_nth_error2 _ _ _ F2 _ _ _ CI N1) as (u & W & ST). cbn [fst snd] in W.
        apply (sn_headers e wi (series_of hs t i) [] [] [] [] name name name).
        -- unfold series_of. cbn [sp_name].
           change (requested d z m f se hs t n_series_names i) with (match dgetN (pname "series_names") d with VList l => nth i l VNone | _ => VNone end).
           rewrite (ParamsProofs2.not_given_falsy _ _ G). constructor.
        -- exists r, c, u. rewrite HC. auto.
        -- apply en_none. constructor.
        -- constructor.
        -- constructor.
        -- apply en_none. constructor.
        -- constructor.
        -- constructor.
    + exists r, c. rewrite HC. auto.
    + apply (read_series (with_ends (series_of hs t i) m) wi r c) with (mk := se_markers se) (ds := ds) (m := m); auto.
      * unfold with_ends. cbn [sp_hc]. rewrite HC. auto.
      * change (sp_starts (with_ends (series_of hs t i) m)) with z. lia.
Qed.

(** the sheet [wi] with the index cleaned, where the dates are read *)
Lemma table_read w wi hs t a n : n = List.length cells -> names_cells hs cells -> cell_named t (fst time) (snd time) ->
  (forall k, In k PARAM_NAMES -> fixed a n k (requested d z m f se hs t k)) ->
  m = z + Z.of_nat (List.length ds) - 1 -> (2 <= List.length ds)%nat -> consecutive f ds ->
  (exists x, hd_error ds = Some x /\ period_start f x) -> Forall (fun x => real_date x /\ 1678 <= dt_y x <= 2261) ds ->
  1 <= z /\ (se_align se = Horiz -> m < 18278) ->
  (forall k x, nth_error ds k = Some x -> along (se_align se) wi (line_of (se_align se) time) (z + Z.of_nat k) = VDate x) ->
  Forall2 (fun rc vs => List.length vs = List.length ds /\ forall k x, nth_error vs k = Some x ->
    stands_for (se_missings se) (se_markers se) (along (se_align se) wi (line_of (se_align se) rc) (z + Z.of_nat k)) x) cells data ->
  table_names e d wi cells names ->
  (open_series (se_align se) t (T f) z m (series_of hs t 0) ->
    exists w', clean_time_index e w (series_of hs t 0) = (w', Ok m) /\ same_values wi w') ->
  exists pn cols, pandas_name f pn /\ column_names names cols /\ alone e w a = Ok [mkdf (mkpr (T pn) ds) cols data].
Proof.
  intros EN NC TN F c1 c2 c4 c5 c6 [c8 c9] c3 c12 TNM CL0.
  assert (NZ : m <> 0) by lia.
  assert (AL : all_lists a n) by (intros k K; destruct (F k K) as (l & E & L & _); eauto).
  assert (S0 : forall i, (i < n)%nat -> series_sp a i = Ok (series_of hs t i)) by (intros i I; apply (series_exact a n); auto).
  assert (NP : (0 < n)%nat).
  { destruct (rq_headers _ _ _ _ _ _ _ RQ) as (hv & _ & _ & NE). rewrite EN. destruct cells; [congruence|cbn; lia]. }
  assert (DS : forall s, sp_al s = se_align se -> sp_th s = ThStr t -> forall k x, nth_error ds k = Some x -> holds s wi (z + Z.of_nat k) (VDate x)).
  { intros s A T k x K. eapply along_holds; eauto. }
  assert (REAL : Forall real_date ds) by (eapply Forall_impl; [|exact c6]; cbn; tauto).
  assert (LN : List.length hs = List.length cells) by (apply ParamsProofs2.names_len; auto).
  assert (LNM : List.length names = List.length cells).
  { destruct TNM as [_ L _|_ F2]; auto. symmetry. eapply F2_len; eauto. }
  assert (OP : forall i, open_series (se_align se) t (T f) z (z + Z.of_nat (List.length ds) - 1) (series_of hs t i)).
  { intros i. unfold series_of, open_series.
    cbn [sp_al sp_name sp_hc sp_comp sp_ctx sp_starts sp_ends sp_cont sp_blank sp_missings sp_mv sp_ta sp_multi sp_th sp_composed sp_freq].
    rewrite <- c1. destruct (is_none (dgetN n_data_ends d)); repeat (split; auto); intros MS; exists (se_markers se); split; auto; apply NOIMP; auto. }
  apply (attempt_cleaned e w wi a n (se_align se) f t (fst time) (snd time) z ds names data); auto.
  - eapply Forall_impl; [|exact c6]; cbn; tauto.
  - rewrite <- c1. exact c9.
  - intros i I. exists (series_of hs t i). split; auto.
  - intros s (A & T & _). apply DS; auto.
  - intros s E. rewrite (S0 0%nat NP) in E. inversion E; subst s. clear E. rewrite <- c1. apply CL0. rewrite c1. apply OP.
  - congruence.
  - rewrite EN. symmetry. eapply F2_len; eauto.
  - clear - c12. induction c12 as [|rc vs cells' data' [L _] _ IH]; constructor; auto.
  - rewrite <- c1. apply (table_values wi hs t a n); auto.
Qed.

Lemma table_alone w hs t a n : n = List.length cells -> names_cells hs cells -> cell_named t (fst time) (snd time) ->
  (forall k, In k PARAM_NAMES -> fixed a n k (requested d z m f se hs t k)) ->
  real_dates w -> clean_table d w cells time z m f se ds data -> table_names e d w cells names ->
  exists pn cols, pandas_name f pn /\ column_names names cols /\ alone e w a = Ok [mkdf (mkpr (T pn) ds) cols data].
Proof.
  intros EN NC TN F RW CT TNM. pose proof CT as [c1 c0 c2 c3 c4 c5 c6 c7 [c8 c9] c10 c12].
  assert (REAL : Forall real_date ds).
  { apply Forall_forall. intros x X. apply In_nth_error in X as [k K]. pose proof (c3 k x K) as E.
    destruct (se_align se); cbn [along] in E; eapply RW; eauto. }
  apply (table_read w w hs t a n); auto.
  { rewrite Forall_forall in *. auto. }
  rewrite c1. intros O. apply (dates_cleaned e w (se_align se) f t (fst time) (snd time) z ds); auto.
  - rewrite <- c1. auto.
  - intros k x K. eapply along_holds; eauto.
  - rewrite <- c1. apply stops_ends; auto.
Qed.
End Table.

(** ** The same table on an equal sheet *)
Section Same.
Variables w w' : worksheet.
Hypothesis SAME : same_sheet w w'.
Lemma along_same al line q : along al w line q = along al w' line q.
Proof. destruct SAME as (_ & _ & _ & C). destruct al; apply C. Qed.
Lemma real_same : real_dates w -> real_dates w'.
Proof. destruct SAME as (_ & _ & _ & C). intros R r c d E. apply (R r c). rewrite C. auto. Qed.
Lemma stops_same d time m se : stops d w time m se -> stops d w' time m se.
Proof.
  destruct SAME as (_ & MR & MC & C). intros (last & c10 & c11). exists last. split.
  - destruct c10 as [G|G]; [apply li_given; auto|]. rewrite MR, MC. apply li_sheet. auto.
  - destruct c11 as [E|(A & L & [(B1 & B2 & B3)|B])]; [left; auto|right; split; auto; split; auto..].
    + left. rewrite <- C. auto.
    + right. intros q Q. rewrite <- C. auto.
Qed.
Lemma table_same d cells time z m f se ds data : clean_table d w cells time z m f se ds data -> clean_table d w' cells time z m f se ds data.
Proof.
  destruct SAME as (_ & MR & MC & C). intros [c1 c0 c2 c3 c4 c5 c6 c7 c8 c10 c12]. constructor; auto.
  - intros k x K. rewrite <- along_same. auto.
  - apply stops_same. auto.
  - eapply F2_imp; [|exact c12]. intros rc vs (L & V). split; auto. intros k x K. rewrite <- along_same. auto.
Qed.
Lemma names_same e d cells names : table_names e d w cells names -> table_names e d w' cells names.
Proof.
  destruct SAME as (_ & _ & _ & C). intros [G L N|G F]; [apply tn_given; auto|apply tn_headers; auto].
  eapply F2_imp; [|exact F]. intros rc n (u & W & ST). exists u. rewrite <- C. auto.
Qed.
End Same.

Lemma same_trans a b c : same_sheet a b -> same_sheet b c -> same_sheet a c.
Proof. intros (A1 & A2 & A3 & A4) (B1 & B2 & B3 & B4). split; [congruence|]. split; [congruence|]. split; [congruence|]. intros. rewrite A4. auto. Qed.

(** ** Scraping with the first attempt *)
Lemma handed_single frs : handed frs (unwrap_result (DL (map DF frs))).
Proof. destruct frs as [|x [|y frs]]; cbn; [right|left|right]; try (split; [cbn; lia|reflexivity]). exists x. auto. Qed.
Lemma handed_again frs out : handed frs out -> handed frs (unwrap_result out).
Proof. intros [(x & -> & ->)|[N ->]]; [left; exists x; auto|apply handed_single]. Qed.
Lemma scrape_first e st si pi l a (P : list df -> Prop) : (si < List.length (st_sheets st))%nat -> (pi < List.length (st_params st))%nat ->
  discover_parameters (params st pi) = Ok l -> hd_error l = Some a ->
  (exists frs, alone e (sheet st si) a = Ok frs /\ P frs) -> (exists frs, alone e (make_ws_copy (sheet st si)) a = Ok frs /\ P frs) ->
  exists st' out pid frs, scrape e false st si pi = (st', Ok (out, pid)) /\ handed frs (unwrap_result out) /\ P frs.
Proof.
  intros Hs Hp D H (fr & A1 & P1) (fr' & A2 & P2). destruct (Nat.eq_dec (List.length l) 1) as [L|L].
  - assert (G : forall st1 p0, attempt_objects st pi = (st1, Ok [p0]) -> (p0 < List.length (st_params st1))%nat -> st_sheets st1 = st_sheets st -> params st1 p0 = a ->
      exists st' out pid frs, scrape e false st si pi = (st', Ok (out, pid)) /\ handed frs (unwrap_result out) /\ P frs).
    { intros st1 p0 AO PL S1 PA. unfold scrape. rewrite AO, run_full; auto; [|rewrite S1; auto].
      replace (sheet st1 si) with (sheet st si) by (unfold sheet; rewrite S1; auto). rewrite PA. rewrite alone_full in A1. destruct (attempt_full e (sheet st si) a) as [[w' p'] r].
      cbn [snd] in A1. subst r. eexists _, _, _, fr. split; [reflexivity|]. split; auto. apply handed_single. }
    destruct (attempt_objects_one st pi l D L) as [[AO ->]|AO].
    + inversion H; subst. eapply G; eauto.
    + apply (G _ _ AO); pose proof (alloc_facts l st) as F; pose proof (alloc_params_at l st 0 a) as AT; destruct (alloc_params st l) as [st1 is];
        destruct F as (_ & F1 & _ & F3); cbn [fst] in *.
      * rewrite F3, app_length. lia.
      * auto.
      * rewrite Nat.add_0_r in AT. apply AT. destruct l; [discriminate|auto].
  - assert (N0 : nth_error l 0 = Some a) by (destruct l; [discriminate|auto]).
    assert (Hb : forall j b, (j < 0)%nat -> nth_error l j = Some b -> raises (alone e (make_ws_copy (sheet st si)) b)) by (intros; lia).
    destruct (c19_first e st si pi l 0 a fr' Hs D L N0 A2 Hb) as (st' & out & E & HA).
    exists st', out, (List.length (st_params st) + 0)%nat, fr'. split; auto. split; auto. apply handed_again. auto.
Qed.

(** ** The call *)
(** what the first attempt gives on every sheet equal to the one asked for is
    what the call gives *)
Lemma call_attempt (P : list df -> Prop) e uni json st wb q preserve name i d cells time z m f se :
  wb_ok st wb -> resolves uni strip (names_of st wb) q name -> first_such (fun i => title (sheet st i) = name) wb i ->
  bounded (sheet st i) -> request d cells time z m f se -> Forall (fun c => In c (pname "ASQMWD")) (pname f) ->
  (forall rc, hd_error cells = Some rc -> depth_of (se_align se) rc < z) ->
  (~ given (pname "series_names") d \/ exists ns, dget (pname "series_names") d = Some (VList (map VStr ns)) /\ List.length ns = List.length cells) ->
  (forall w hs t a, same_sheet (sheet st i) w -> names_cells hs cells -> cell_named t (fst time) (snd time) ->
    (forall k, In k PARAM_NAMES -> fixed a (List.length cells) k (requested d z m f se hs t k)) -> exists frs, alone e w a = Ok frs /\ P frs) ->
  exists frs out pid, P frs /\ handed frs out /\ snd (get_data_frames e uni json st wb (UInput (PDict d)) q false preserve) = Ok (out, name, pid).
Proof.
  intros WB RES FS BO RQ FL AFT NM AL.
  destruct (request_built json d cells time z m f se RQ AFT NM FL) as (p & HP).
  destruct (request_ready json d cells time z m f se RQ AFT NM p HP) as (hs & t & NC & TH & RDY).
  pose proof (request_count json d cells time z m f se RQ AFT NM p HP) as CNT.
  assert (NE : d <> []) by (eapply request_nonempty; eauto).
  assert (PO : parameters_object p) by (eapply object_made; eauto).
  assert (POS : (0 < List.length cells)%nat).
  { destruct (rq_headers _ _ _ _ _ _ _ RQ) as (hv & _ & _ & N0). destruct cells; [congruence|cbn; lia]. }
  destruct (first_attempt p (List.length cells) _ PO CNT POS RDY) as (l & a & D & H & F).
  assert (ALONE : forall w, same_sheet (sheet st i) w -> exists fr, alone e w a = Ok fr /\ P fr).
  { intros w SM. apply (AL w hs t a); auto. }
  destruct (c23_sheet e uni json st wb (UInput (PDict d)) q false preserve WB I name p RES (object_built json st _ p HP)) as (i' & st2 & si & pid & FS' & PF & PT & PP & S1 & S2 & ->).
  rewrite (first_such_det _ _ _ _ FS' FS) in *. pose proof (copy_same _ BO) as SM. pose proof (copy_same _ (copy_bounded (sheet st i))) as SM2.
  assert (R : exists st' out pid' frs, scrape e false st2 si pid = (st', Ok (out, pid')) /\ handed frs (unwrap_result out) /\ P frs).
  { apply (scrape_first e st2 si pid l a P); auto.
    - rewrite PP. auto.
    - apply ALONE. destruct preserve; [rewrite PT by auto; auto|]. destruct (PF eq_refl) as [_ ->]. repeat (split; auto).
    - apply ALONE. destruct preserve; [rewrite PT by auto; eapply same_trans; eauto|]. destruct (PF eq_refl) as [_ ->]. auto. }
  destruct R as (st' & out & pid' & fr & -> & U & PF'). exists fr, (unwrap_result out), pid'. split; auto.
Qed.
(** when the first attempt gives one frame, so does the call *)
Lemma call_first (P : df -> Prop) e uni json st wb q preserve name i d cells time z m f se :
  wb_ok st wb -> resolves uni strip (names_of st wb) q name -> first_such (fun i => title (sheet st i) = name) wb i ->
  bounded (sheet st i) -> request d cells time z m f se -> periodic f ->
  (forall rc, hd_error cells = Some rc -> depth_of (se_align se) rc < z) ->
  (~ given (pname "series_names") d \/ exists ns, dget (pname "series_names") d = Some (VList (map VStr ns)) /\ List.length ns = List.length cells) ->
  (forall w hs t a, same_sheet (sheet st i) w -> names_cells hs cells -> cell_named t (fst time) (snd time) ->
    (forall k, In k PARAM_NAMES -> fixed a (List.length cells) k (requested d z m f se hs t k)) -> exists fr, alone e w a = Ok [fr] /\ P fr) ->
  exists fr pid, P fr /\ snd (get_data_frames e uni json st wb (UInput (PDict d)) q false preserve) = Ok (DF fr, name, pid).
Proof.
  intros WB RES FS BO RQ FREQ AFT NM AL.
  assert (FL : Forall (fun c => In c (pname "ASQMWD")) (pname f)).
  { destruct FREQ as [<-|[<-|[<-|[<-|[<-|[]]]]]]; cbn; (constructor; [|constructor]); repeat first [left; reflexivity|right]. }
  destruct (call_attempt (fun frs => exists fr, frs = [fr] /\ P fr) e uni json st wb q preserve name i d cells time z m f se WB RES FS BO RQ FL AFT NM)
    as (frs & out & pid & (fr & -> & PF) & HA & E).
  { intros w hs t a SM NC TN F. destruct (AL w hs t a SM NC TN F) as (fr & A & PF). exists [fr]. eauto. }
  exists fr, pid. split; auto. destruct HA as [(x & E1 & ->)|[N _]]; [inversion E1; subst; auto|cbn in N; lia].
Qed.
Lemma c38 e uni json st wb q preserve name i d cells time z m f se names ds data :
  wb_ok st wb -> resolves uni strip (names_of st wb) q name -> first_such (fun i => title (sheet st i) = name) wb i ->
  bounded (sheet st i) -> real_dates (sheet st i) ->
  request d cells time z m f se -> periodic f -> (se_missings se = true -> ~ In (VStr (pname "Implicit")) (se_markers se)) ->
  clean_table d (sheet st i) cells time z m f se ds data -> table_names e d (sheet st i) cells names ->
  exists n cols pid, pandas_name f n /\ column_names names cols /\
    snd (get_data_frames e uni json st wb (UInput (PDict d)) q false preserve) = Ok (DF (mkdf (mkpr (T n) ds) cols data), name, pid).
Proof.
  intros WB RES FS BO RD RQ FREQ NOIMP CT TN.
  assert (NM : ~ given (pname "series_names") d \/ exists ns, dget (pname "series_names") d = Some (VList (map VStr ns)) /\ List.length ns = List.length cells).
  { destruct TN as [G L _|G _]; eauto. }
  set (P := fun fr => exists n cols, pandas_name f n /\ column_names names cols /\ fr = mkdf (mkpr (T n) ds) cols data).
  destruct (call_first P e uni json st wb q preserve name i d cells time z m f se WB RES FS BO RQ FREQ (ct_after _ _ _ _ _ _ _ _ _ _ CT) NM)
    as (fr & pid & (n & cols & P1 & P2 & ->) & E).
  { intros w hs t a SM NC TH F. assert (T1 := real_same _ _ SM RD). assert (T2 := table_same _ _ SM _ _ _ _ _ _ _ _ _ CT). assert (T3 := names_same _ _ SM _ _ _ _ TN).
    destruct (table_alone e d cells time z m f se names ds data RQ FREQ NOIMP w hs t a _ eq_refl NC TH F T1 T2 T3) as (n & cols & P1 & P2 & P3).
    eexists. split; [exact P3|]. exists n, cols. auto. }
  exists n, cols, pid. auto.
Qed.
