(** A request for a table whose dates are texts gives one frame with its dates,
    names and numbers (C59). *)
From Coq Require Import ZifyBool ZifyNat.
From Verif Require Import Base BaseFacts Cal Coord CoordFacts XlMethods Params ParseTime TimeIndex GetData PeriodRange Attempts DataFrame Scrape Xlseries
  SpecCal CalFacts CalProofs SpecCoord SpecCoordFacts SpecParams SpecAttempts
  SpecTime TimeFacts TimeProofs TimeProofs2 RangeExact TimeEnd SpecData SpecFrames SpecScrape SpecParse SpecSimple ComposedProofs SimpleProofs2 SpecEnd EndFacts EndAttempt EndBuild EndCall SpecText.
Local Open Scope Z_scope.

(** ** Dates as a function of the position *)
Definition date_at (ds : list datetime) (z q : Z) : datetime := nth (Z.to_nat (q - z)) ds (mkdt 2000 1 1 0).
Lemma date_at_nth ds z q : z <= q <= z + Z.of_nat (List.length ds) - 1 -> nth_error ds (Z.to_nat (q - z)) = Some (date_at ds z q).
Proof. intros Q. apply nth_error_nth'. lia. Qed.
Lemma one_at R vs ds z q : one_by_one R vs ds -> z <= q <= z + Z.of_nat (List.length ds) - 1 ->
  exists v, nth_error vs (Z.to_nat (q - z)) = Some v /\ R v (if q =? z then None else Some (date_at ds z (q - 1))) (date_at ds z q).
Proof.
  intros [L H] Q. destruct (nth_error vs (Z.to_nat (q - z))) as [v|] eqn:E; [|apply nth_error_None in E; lia].
  exists v. split; auto. pose proof (H _ _ _ E (date_at_nth ds z q Q)) as G.
  replace (date_before ds (Z.to_nat (q - z))) with (if q =? z then None else Some (date_at ds z (q - 1))) in G; auto.
  destruct (q =? z) eqn:QZ.
  - replace (Z.to_nat (q - z)) with 0%nat by lia. reflexivity.
  - assert (K : Z.to_nat (q - z) = S (Z.to_nat (q - 1 - z))) by lia. rewrite K. cbn [date_before]. symmetry. apply date_at_nth. lia.
Qed.

(** ** The index *)
Section Index.
Variables (e : env) (w : worksheet) (s : sp) (al : align) (f : string) (t : text) (r c z m : Z) (ds : list datetime) (vs : list pyval) (after : pyval).
Hypothesis SER : open_series al t (T f) z m s.
Hypothesis M : m = z + Z.of_nat (List.length ds) - 1.
Hypothesis two : (2 <= List.length ds)%nat.
Hypothesis named : cell_named t r c.
Hypothesis freq : periodic f.
Hypothesis cons : consecutive f ds.
Hypothesis years : Forall (fun x => real_date x /\ 1678 <= dt_y x <= 2261) ds.
Hypothesis inside : 1 <= z /\ (al = Horiz -> m < 18278).
Hypothesis last : index_ends s w m.
Hypothesis at_ : forall k v, nth_error vs k = Some v -> holds s w (z + Z.of_nat k) v.
Hypothesis at_end : holds s w (m + 1) after.
Hypothesis wr : written_index e f (sp_composed s) vs after ds.

Lemma text_cleaned : cleaned e w s (date_at ds z) m.
Proof.
  destruct SER as (O1 & O2 & O3 & O4 & O5 & O6 & O7 & O9). destruct inside as [I1 I2].
  assert (Y : forall q, z <= q <= m -> real_date (date_at ds z q) /\ 1678 <= dt_y (date_at ds z q) <= 2261).
  { intros q Q. assert (N : nth_error ds (Z.to_nat (q - z)) = Some (date_at ds z q)) by (apply date_at_nth; lia).
    apply (EndAttempt.Forall_nth_error _ _ years) in N. exact N. }
  assert (PI : plain_index s w f m).
  { split; [exact O7|]. split; [exists t, r, c; auto|]. split; [auto|]. split; [auto|].
    split; [|rewrite O3, O5; lia]. rewrite O3. split; auto. rewrite O1. destruct al; auto. }
  assert (OP : forall q, z < q <= m -> one_period f (date_at ds z (q - 1)) (date_at ds z q)).
  { intros q Q. apply (consecutive_next f ds cons (Z.to_nat (q - 1 - z))); [apply date_at_nth; lia|].
    replace (S (Z.to_nat (q - 1 - z))) with (Z.to_nat (q - z)) by lia. apply date_at_nth; lia. }
  assert (EM : sp_missings s = true -> explicit_marker s).
  { intros MS. destruct (O9 MS) as (ms & MV & _). unfold explicit_marker. rewrite MV. discriminate. }
  assert (SQ : sequence s f (date_at ds z) m).
  { unfold sequence. rewrite O3. split; [intros q Q; destruct (Y q Q); split; auto; lia|].
    destruct (sp_missings s) eqn:MS; [left|right; auto]. split; auto. split; auto. intros q Q.
    apply (period_earlier f); auto; apply Y; lia. }
  assert (CELL : forall R, one_by_one R vs ds -> forall q, sp_starts s <= q <= m ->
    exists v, holds s w q v /\ R v (previous s (date_at ds z) q) (date_at ds z q)).
  { intros R H q Q. rewrite O3 in Q. destruct (one_at R vs ds z q H) as (v & N & G); [lia|]. exists v. split.
    - replace q with (z + Z.of_nat (Z.to_nat (q - z))) by lia. apply at_. auto.
    - unfold previous. rewrite O3. auto. }
  destruct wr as [st E1 E2 H|st E1 E2 H|st E1 E2 H|E2 H NA].
  - subst f. apply (c40_index e w s st); auto; apply (CELL _ H).
  - subst f. apply (c41_index e w s st); auto; apply (CELL _ H).
  - subst f. apply (c42_index e w s st); auto. intros q Q. destruct (CELL _ H q Q) as (v & HV & NB & YC). exists v. split; auto. split; auto.
    intros NT. apply NB. destruct NT as [|u W|x TA]; [left; auto|right; eauto|contradiction].
  - apply (c45_index e w s f); auto.
    + unfold near_sequence. rewrite O3. split; [intros q Q; destruct (Y q Q); lia|].
      destruct (sp_missings s) eqn:MS; [left|right; auto]. split; auto. split; auto. intros q Q.
      apply one_soon; auto; try (apply Y; lia). assert (Q' : z <= q - 1 <= m) by lia. destruct (Y _ Q'). lia.
    + apply (CELL _ H).
    + exists after. auto.
Qed.
End Index.

(** ** One attempt *)
Lemma cleaned_alone e d w cells time z m f se names ds data hs t a :
  request d cells time z m f se -> periodic f -> (se_missings se = true -> ~ In (VStr (pname "Implicit")) (se_markers se)) ->
  names_cells hs cells -> cell_named t (fst time) (snd time) ->
  (forall k, In k PARAM_NAMES -> fixed a (List.length cells) k (requested d z m f se hs t k)) ->
  m = z + Z.of_nat (List.length ds) - 1 -> (2 <= List.length ds)%nat -> consecutive f ds ->
  (exists x, hd_error ds = Some x /\ period_start f x) -> Forall (fun x => real_date x /\ 1678 <= dt_y x <= 2261) ds ->
  1 <= z /\ (se_align se = Horiz -> m < 18278) ->
  Forall (fun rc => line_of (se_align se) rc <> line_of (se_align se) time) cells ->
  Forall2 (fun rc vs => List.length vs = List.length ds /\ forall k x, nth_error vs k = Some x ->
    stands_for (se_missings se) (se_markers se) (along (se_align se) w (line_of (se_align se) rc) (z + Z.of_nat k)) x) cells data ->
  table_names e d w cells names ->
  cleaned e w (series_of d z m f se hs t 0) (date_at ds z) m ->
  exists pn cols, pandas_name f pn /\ column_names names cols /\ alone e w a = Ok [mkdf (mkpr (T pn) ds) cols data].
Proof.
  intros RQ FREQ NI NC TN F c1 c2 c4 c5 c6 c8 c10 c11 TNM.
  set (s := series_of d z m f se hs t 0). intros CL.
  destruct CL as (w1 & CT & HD & UN). change (sp_ta s) with 0 in CT. rewrite Z.sub_0_r in CT. change (sp_starts s) with z in *.
  assert (LINE : forall q, z <= q <= m -> along (se_align se) w1 (line_of (se_align se) time) q = VDate (date_at ds z q)).
  { intros q Q. destruct (HD q Q) as (i & j & IC & E). rewrite <- E.
    assert (TH : forall u, index_header s u -> u = t) by (intros u [v X|v l X]; cbn in X; congruence).
    apply cell_named_iff in TN. destruct IC as [u r c A IH CN|u r c A IH CN]; apply TH in IH; subst u; apply cell_named_iff in CN; rewrite TN in CN; inversion CN; subst;
      change (sp_al s) with (se_align se) in A; rewrite A; reflexivity. }
  assert (OTHER : forall rc q, line_of (se_align se) rc <> line_of (se_align se) time -> along (se_align se) w1 (line_of (se_align se) rc) q = along (se_align se) w (line_of (se_align se) rc) q).
  { intros rc q NE. destruct (se_align se) eqn:SA; cbn [along] in *; apply UN; intros q' Q IC;
      assert (TH : forall u, index_header s u -> u = t) by (intros u [v X|v l X]; cbn in X; congruence);
      apply cell_named_iff in TN; inversion IC as [u r c A IH CN|u r c A IH CN]; subst; change (sp_al s) with (se_align se) in A; rewrite SA in A; try discriminate;
      apply TH in IH; subst u; apply cell_named_iff in CN; rewrite TN in CN; inversion CN; subst; apply NE; cbn [line_of]; congruence. }
  apply (table_read e d cells time z m f se names ds data RQ FREQ NI w w1 hs t a (List.length cells)); auto.
  - intros k x K. assert (KL : (k < List.length ds)%nat) by (apply nth_error_Some; congruence).
    rewrite LINE by lia. f_equal. assert (N : nth_error ds (Z.to_nat (z + Z.of_nat k - z)) = Some (date_at ds z (z + Z.of_nat k))) by (apply date_at_nth; lia).
    replace (Z.to_nat (z + Z.of_nat k - z)) with k in N by lia. congruence.
  - clear - c10 c11 OTHER. induction c11 as [|rc vs cells' data' [L V] _ IH]; constructor; inversion c10; subst; auto.
    split; auto. intros k x K. rewrite OTHER; auto.
  - destruct TNM as [G L N|G FN]; [apply tn_given; auto|apply tn_headers; auto].
    clear - c10 FN OTHER. induction FN as [|rc n cells' names' (u & W & ST) _ IH]; constructor; inversion c10; subst; auto.
    exists u. split; auto. specialize (OTHER rc (depth_of (se_align se) rc)). destruct (se_align se); cbn [along line_of depth_of] in *; rewrite OTHER; auto.
  - intros _. exists w1. split; auto. intros i j. reflexivity.
Qed.

Lemma text_alone e d w cells time z m f se names ds data hs t a :
  request d cells time z m f se -> periodic f -> (se_missings se = true -> ~ In (VStr (pname "Implicit")) (se_markers se)) ->
  names_cells hs cells -> cell_named t (fst time) (snd time) ->
  (forall k, In k PARAM_NAMES -> fixed a (List.length cells) k (requested d z m f se hs t k)) ->
  text_table e d w cells time z m f se ds data -> table_names e d w cells names ->
  exists pn cols, pandas_name f pn /\ column_names names cols /\ alone e w a = Ok [mkdf (mkpr (T pn) ds) cols data].
Proof.
  intros RQ FREQ NI NC TN F [c1 c2 (vs & c3 & c3') c4 c5 c6 c7 c8 c9 c10 c11] TNM.
  set (s := series_of d z m f se hs t 0).
  assert (SER : open_series (se_align se) t (T f) z m s).
  { unfold s, series_of, open_series.
    cbn [sp_al sp_name sp_hc sp_comp sp_ctx sp_starts sp_ends sp_cont sp_blank sp_missings sp_mv sp_ta sp_multi sp_th sp_composed sp_freq].
    destruct (is_none (dgetN n_data_ends d)); repeat (split; auto); intros MS; exists (se_markers se); split; auto. }
  assert (CL : cleaned e w s (date_at ds z) m).
  { apply (text_cleaned e w s (se_align se) f t (fst time) (snd time) z m ds vs (along (se_align se) w (line_of (se_align se) time) (m + 1))); auto.
    - apply (stops_ends d cells time z m f se RQ); auto.
    - intros k v K. apply (along_holds time se s w t); auto.
    - apply (along_holds time se s w t); auto. }
  apply (cleaned_alone e d w cells time z m f se names ds data hs t a); auto.
Qed.

(** ** The same table on an equal sheet *)
Lemma text_same w w' e d cells time z m f se ds data : same_sheet w w' -> text_table e d w cells time z m f se ds data -> text_table e d w' cells time z m f se ds data.
Proof.
  intros SM. pose proof SM as (_ & MR & MC & C). intros [c1 c2 (vs & c3 & c3') c4 c5 c6 c7 c8 c9 c10 c11]. constructor; auto.
  - exists vs. split; [intros k v K; rewrite <- (along_same _ _ SM); auto|rewrite <- (along_same _ _ SM); auto].
  - apply (stops_same _ _ SM). auto.
  - eapply F2_imp; [|exact c11]. intros rc l (L & V). split; auto. intros k x K. rewrite <- (along_same _ _ SM). auto.
Qed.

(** ** The call *)
Lemma c59 e uni json st wb q preserve name i d cells time z m f se names ds data :
  wb_ok st wb -> resolves uni strip (names_of st wb) q name -> first_such (fun i => title (sheet st i) = name) wb i ->
  bounded (sheet st i) ->
  request d cells time z m f se -> periodic f -> (se_missings se = true -> ~ In (VStr (pname "Implicit")) (se_markers se)) ->
  text_table e d (sheet st i) cells time z m f se ds data -> table_names e d (sheet st i) cells names ->
  exists n cols pid, pandas_name f n /\ column_names names cols /\
    snd (get_data_frames e uni json st wb (UInput (PDict d)) q false preserve) = Ok (DF (mkdf (mkpr (T n) ds) cols data), name, pid).
Proof.
  intros WB RES FS BO RQ FREQ NOIMP CT TN.
  assert (NM : ~ given (pname "series_names") d \/ exists ns, dget (pname "series_names") d = Some (VList (map VStr ns)) /\ List.length ns = List.length cells).
  { destruct TN as [G L _|G _]; eauto. }
  set (P := fun fr => exists n cols, pandas_name f n /\ column_names names cols /\ fr = mkdf (mkpr (T n) ds) cols data).
  destruct (call_first P e uni json st wb q preserve name i d cells time z m f se WB RES FS BO RQ FREQ (tt_after _ _ _ _ _ _ _ _ _ _ _ CT) NM)
    as (fr & pid & (n & cols & P1 & P2 & ->) & E).
  { intros w hs t a SM NC TH F. assert (T2 := text_same _ _ _ _ _ _ _ _ _ _ _ _ SM CT). assert (T3 := names_same _ _ SM _ _ _ _ TN).
    destruct (text_alone e d w cells time z m f se names ds data hs t a RQ FREQ NOIMP NC TH F T2 T3) as (n & cols & P1 & P2 & P3).
    eexists. split; [exact P3|]. exists n, cols. auto. }
  exists n, cols, pid. auto.
Qed.
