(** A call on a table with a note below it (C65). *)
From Coq Require Import Sorted ZifyBool ZifyNat.
From Verif Require Import Base BaseFacts Cal Coord CoordFacts XlMethods Params ParseTime TimeIndex GetData PeriodRange Attempts DataFrame Scrape Xlseries
  SpecCal CalFacts CalProofs SpecCoord SpecCoordFacts SpecParams SpecAttempts
  SpecTime TimeFacts TimeProofs TimeProofs2 RangeExact TimeEnd SpecData SpecFrames SpecScrape SpecParse SpecSimple IndexWalk IndexTexts ComposedProofs SimpleProofs2
  SpecEnd EndFacts EndAttempt EndBuild EndCall SpecText EndText SpecColumns SpecNotes NoteIndex SpecNoted.
Local Open Scope Z_scope.

Lemma letters f : periodic f -> frequency_letter f.
Proof. unfold periodic, frequency_letter. cbn. tauto. Qed.
Section Index.
Variables (e : env) (w : worksheet) (s : sp) (f : string) (t : text) (r c z m : Z) (ds : list datetime) (vs : list pyval) (note : pyval).
Hypothesis SER : open_series Vert t (T f) z m s.
Hypothesis OPEN : sp_ends s = None.
Hypothesis M : m = z + Z.of_nat (List.length ds) - 1.
Hypothesis two : (2 <= List.length ds)%nat.
Hypothesis named : cell_named t r c.
Hypothesis freq : periodic f.
Hypothesis cons : consecutive f ds.
Hypothesis years : Forall (fun x => real_date x /\ 1678 <= dt_y x <= 2261) ds.
Hypothesis inside : 1 <= z /\ m < max_row w.
Hypothesis at_ : forall k v, nth_error vs k = Some v -> holds s w (z + Z.of_nat k) v.
Hypothesis at_end : holds s w (m + 1) note.
Hypothesis wr : noted_cells e f (sp_composed s) vs ds note.

Lemma noted_cleaned : cleaned e w s (date_at ds z) m.
Proof.
  destruct SER as (O1 & O2 & O3 & O4 & O5 & O6 & O7 & O9). destruct inside as [I1 I2].
  assert (Y : forall q, z <= q <= m -> real_date (date_at ds z q) /\ 1678 <= dt_y (date_at ds z q) <= 2261).
  { intros q Q. assert (N : nth_error ds (Z.to_nat (q - z)) = Some (date_at ds z q)) by (apply date_at_nth; lia).
    apply (EndAttempt.Forall_nth_error _ _ years) in N. exact N. }
  assert (OP : forall q, z < q <= m -> one_period f (date_at ds z (q - 1)) (date_at ds z q)).
  { intros q Q. apply (consecutive_next f ds cons (Z.to_nat (q - 1 - z))); [apply date_at_nth; lia|].
    replace (S (Z.to_nat (q - 1 - z))) with (Z.to_nat (q - z)) by lia. apply date_at_nth; lia. }
  assert (EM : sp_missings s = true -> explicit_marker s).
  { intros MS. destruct (O9 MS) as (ms & MV & _). unfold explicit_marker. rewrite MV. discriminate. }
  assert (SQ : sequence s f (date_at ds z) m).
  { unfold sequence. rewrite O3. split; [intros q Q; destruct (Y q Q); split; auto; lia|].
    destruct (sp_missings s) eqn:MS; [left|right; auto]. split; auto. split; auto. intros q Q.
    apply (period_earlier f); auto; apply Y; lia. }
  assert (OC : one_column s) by (split; [exact O7|exists t, r, c; auto]).
  assert (CA : column_above s w f m).
  { split; [auto|]. split; [auto|]. split; [auto|]. rewrite O3, O5. lia. }
  destruct wr as [R E1 E2 H NC|x E1 E2 LX D1 D2 NC].
  - apply (composed_noted e w s f R _ _ note); auto. intros q Q. rewrite O3 in Q.
    destruct (one_at _ vs ds z q H) as (v & N & NB & G); [lia|]. exists v. split; [|split].
    + replace q with (z + Z.of_nat (Z.to_nat (q - z))) by lia. apply at_. auto.
    + intros NT. apply NB. destruct NT as [|u W|x TA]; [left; auto|right; eauto|contradiction].
    + unfold previous. rewrite O3. auto.
  - assert (LD : date_at ds z m = x).
    { assert (N : nth_error ds (Z.to_nat (m - z)) = Some (date_at ds z m)) by (apply date_at_nth; lia). replace (Z.to_nat (m - z)) with (List.length ds - 1)%nat in N by lia. congruence. }
    apply (dates_noted e w s f _ _ note); auto; try (rewrite LD; auto).
    + apply letters. auto.
    + intros q Q. rewrite O3 in Q. replace q with (z + Z.of_nat (Z.to_nat (q - z))) at 1 by lia. apply at_. subst vs. rewrite nth_error_map, (date_at_nth ds z q) by lia. reflexivity.
Qed.
End Index.

Lemma noted_alone e d w cells time z m f se names ds data hs t a :
  request d cells time z m f se -> periodic f -> (se_missings se = true -> ~ In (VStr (pname "Implicit")) (se_markers se)) ->
  names_cells hs cells -> cell_named t (fst time) (snd time) ->
  (forall k, In k PARAM_NAMES -> fixed a (List.length cells) k (requested d z m f se hs t k)) ->
  noted_table e d w cells time z m f se ds data -> table_names e d w cells names ->
  exists pn cols, pandas_name f pn /\ column_names names cols /\ alone e w a = Ok [mkdf (mkpr (T pn) ds) cols data].
Proof.
  intros RQ FREQ NI NC TN F [c0 co c1 c2 (vs & c3 & c3') c4 c5 c6 c7 c8 c10 c11] TNM.
  set (s := series_of d z m f se hs t 0).
  assert (SER : open_series (se_align se) t (T f) z m s).
  { unfold s, series_of, open_series.
    cbn [sp_al sp_name sp_hc sp_comp sp_ctx sp_starts sp_ends sp_cont sp_blank sp_missings sp_mv sp_ta sp_multi sp_th sp_composed sp_freq].
    destruct (is_none (dgetN n_data_ends d)); repeat (split; auto); intros MS; exists (se_markers se); split; auto. }
  assert (OP : sp_ends s = None).
  { destruct (ends_cases d cells time z m f se RQ) as [[Q _]|[G _]]; [|contradiction]. unfold s, series_of. cbn [sp_ends]. rewrite Q. reflexivity. }
  assert (CL : cleaned e w s (date_at ds z) m).
  { rewrite c0 in SER. apply (noted_cleaned e w s f t (fst time) (snd time) z m ds vs (cell w (m + 1) (snd time))); auto.
    - intros k v K. apply (along_holds time se s w t); auto. rewrite c0. cbn [along line_of]. auto.
    - apply (along_holds time se s w t); auto. rewrite c0. reflexivity. }
  apply (cleaned_alone e d w cells time z m f se names ds data hs t a); auto.
  - split; [tauto|rewrite c0; discriminate].
  - rewrite c0. exact c10.
  - rewrite c0. exact c11.
Qed.
Lemma noted_same w w' e d cells time z m f se ds data : same_sheet w w' -> noted_table e d w cells time z m f se ds data -> noted_table e d w' cells time z m f se ds data.
Proof.
  intros (_ & MR & MC & C) [c0 co c1 c2 (vs & c3 & c3') c4 c5 c6 c7 c8 c10 c11]. constructor; auto.
  - exists vs. split; [intros k v K; rewrite <- C; auto|rewrite <- C; auto].
  - rewrite <- MR. auto.
  - eapply F2_imp; [|exact c11]. intros rc l (L & V). split; auto. intros k x K. rewrite <- C. auto.
Qed.
Lemma c65 e uni json st wb q preserve name i d cells time z m f se names ds data :
  wb_ok st wb -> resolves uni strip (names_of st wb) q name -> first_such (fun i => title (sheet st i) = name) wb i ->
  bounded (sheet st i) ->
  request d cells time z m f se -> periodic f -> (se_missings se = true -> ~ In (VStr (pname "Implicit")) (se_markers se)) ->
  noted_table e d (sheet st i) cells time z m f se ds data -> table_names e d (sheet st i) cells names ->
  exists n cols pid, pandas_name f n /\ column_names names cols /\
    snd (get_data_frames e uni json st wb (UInput (PDict d)) q false preserve) = Ok (DF (mkdf (mkpr (T n) ds) cols data), name, pid).
Proof.
  intros WB RES FS BO RQ FREQ NOIMP CT TN.
  assert (NM : ~ given (pname "series_names") d \/ exists ns, dget (pname "series_names") d = Some (VList (map VStr ns)) /\ List.length ns = List.length cells).
  { destruct TN as [G L _|G _]; eauto. }
  assert (AF : forall rc, hd_error cells = Some rc -> depth_of (se_align se) rc < z).
  { intros rc H. rewrite (no_column _ _ _ _ _ _ _ _ _ _ _ CT). apply (no_after _ _ _ _ _ _ _ _ _ _ _ CT). auto. }
  set (P := fun fr => exists n cols, pandas_name f n /\ column_names names cols /\ fr = mkdf (mkpr (T n) ds) cols data).
  destruct (call_first P e uni json st wb q preserve name i d cells time z m f se WB RES FS BO RQ FREQ AF NM)
    as (fr & pid & (n & cols & P1 & P2 & ->) & E).
  { intros w hs t a SM NC TH F. assert (T2 := noted_same _ _ _ _ _ _ _ _ _ _ _ _ SM CT). assert (T3 := names_same _ _ SM _ _ _ _ TN).
    destruct (noted_alone e d w cells time z m f se names ds data hs t a RQ FREQ NOIMP NC TH F T2 T3) as (n & cols & P1 & P2 & P3).
    eexists. split; [exact P3|]. exists n, cols. auto. }
  exists n, cols, pid. auto.
Qed.
