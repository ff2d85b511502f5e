(** A table of written years and quarters gives one frame of years and one of
    quarters (C78). *)
From Coq Require Import Sorted ZifyBool ZifyNat.
From Verif Require Import Base BaseFacts Cal Coord CoordFacts XlMethods Params ParseTime TimeIndex GetData PeriodRange Attempts DataFrame Scrape Xlseries
  SpecCal CalFacts CalProofs SpecCoord SpecCoordFacts SpecParams BuildFacts BuildInv ParamsFacts ParamsProofs SpecAttempts
  TimeFacts SpecTime SpecData DataFacts SpecFrames SpecScrape ScrapeFacts ScrapeProofs TextProofs FrameProofs FrameProofs2 FrameProofs3 DataProofs ScrapeProofs2 TimeProofs TimeProofs2 SpecParse SpecEnd RangeExact TimeEnd
  EndFacts EndProofs EndAttempt EndBuild EndCall MultiRange IndexWalk SpecCycles CycleClean CycleEnd SpecYears YearTexts YearClean.
Local Open Scope Z_scope.

Section Table.
Variables (e : env) (d : dict) (cells : list (Z * Z)) (time : Z * Z) (z m : Z) (f : string) (se : settings)
  (names : list text) (y0 : Z) (ds : list datetime) (data : list (list spec_float)).
Hypothesis RQ : request d cells time z m f se.
Hypothesis NOIMP : se_missings se = true -> ~ In (VStr (pname "Implicit")) (se_markers se).

Lemma years_several : years_freq f -> several_letters f.
Proof. intros [-> | ->]; (split; [cbn; lia|]); intros x X; cbn in X; repeat (destruct X as [<-|X]; [cbn; tauto|]); destruct X. Qed.
Lemma years_shares al : years_freq f -> row_dates f y0 ds -> 1678 <= y0 -> row_year y0 (List.length ds) <= 2261 -> stops_well al (T f) (List.length ds) ->
  forall x, In x (T f) -> (exists a, hd_error (share (T f) x 0 ds) = Some a /\ period_start (letter x) a) /\ consecutive (letter x) (share (T f) x 0 ds).
Proof.
  intros YF RD Y1 Y2 [W1 W2] x X.
  assert (LONG : (2 <= List.length ds)%nat /\ (f = "QQQQA"%string -> 5 <= List.length ds)%nat).
  { split; auto. intros ->. destruct al; [|exact W2]. destruct (W2 "A"%char) as (k & K & _ & C); [cbn; tauto|].
    rewrite (row_letter_is "QQQQA" k YF) in C. destruct (mod5 k) as [B|[B|[B|[B|B]]]]; rewrite B in C; try discriminate. pose proof (Nat.mod_le k 5). lia. }
  assert (AT : forall k, (k < List.length ds)%nat -> nth_error ds k = Some (row_date f y0 k)).
  { intros k K. destruct (nth_error ds k) as [a|] eqn:N; [|apply nth_error_None in N; lia]. f_equal. eapply row_is; eauto. }
  assert (HD : exists a, hd_error (share (T f) x 0 ds) = Some a /\ period_start (letter x) a).
  { assert (XX : x = "A"%char \/ x = "Q"%char) by (destruct YF as [-> | ->]; cbn in X; intuition congruence).
    destruct LONG as [L2 L5]. destruct YF as [FE|FE]; subst f.
    - pose proof (AT 0%nat ltac:(lia)) as N0. pose proof (AT 1%nat ltac:(lia)) as N1. destruct ds as [|d0 [|d1 l]]; try discriminate. injection N0 as ->. injection N1 as ->.
      destruct XX as [-> | ->]; (eexists; split; [reflexivity|]); vm_compute; auto.
    - specialize (L5 eq_refl). pose proof (AT 0%nat ltac:(lia)) as N0. pose proof (AT 4%nat ltac:(lia)) as N4. destruct ds as [|d0 [|d1 [|d2 [|d3 [|d4 l]]]]]; try discriminate. injection N0 as ->. injection N4 as ->.
      destruct XX as [-> | ->]; (eexists; split; [reflexivity|]); vm_compute; auto. }
  split; auto. apply share_consecutive.
  - intros i a b N C L. apply (row_step f y0 ds i x a b YF RD N C L).
  - destruct HD as (a & A & _). intros Q. rewrite Q in A. discriminate.
Qed.

Lemma years_alone w hs t a n : n = List.length cells -> names_cells hs cells -> cell_named t (fst time) (snd time) ->
  (forall k, In k PARAM_NAMES -> fixed a n k (requested d z m f se hs t k)) -> bounded w ->
  year_table d w cells time z m f se y0 ds data -> table_names e d w cells names ->
  exists frs, alone e w a = Ok frs /\ Forall2 (letter_frame f names ds data) (uniq [] (T f)) frs.
Proof.
  intros EN NC TN F BW CT TNM. pose proof CT as [c1 c0 cf c2 c3 c4 [cy1 cy2] c7 [c8 c9] c10 cap c12].
  assert (YF : years_freq f) by (destruct cf as [[-> _]| ->]; [left|right]; auto).
  assert (AT : (2 <= List.length (T f))%nat /\ (2 <= List.length ds)%nat) by (split; [destruct YF as [-> | ->]; cbn; lia|destruct c2; auto]).
  assert (NZ : m <> 0) by lia.
  assert (AL : all_lists a n) by (intros k K; destruct (F k K) as (l & E & L & _); eauto).
  assert (S0 : forall i, (i < n)%nat -> series_sp a i = Ok (series_of d z m f se hs t i)) by (intros i I; apply (series_exact d z m f se a n); auto).
  assert (NP : (0 < n)%nat).
  { destruct (rq_headers _ _ _ _ _ _ _ RQ) as (hv & _ & _ & NE). rewrite EN. destruct cells; [congruence|cbn; lia]. }
  assert (LNM : List.length names = List.length cells).
  { destruct TNM as [_ L _|_ F2]; auto. symmetry. eapply F2_len; eauto. }
  assert (OP : forall i, open_series (se_align se) t (T f) z (z + Z.of_nat (List.length ds) - 1) (series_of d z m f se hs t i)).
  { intros i. unfold series_of, open_series.
    cbn [sp_al sp_name sp_hc sp_comp sp_ctx sp_starts sp_ends sp_cont sp_blank sp_missings sp_mv sp_ta sp_multi sp_th sp_composed sp_freq].
    rewrite <- c1. destruct (is_none (dgetN n_data_ends d)); repeat (split; auto); intros MS; exists (se_markers se); split; auto; apply NOIMP; auto. }
  set (s := series_of d z m f se hs t 0).
  destruct (years_cleaned e w (se_align se) f t (fst time) (snd time) z y0 ds s) as (w1 & CL & HD & UN); auto; try lia.
  { exact (OP 0%nat). }
  all: try (rewrite <- c1; exact c9).
  { intros k K. destruct (c3 k K) as (u & SA & RT). eexists _, u. split; [|split; [exact SA|exact RT]]. eapply along_holds; [exact TN|reflexivity|reflexivity|reflexivity]. }
  { rewrite <- c1. eapply stops_ends; eauto. }
  rewrite <- c1 in CL, HD, UN.
  assert (LINE : forall q, z <= q <= m -> along (se_align se) w1 (line_of (se_align se) time) q = VDate (date_at_row f y0 z q)).
  { intros q Q. destruct (HD q Q) as (i & j & IC & E). rewrite <- E.
    assert (TH : forall u, index_header s u -> u = t) by (intros u [v X|v l X]; cbn in X; congruence).
    apply cell_named_iff in TN. destruct IC as [u r c A IH CN|u r c A IH CN]; apply TH in IH; subst u; apply cell_named_iff in CN; rewrite TN in CN; inversion CN; subst;
      change (sp_al s) with (se_align se) in A; rewrite A; reflexivity. }
  assert (OTHER : forall rc q, line_of (se_align se) rc <> line_of (se_align se) time -> along (se_align se) w1 (line_of (se_align se) rc) q = along (se_align se) w (line_of (se_align se) rc) q).
  { intros rc q NE. destruct (se_align se) eqn:SA; cbn [along] in *; apply UN; intros q' Q IC;
      assert (TH : forall u, index_header s u -> u = t) by (intros u [v X|v l X]; cbn in X; congruence);
      apply cell_named_iff in TN; inversion IC as [u r c A IH CN|u r c A IH CN]; subst; change (sp_al s) with (se_align se) in A; rewrite SA in A; try discriminate;
      apply TH in IH; subst u; apply cell_named_iff in CN; rewrite TN in CN; inversion CN; subst; apply NE; cbn [line_of]; congruence. }
  assert (DATES : forall k x, nth_error ds k = Some x -> along (se_align se) w1 (line_of (se_align se) time) (z + Z.of_nat k) = VDate x).
  { intros k x K. assert (KL : (k < List.length ds)%nat) by (apply nth_error_Some; congruence). rewrite LINE by lia. f_equal. unfold date_at_row.
    replace (Z.to_nat (z + Z.of_nat k - z)) with k by lia. symmetry. eapply row_is; eauto. }
  assert (SH := years_shares (se_align se) YF c4 cy1 cy2 c2).
  assert (RY : Forall real_date ds /\ Forall (fun x => 1678 <= dt_y x <= 2261) ds).
  { apply (years_real w (se_align se) f t z y0 ds s); auto; [apply AT|exact (OP 0%nat)|].
    intros k K. destruct (c3 k K) as (u & SA & RT). eexists _, u. split; [|split; [exact SA|exact RT]]. eapply along_holds; [exact TN|reflexivity|reflexivity|reflexivity]. }
  apply (attempt_cycles e w w1 a n (se_align se) f t (fst time) (snd time) z ds names data); auto.
  - apply years_several. auto.
  - intros x X. apply (SH x X).
  - apply RY.
  - intros x X. destruct (SH x X) as [(b & B1 & B2) _]. exists b. auto.
  - apply RY.
  - rewrite <- c1. exact c9.
  - apply (clean_bounded e w s w1 (Ok m) t (fst time) (snd time)); auto.
  - intros i I. exists (series_of d z m f se hs t i). split; auto.
  - intros s' (A & T' & _) k x K. eapply along_holds; eauto.
  - intros s' E. rewrite (S0 0%nat NP) in E. inversion E; subst s'. clear E. exists w1. rewrite <- c1. split; auto. apply FrameProofs2.same_refl.
  - rewrite EN; exact LNM.
  - rewrite EN. symmetry. eapply F2_len; eauto.
  - clear - c12. induction c12 as [|rc vs cells' data' [L _] _ IH]; constructor; auto.
  - rewrite <- c1. apply (table_values e d cells time z m f se names ds data w1 hs t a n); auto.
    + clear - cap c12 OTHER. induction c12 as [|rc vs cells' data' [L V] _ IH]; constructor; inversion cap; subst; auto.
      split; auto. intros k x K. rewrite OTHER; auto.
    + destruct TNM as [G L N|G FN]; [apply tn_given; auto|apply tn_headers; auto].
      clear - cap FN OTHER. induction FN as [|rc n cells' names' (u & W & ST) _ IH]; constructor; inversion cap; subst; auto.
      exists u. split; auto. specialize (OTHER rc (depth_of (se_align se) rc)). destruct (se_align se); cbn [along line_of depth_of] in *; rewrite OTHER; auto.
Qed.
End Table.
Lemma years_same w w' d cells time z m f se y0 ds data : same_sheet w w' ->
  year_table d w cells time z m f se y0 ds data -> year_table d w' cells time z m f se y0 ds data.
Proof.
  intros SM [c1 c0 cf c2 c3 c4 cy c7 c8 c10 cap c12]. constructor; auto.
  - intros k K. rewrite <- (along_same _ _ SM). auto.
  - eapply stops_same; eauto.
  - eapply F2_imp; [|exact c12]. intros rc vs (L & V). split; auto. intros k x K. rewrite <- (along_same _ _ SM). auto.
Qed.
Lemma c78 e uni json st wb q preserve name i d cells time z m f se names y0 ds data :
  wb_ok st wb -> resolves uni strip (names_of st wb) q name -> first_such (fun i => title (sheet st i) = name) wb i ->
  bounded (sheet st i) ->
  request d cells time z m f se -> (se_missings se = true -> ~ In (VStr (pname "Implicit")) (se_markers se)) ->
  year_table d (sheet st i) cells time z m f se y0 ds data -> table_names e d (sheet st i) cells names ->
  exists cs frs out pid, letters_of (T f) (List.length (T f)) cs /\ Forall2 (letter_frame f names ds data) cs frs /\ handed frs out /\
    snd (get_data_frames e uni json st wb (UInput (PDict d)) q false preserve) = Ok (out, name, pid).
Proof.
  intros WB RES FS BO RQ NOIMP CT TN.
  assert (NM : ~ given (pname "series_names") d \/ exists ns, dget (pname "series_names") d = Some (VList (map VStr ns)) /\ List.length ns = List.length cells).
  { destruct TN as [G L _|G _]; eauto. }
  assert (FL : Forall (fun c => In c (pname "ASQMWD")) (pname f)).
  { destruct (yt_freq _ _ _ _ _ _ _ _ _ _ _ CT) as [[-> _]| ->]; cbv [pname T list_ascii_of_string]; repeat (apply Forall_cons; [cbn; tauto|]); apply Forall_nil. }
  destruct (call_attempt (fun frs => Forall2 (letter_frame f names ds data) (uniq [] (T f)) frs) e uni json st wb q preserve name i d cells time z m f se WB RES FS BO RQ FL (yt_after _ _ _ _ _ _ _ _ _ _ _ CT) NM)
    as (frs & out & pid & FR & HA & E).
  { intros w hs t a SM NC TH F. assert (T2 := years_same _ _ _ _ _ _ _ _ _ _ _ _ SM CT). assert (T3 := names_same _ _ SM _ _ _ _ TN).
    apply (years_alone e d cells time z m f se names y0 ds data RQ NOIMP w hs t a _ eq_refl NC TH F (bounded_same _ _ SM BO) T2 T3). }
  exists (uniq [] (T f)), frs, out, pid. split; [apply distinct_letters|]. auto.
Qed.
