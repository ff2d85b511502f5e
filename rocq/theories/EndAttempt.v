(** One attempt on a clean sheet gives one frame with its dates, names and
    numbers (C38). *)
From Coq Require Import Sorted ZifyBool ZifyNat.
From Verif Require Import Base BaseFacts Cal Coord CoordFacts XlMethods Params ParseTime TimeIndex GetData PeriodRange Attempts DataFrame Scrape
  SpecCal CalFacts CalProofs SpecCoord SpecCoordFacts SpecParams BuildFacts BuildInv ParamsFacts ParamsProofs
  TimeFacts SpecTime SpecData DataFacts SpecFrames SpecScrape ScrapeFacts TextProofs FrameProofs FrameProofs2 DataProofs ScrapeProofs2 TimeProofs TimeProofs2 SpecEnd RangeExact TimeEnd EndFacts EndProofs.
Local Open Scope Z_scope.

(** lia without the hypotheses it cannot use, which make it slow *)
Ltac arith_only := repeat match goal with
  | H : forall _, _ |- _ => clear H
  | H : ex _ |- _ => clear H
  | H : In _ _ |- _ => clear H
  | H : Forall _ _ |- _ => clear H
  | H : _ = Ok _ |- _ => clear H
  end.
Ltac arith := first [solve [arith_only; lia] | lia].

(** ** Consecutive dates *)
Lemma consecutive_next f ds : consecutive f ds -> forall k a b, nth_error ds k = Some a -> nth_error ds (S k) = Some b -> one_period f a b.
Proof.
  induction 1 as [d|x y l P C IH]; intros k a b A B.
  - destruct k; discriminate.
  - destruct k as [|k]; [cbn in A, B; congruence|]. apply (IH k); auto.
Qed.
Lemma Forall_nth_error {A} (P : A -> Prop) l : Forall P l -> forall k a, nth_error l k = Some a -> P a.
Proof. intros F k a E. rewrite Forall_forall in F. apply F. eapply nth_error_In; eauto. Qed.
Lemma consecutive_later f ds : consecutive f ds -> Forall real_date ds ->
  forall j i a b, (i < j)%nat -> nth_error ds i = Some a -> nth_error ds j = Some b -> earlier a b.
Proof.
  intros C R. induction j as [|j IH]; intros i a b L A B; [arith|].
  destruct (nth_error ds j) as [y|] eqn:Y.
  2:{ apply nth_error_None in Y. assert (S j < List.length ds)%nat by (apply nth_error_Some; congruence). arith. }
  assert (P : earlier y b).
  { eapply period_earlier; [eapply Forall_nth_error; eauto|eapply Forall_nth_error; eauto|]. eapply consecutive_next; eauto. }
  destruct (Nat.eq_dec i j) as [->|N]; [congruence|]. eapply earlier_trans; [|exact P]. eapply IH; [|exact A|reflexivity]. arith.
Qed.
Lemma last_nth {A} (l : list A) : forall a d, nth_error (a :: l) (List.length l) = Some (List.last (a :: l) d).
Proof. induction l as [|b l IH]; intros a d; auto. cbn [List.length nth_error]. rewrite (IH b d). reflexivity. Qed.

Lemma range_whole f ds a : periodic f -> consecutive f ds -> Forall real_date ds -> hd_error ds = Some a -> period_start f a ->
  exists pn, pandas_name f pn /\ date_range a (List.last ds a) (T f) = Ok (mkpr (T pn) ds).
Proof. intros F C R H P. destruct ds as [|b l]; inversion H; subst. apply range_exact; auto. Qed.
Lemma last_whole {A} (l : list A) a : hd_error l = Some a -> nth_error l (List.length l - 1) = Some (List.last l a).
Proof. destruct l as [|b l]; [discriminate|]. intros _. cbn [List.length]. rewrite Nat.sub_1_r. cbn [pred]. apply last_nth. Qed.

Lemma hash_known fr ds a : hd_error ds = Some a -> exists h, pr_hash (mkpr fr ds) = Ok h.
Proof.
  intros H. unfold pr_hash, pr_first, pr_last. cbn [pr_dates pr_freq]. destruct ds as [|b l] using rev_ind; [discriminate|].
  rewrite rev_app_distr. cbn [rev app hd_error]. rewrite H. eexists; reflexivity.
Qed.

(** ** The index *)
Section Index.
Variables (w : worksheet) (p : sp) (f t : text) (r c : Z) (ds : list datetime).
Variable fl : string.
Hypothesis header : sp_th p = ThStr t.
Hypothesis named : cell_named t r c.
Hypothesis cons : consecutive fl ds.
Hypothesis real : Forall real_date ds.
Hypothesis years : Forall (fun d => 1678 <= dt_y d <= 2261) ds.
Hypothesis at_ : forall k d, nth_error ds k = Some d -> holds p w (sp_starts p + Z.of_nat k) (VDate d).
Let z := sp_starts p.
Let m := z + Z.of_nat (List.length ds) - 1.

Lemma line_known : exists wl, write_line (sp_al p) (sp_th p) = Ok wl.
Proof.
  rewrite header. cbn [write_line]. unfold coord_line. apply cell_named_iff in named. rewrite named. cbn [bind]. eexists; reflexivity.
Qed.
Lemma holds_nth q d : z <= q <= m -> (holds p w q (VDate d) <-> nth_error ds (Z.to_nat (q - z)) = Some d).
Proof.
  intros Q. destruct line_known as [wl WL]. split.
  - intros H. destruct (nth_error ds (Z.to_nat (q - z))) as [d'|] eqn:E.
    2:{ apply nth_error_None in E. unfold m, z in *. arith. }
    apply at_ in E. fold z in E. replace (z + Z.of_nat (Z.to_nat (q - z))) with q in E by arith.
    apply (holds_iff _ _ _ _ _ WL) in H, E. congruence.
  - intros E. apply at_ in E. fold z in E. replace (z + Z.of_nat (Z.to_nat (q - z))) with q in E by arith. auto.
Qed.
Lemma all_dates q : z <= q <= m -> holds_date p w q.
Proof.
  intros Q. destruct (nth_error ds (Z.to_nat (q - z))) as [d|] eqn:E.
  - exists d. apply holds_nth; auto.
  - apply nth_error_None in E. unfold m in *. arith.
Qed.
Lemma dates_dated : dated p w z m.
Proof.
  split; [intros q Q; right; apply all_dates; auto|].
  intros i j x y I L J X Y. apply holds_nth in X, Y; try arith. eapply consecutive_later; [exact cons|exact real| |exact X|exact Y]. arith.
Qed.
Lemma dates_stepwise : stepwise p fl w z m.
Proof.
  intros i j x y I L J X Y N. destruct (Z.eq_dec j (i + 1)) as [->|NE].
  - apply holds_nth in X, Y; try arith. eapply consecutive_next; [exact cons|exact X|]. rewrite <- Y. f_equal. arith.
  - exfalso. apply (N (i + 1)); [arith|]. apply all_dates. arith.
Qed.
Lemma dates_9999 : before_9999 p w z m.
Proof. intros q d Q H. apply holds_nth in H; auto. apply (Forall_nth_error _ _ years) in H. cbn beta in H. arith. Qed.
End Index.

(** what the series of a clean table have in common *)
Definition open_series (al : align) (t f : text) (z m : Z) (s : sp) : Prop :=
  sp_al s = al /\ sp_th s = ThStr t /\ sp_starts s = z /\ (sp_ends s = None \/ sp_ends s = Some m) /\ sp_ta s = 0 /\
  sp_freq s = f /\ sp_multi s = false /\ not_implicit s.

Lemma name_ends e w s m nm : series_name e w s nm -> series_name e w (with_ends s m) nm.
Proof.
  intros [n H1 H2|cs ks ps qs t h n H1 H2 H3 H4 H5 H6 H7 H8]; [apply sn_given; auto|].
  eapply sn_headers; eauto.
Qed.

Section Attempt.
Variables (e : env) (w0 w : worksheet) (p : dict) (n : nat) (al : align) (f : string) (t : text) (r c z : Z)
  (ds : list datetime) (names : list text) (data : list (list spec_float)).
Let m := z + Z.of_nat (List.length ds) - 1.
Hypothesis freq : periodic f.
Hypothesis cons : consecutive f ds.
Hypothesis real : Forall real_date ds.
Hypothesis start : exists d, hd_error ds = Some d /\ period_start f d.
Hypothesis years : Forall (fun d => 1678 <= dt_y d <= 2261) ds.
Hypothesis two : (2 <= List.length ds)%nat.
Hypothesis named : cell_named t r c.
Hypothesis low : 1 <= z.
Hypothesis high : al = Horiz -> m < 18278.
Hypothesis lists : all_lists p n.
Hypothesis some : (0 < n)%nat.
Hypothesis series : forall i, (i < n)%nat -> exists s, series_sp p i = Ok s /\ open_series al t (T f) z m s.
Hypothesis index : forall s, open_series al t (T f) z m s -> forall k d, nth_error ds k = Some d -> holds s w (z + Z.of_nat k) (VDate d).
(* the index is cleaned, and the cells left are those of [w] *)
Hypothesis cleans : forall s, series_sp p 0 = Ok s -> exists w', clean_time_index e w0 s = (w', Ok m) /\ same_values w w'.
Hypothesis names_n : List.length names = n.
Hypothesis data_n : List.length data = n.
Hypothesis lengths : Forall (fun vs => List.length vs = List.length ds) data.
Hypothesis values : forall i s name vs, series_sp p i = Ok s -> nth_error names i = Some name -> nth_error data i = Some vs ->
  series_name e w s name /\ (exists hr hc, cell_named (sp_hc s) hr hc) /\ values_read (with_ends s m) w vs.

Lemma m_large : z < m. Proof. unfold m. arith. Qed.

Lemma prs_exact : exists pn, pandas_name f pn /\ forall w' line, coord_line al t = Ok line -> same_values w w' ->
  series_prs e w' (T f) z line m 0 al = Ok [mkpr (T pn) ds].
Proof.
  destruct start as [a [H0 P0]].
  destruct (range_whole f ds a freq cons real H0 P0) as (pn & PN & DR). exists pn. split; [exact PN|]. intros w' line LN S.
  destruct (series 0%nat some) as (s & S0 & O). pose proof O as (O1 & O2 & O3 & _).
  assert (WL : write_line (sp_al s) (sp_th s) = Ok line) by (rewrite O1, O2; exact LN).
  assert (RD : forall q, z <= q <= m -> axis_read al w' line q = Ok (axis_val al w' line q)).
  { intros q Q. destruct (read_in_sheet al t w' line q LN) as [v RV].
    - split; [arith|]. intros A. specialize (high A). arith.
    - rewrite RV. f_equal. symmetry. eapply axis_read_val; eauto. }
  assert (AT : forall k d, nth_error ds k = Some d -> axis_val al w' line (z + Z.of_nat k) = VDate d).
  { intros k d K. pose proof (index s O k d K) as HO. apply (holds_iff _ _ _ _ _ WL) in HO. rewrite <- HO. rewrite O1. unfold axis_val. apply S. }
  assert (TB : forall d, In d ds -> ts_in_bounds d = true).
  { intros d D. rewrite Forall_forall in years. specialize (years d D). cbn beta in years. unfold ts_in_bounds. apply andb_true_iff. split; apply leb_spec; right; unfold earlier; cbn [dt_y dt_m dt_d dt_s]; arith. }
  unfold series_prs.
  assert (FQ : accepts_freq true (T f) = false /\ accepts_freq false (T f) = true).
  { destruct freq as [<-|[<-|[<-|[<-|[<-|[]]]]]]; split; reflexivity. }
  destruct FQ as [-> ->]. unfold single_prs. rewrite !Z.add_0_r.
  pose proof m_large as ML. rewrite !RD by arith. cbn [bind].
  assert (A0 := AT 0%nat a ltac:(destruct ds; auto)). rewrite Z.add_0_r in A0. rewrite A0.
  assert (AM := AT _ _ (last_whole ds a H0)). replace (z + Z.of_nat (List.length ds - 1)) with m in AM by (unfold m; arith).
  rewrite AM. unfold range_of. cbn [to_timestamp]. rewrite TB by (apply (nth_error_In ds 0); destruct ds; auto). cbn [bind].
  rewrite TB by (eapply nth_error_In; apply (last_whole ds a H0)). cbn [bind]. rewrite DR. reflexivity.
Qed.

Lemma series_open i s : (i < n)%nat -> series_sp p i = Ok s -> open_series al t (T f) z m s.
Proof. intros I E. destruct (series i I) as (s' & E' & O). rewrite E in E'. inversion E'; subst; auto. Qed.

Lemma attempt_cleaned : exists pn cols, pandas_name f pn /\ column_names names cols /\ alone e w0 p = Ok [mkdf (mkpr (T pn) ds) cols data].
Proof.
  destruct prs_exact as (pn & PN & PRS). pose proof m_large as ML.
  destruct (series 0%nat some) as (s0 & S0 & O0). pose proof O0 as (O1 & O2 & O3 & O4 & O5 & O6 & O7 & O9).
  assert (IX := index s0 O0). rewrite <- O3 in IX.
  assert (LINE : exists line, coord_line al t = Ok line).
  { unfold coord_line. pose proof (proj1 (cell_named_iff _ _ _) named) as NM. rewrite NM. cbn [bind]. eexists; reflexivity. }
  destruct LINE as [line LN].
  (* cleaning *)
  destruct (cleans s0 S0) as (w1 & CT & SV1).
  assert (TH : forall j, (j < n)%nat -> series_value p n_time_header j (VStr t) /\ exists v, series_value p n_data_ends j v /\ open_end m v).
  { intros j J. destruct (series j J) as (s & SE & Q1 & Q2 & Q3 & Q4 & _). apply (fields_sp p n j s lists J) in SE.
    destruct SE as [_ _ _ _ _ _ [g [g1 g2]] _ _ _ _ _ _ [q [q1 q2]] _ _]. split.
    - rewrite Q2 in q2. destruct q; cbn in q2; try discriminate; [inversion q2; subst; auto|].
      destruct (mapM as_text l); discriminate.
    - exists g. split; auto. unfold open_end. destruct (truthy g); [right|left; auto]. split; auto.
      destruct (as_int g) as [g'|]; [|discriminate]. cbn in g2. inversion g2 as [E]. rewrite <- E in Q4. destruct Q4 as [Q4|Q4]; congruence. }
  assert (TM : exists v, series_value p n_time_multicolumn 0 v /\ truthy v = false).
  { pose proof S0 as F0. apply (fields_sp p n 0 s0 lists some) in F0. destruct F0 as [_ _ _ _ _ _ _ _ _ _ _ _ [v [v1 v2]] _ _ _]. exists v. rewrite O7 in v2. auto. }
  destruct (clean_all e w0 p n t m s0 some ltac:(arith) lists TH TM S0 w1 CT) as (p1 & CD & ES).
  (* reading *)
  assert (SE1 : forall i s, (i < n)%nat -> series_sp p i = Ok s -> series_sp p1 i = Ok (with_ends s m)).
  { intros i s I E. eapply fields_ends; eauto. }
  assert (L1 : all_lists p1 n) by apply ES.
  assert (HASH : exists h, pr_hash (mkpr (T pn) ds) = Ok h).
  { destruct start as [a [H0 _]]. apply (hash_known (T pn) ds a H0). }
  destruct HASH as [h HASH].
  destruct (read_all e w1 p1 n (T f) t al z m line (mkpr (T pn) ds) h L1) with (names := names) (data := data) as (w2 & cols & GD & CN); auto.
  - intros w' S. apply PRS; auto. eapply same_values_trans; eauto.
  - intros i I. destruct (series i I) as (s & SE & Q). exists (with_ends s m). split; [apply SE1; auto|].
    destruct Q as (Q1 & Q2 & Q3 & Q4 & Q5 & Q6 & Q7 & Q9). repeat split; auto.
  - intros j name vs s N1 N2 SE.
    assert (J : (j < n)%nat) by (rewrite <- names_n; apply nth_error_Some; congruence).
    destruct (series j J) as (s' & SE' & Q). pose proof (SE1 j s' J SE') as SE2. rewrite SE in SE2. inversion SE2; subst s. clear SE2.
    destruct (values j s' name vs SE' N1 N2) as (NM & HC & VR). pose proof Q as (Q1 & Q2 & Q3 & Q4 & Q5 & Q6 & Q7 & Q9).
    assert (LEN : List.length vs = List.length ds) by (eapply (Forall_nth_error _ _ lengths); eauto).
    split.
    + unfold dcombo_accepts, dcombos. cbn [find dk_multifreq dk_cont with_ends sp_freq sp_cont]. rewrite Q6.
      destruct freq as [<-|[<-|[<-|[<-|[<-|[]]]]]]; destruct (sp_cont s'); discriminate.
    + intros w' S. assert (SW : same_values w w') by (eapply same_values_trans; eauto).
      rewrite <- (c53_same_values e w w' (with_ends s' m)).
      * apply c32_accepts; [| | | | |exact VR|].
        -- unfold single_frequency; cbn [with_ends sp_freq]. rewrite Q6. destruct freq as [<-|[<-|[<-|[<-|[<-|[]]]]]]; reflexivity.
        -- exact Q9.
        -- apply name_ends; exact NM.
        -- split; [exact HC|]. cbn [with_ends sp_ends sp_starts sp_al]. intros en q E R. inversion E; subst en. rewrite Q1, Q3 in *. split; [arith|]. intros A. specialize (high A). arith.
        -- intros _. split.
           ++ exists t, r, c. split; auto.
           ++ cbn [with_ends sp_ends sp_starts sp_al sp_ta]. intros en q E R. inversion E; subst en. rewrite Q1, Q3, Q5 in *. split; [arith|]. intros A. specialize (high A). arith.
        -- intros ->. cbn in LEN. arith.
      * intros MS. destruct (Q9 MS) as (ms & MV & _). exists ms. exact MV.
      * apply stored_same; auto.
  - exists pn, cols. split; auto. split; auto. unfold alone, run_attempt. cbn [sheet params st_sheets st_params nth].
    rewrite CD. rewrite GD. reflexivity.
Qed.
End Attempt.

(** ** Cells that already hold dates *)
Section Dates.
Variables (e : env) (w : worksheet) (al : align) (f : string) (t : text) (r c z : Z) (ds : list datetime) (s0 : sp).
Let m := z + Z.of_nat (List.length ds) - 1.
Hypothesis dates_real : real_dates w.
Hypothesis freq : periodic f.
Hypothesis cons : consecutive f ds.
Hypothesis real : Forall real_date ds.
Hypothesis years : Forall (fun d => 1678 <= dt_y d <= 2261) ds.
Hypothesis two : (2 <= List.length ds)%nat.
Hypothesis named : cell_named t r c.
Hypothesis low : 1 <= z.
Hypothesis high : al = Horiz -> m < 18278.
Hypothesis O0 : open_series al t (T f) z m s0.
Hypothesis simple : sp_composed s0 = false.
Hypothesis index : forall k d, nth_error ds k = Some d -> holds s0 w (z + Z.of_nat k) (VDate d).
Hypothesis ends : index_ends s0 w m.
Lemma dates_cleaned : exists w', clean_time_index e w s0 = (w', Ok m) /\ same_values w w'.
Proof.
  pose proof O0 as (O1 & O2 & O3 & O4 & O5 & O6 & O7 & O9). assert (ML : z < m) by (unfold m; arith).
  assert (IX := index). rewrite <- O3 in IX.
  destruct (accepted_ends e w s0 f t r c m) as (w' & CT & SV); auto.
    - destruct freq as [<-|[<-|[<-|[<-|[<-|[]]]]]]; cbn; tauto.
    - rewrite O3. split; [arith|]. rewrite O1. destruct al; auto.
    - intros q Q. eapply all_dates; eauto. rewrite O3 in *. unfold m in *. arith.
    - pose proof (dates_dated w s0 t r c ds f O2 named cons real IX) as D. rewrite O3 in *. exact D.
    - pose proof (dates_stepwise w s0 t r c ds f O2 named cons IX) as D. rewrite O3 in *. unfold no_typos.
      destruct (sp_missings s0) eqn:MS; [left|right; split; auto]. split; auto. destruct (O9 MS) as (ms & MV & _). unfold explicit_marker. rewrite MV. discriminate.
    - pose proof (dates_9999 w s0 t r c ds O2 named years IX) as D. rewrite O3 in *. exact D.
    - arith.
    - arith.
    - exists w'. rewrite O5, Z.sub_0_r in CT. split; auto.
Qed.
End Dates.
