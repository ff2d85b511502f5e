(** Requests for tables with periods left out, or with blank rows (C61, C62). *)
From Coq Require Import ZifyBool ZifyNat.
From Verif Require Import Base BaseFacts Cal Coord CoordFacts XlMethods Params ParseTime TimeIndex GetData PeriodRange Attempts DataFrame Scrape Xlseries
  SpecCal CalFacts SpecCoord SpecCoordFacts SpecParams ParamsProofs SpecAttempts
  SpecTime TimeFacts TimeProofs SpecData DataFacts DataProofs SpecFrames SpecScrape ScrapeFacts ScrapeProofs ScrapeProofs2 SpecEnd EndFacts EndProofs EndAttempt EndBuild EndCall SpecGaps GapFacts.
Local Open Scope Z_scope.

(** ** One attempt *)
Section Table.
Variables (e : env) (d : dict) (cells : list (Z * Z)) (time : Z * Z) (z m : Z) (f : string) (se : settings)
  (names : list text) (ds : list datetime) (data : list (list spec_float)).
Hypothesis RQ : request d cells time z m f se.
Hypothesis FREQ : periodic f.
Let series_of := series_of d z m f se.

Lemma series_plain hs t i : plain_series (se_align se) t (T f) z m (series_of hs t i).
Proof.
  unfold series_of, EndCall.series_of, plain_series.
  cbn [sp_al sp_name sp_hc sp_comp sp_ctx sp_starts sp_ends sp_cont sp_blank sp_missings sp_mv sp_ta sp_multi sp_th sp_composed sp_freq].
  destruct (is_none (dgetN n_data_ends d)); repeat (split; auto).
Qed.
Lemma series_named w hs t i r c h name : nth_error hs i = Some h -> cell_named h r c -> nth_error cells i = Some (r, c) -> nth_error names i = Some name ->
  table_names e d w cells names -> series_name e w (with_ends (series_of hs t i) m) name.
Proof.
  intros HI HN CI N1 TNM. assert (HC : sp_hc (series_of hs t i) = h) by (unfold series_of, EndCall.series_of; cbn [sp_hc]; apply nth_error_nth; auto).
  apply name_ends. destruct TNM as [G L NE|G F2].
  - apply sn_given; [|eapply (Forall_nth_error _ _ NE); eauto]. unfold series_of, EndCall.series_of. cbn [sp_name].
    change (requested d z m f se hs t n_series_names i) with (match dgetN (pname "series_names") d with VList l => nth i l VNone | _ => VNone end).
    rewrite (BuildInv.dgetN_some _ _ _ G). apply nth_error_nth. rewrite nth_error_map, N1. reflexivity.
  - destruct (Forall2_nth_error2 _ _ _ F2 _ _ _ CI N1) as (u & W & ST). cbn [fst snd] in W.
    apply (sn_headers e w (series_of hs t i) [] [] [] [] name name name).
    + unfold series_of, EndCall.series_of. cbn [sp_name].
      change (requested d z m f se hs t n_series_names i) with (match dgetN (pname "series_names") d with VList l => nth i l VNone | _ => VNone end).
      rewrite (ParamsProofs2.not_given_falsy _ _ G). constructor.
    + exists r, c, u. rewrite HC. auto.
    + apply en_none. constructor.
    + constructor.
    + constructor.
    + apply en_none. constructor.
    + constructor.
    + constructor.
Qed.
Lemma table_general w wi hs t a : names_cells hs cells -> cell_named t (fst time) (snd time) ->
  (forall k, In k PARAM_NAMES -> fixed a (List.length cells) k (requested d z m f se hs t k)) ->
  z < m -> consecutive f ds -> (exists x, hd_error ds = Some x /\ period_start f x) -> Forall (fun x => real_date x /\ 1678 <= dt_y x <= 2261) ds ->
  1 <= z /\ (se_align se = Horiz -> m < 18278) ->
  (forall x, hd_error ds = Some x -> along (se_align se) wi (line_of (se_align se) time) z = VDate x /\
     along (se_align se) wi (line_of (se_align se) time) m = VDate (List.last ds x)) ->
  List.length names = List.length cells -> List.length data = List.length cells -> Forall (fun vs => List.length vs = List.length ds) data ->
  (forall i h rc name vs, nth_error hs i = Some h -> nth_error cells i = Some rc -> cell_named h (fst rc) (snd rc) -> nth_error names i = Some name -> nth_error data i = Some vs ->
     get_data e wi (with_ends (series_of hs t i) m) = Ok [(name, vs)]) ->
  (exists w', clean_time_index e w (series_of hs t 0) = (w', Ok m) /\ same_values wi w') ->
  exists pn cols, pandas_name f pn /\ column_names names cols /\ alone e w a = Ok [mkdf (mkpr (T pn) ds) cols data].
Proof.
  intros NC TN F ZM c4 c5 c6 [c8 c9] c3 LNM LD LE RD CL0. set (n := List.length cells) in *.
  assert (NZ : m <> 0) by lia.
  assert (AL : all_lists a n) by (intros k K; destruct (F k K) as (l & E & L & _); eauto).
  assert (S0 : forall i, (i < n)%nat -> series_sp a i = Ok (series_of hs t i)) by (intros i I; eapply series_exact; eauto).
  assert (NP : (0 < n)%nat).
  { destruct (rq_headers _ _ _ _ _ _ _ RQ) as (hv & _ & _ & NE). unfold n. destruct cells; [congruence|cbn; lia]. }
  assert (LN : List.length hs = n) by (apply ParamsProofs2.names_len; auto).
  apply (attempt_read e w wi a n (se_align se) f t (fst time) (snd time) z m ds names data); auto.
  - eapply Forall_impl; [|exact c6]; cbn; tauto.
  - eapply Forall_impl; [|exact c6]; cbn; tauto.
  - intros i I. exists (series_of hs t i). split; auto. apply series_plain.
  - intros s x (A & T & _) H. eapply along_holds; eauto. apply c3; auto.
  - intros s x (A & T & _) H. eapply along_holds; eauto. apply c3; auto.
  - intros s E. rewrite (S0 0%nat NP) in E. inversion E; subst s. auto.
  - intros i s name vs E N1 N2.
    assert (I : (i < n)%nat) by (rewrite <- LNM; apply nth_error_Some; congruence).
    rewrite (S0 i I) in E. inversion E; subst s. clear E.
    split; [intros _; exists (se_markers se); reflexivity|].
    destruct (nth_error hs i) as [h|] eqn:HI; [|apply nth_error_None in HI; lia].
    destruct (nth_error cells i) as [rc|] eqn:CI; [|apply nth_error_None in CI; unfold n in *; lia].
    apply (RD i h rc); auto. apply (Forall2_nth_error2 _ _ _ NC _ _ _ HI CI).
Qed.

(** the cells of the series and of its index are in the sheet *)
Lemma own_in_sheet hs t i h r c : nth_error hs i = Some h -> cell_named h r c -> 1 <= z /\ (se_align se = Horiz -> m < 18278) ->
  series_in_sheet (with_ends (series_of hs t i) m).
Proof.
  intros HI HN [L H]. assert (HC : sp_hc (series_of hs t i) = h) by (unfold series_of, EndCall.series_of; cbn [sp_hc]; apply nth_error_nth; auto).
  split; [exists r, c; cbn [with_ends sp_hc]; rewrite HC; auto|].
  intros en q E Q. cbn in E, Q. inversion E; subst en. split; [lia|]. cbn. intros A. specialize (H A). lia.
Qed.
Lemma time_in_sheet hs t i : cell_named t (fst time) (snd time) -> 1 <= z /\ (se_align se = Horiz -> m < 18278) ->
  index_in_sheet (with_ends (series_of hs t i) m).
Proof.
  intros TN [L H]. split; [exists t, (fst time), (snd time); auto|].
  intros en q E Q. cbn in E, Q. inversion E; subst en. cbn. rewrite Z.add_0_r. split; [lia|]. intros A. specialize (H A). lia.
Qed.
End Table.

(** ** The index *)
Section Rows.
Variables (e : env) (w : worksheet) (s : sp) (al : align) (f : string) (t : text) (r c z m : Z) (rows : list (option datetime)).
Hypothesis WR : real_dates w.
Hypothesis SER : plain_series al t (T f) z m s.
Hypothesis M : m = z + Z.of_nat (List.length rows) - 1.
Hypothesis simple : sp_composed s = false.
Hypothesis FREQ : periodic f.
Hypothesis TN : cell_named t r c.
Hypothesis ZM : z < m.
Hypothesis inside : 1 <= z /\ (al = Horiz -> m < 18278).
Hypothesis at_date : forall k x, nth_error rows k = Some (Some x) -> holds s w (z + Z.of_nat k) (VDate x).
Hypothesis at_blank : forall k, nth_error rows k = Some None -> blank_at s w (z + Z.of_nat k).
Hypothesis increasing : forall i j x y, (i < j)%nat -> nth_error rows i = Some (Some x) -> nth_error rows j = Some (Some y) -> earlier x y.
Hypothesis steps : sp_missings s = true /\ explicit_marker s \/
  sp_missings s = false /\ forall i j x y, (i < j)%nat -> nth_error rows i = Some (Some x) -> nth_error rows j = Some (Some y) ->
    (forall k v, (i < k < j)%nat -> nth_error rows k <> Some (Some v)) -> one_period f x y.
Hypothesis years : forall k x, nth_error rows k = Some (Some x) -> dt_y x < 9999.
Hypothesis lastd : exists x, nth_error rows (List.length rows - 1) = Some (Some x).
Hypothesis runs : tolerates_blanks s /\ (forall k, (k + 40 < List.length rows)%nat -> exists j x, (k <= j <= k + 40)%nat /\ nth_error rows j = Some (Some x)) \/
  forall k, (k < List.length rows)%nat -> exists x, nth_error rows k = Some (Some x).
Hypothesis ends : index_ends s w m.

Lemma rows_cleaned : exists w', clean_time_index e w s = (w', Ok m) /\ same_values w w'.
Proof.
  pose proof SER as (O1 & O2 & O3 & O4 & O5 & O6 & O7).
  destruct (line_named (sp_al s) _ _ _ TN) as [wl LN].
  assert (WL : write_line (sp_al s) (sp_th s) = Ok wl) by (rewrite O2; exact LN).
  assert (POS : forall q, z <= q <= m -> exists k, (k < List.length rows)%nat /\ q = z + Z.of_nat k) by (intros q Q; exists (Z.to_nat (q - z)); lia).
  assert (BD : forall q d, blank_at s w q -> ~ holds s w q (VDate d)).
  { intros q d (v & HV & N) H. apply (holds_iff _ _ _ _ _ WL) in HV, H. rewrite <- HV, H in N. inversion N. }
  assert (DATE : forall k d, (k < List.length rows)%nat -> holds s w (z + Z.of_nat k) (VDate d) <-> nth_error rows k = Some (Some d)).
  { intros k d K. split; auto. intros H. destruct (nth_error rows k) as [[x|]|] eqn:E.
    - apply at_date in E. apply (holds_iff _ _ _ _ _ WL) in H, E. congruence.
    - exfalso. apply at_blank in E. exact (BD _ _ E H).
    - apply nth_error_None in E. lia. }
  destruct (accepted_spaced e w s f t r c m) as (w' & CT & SV); auto.
  - unfold periodic, frequency_letter in *; cbn in *; tauto.
  - rewrite O3. destruct inside as [I1 I2]. split; [lia|]. rewrite O1. destruct al; auto.
  - destruct lastd as [x E]. exists x. apply at_date in E. replace m with (z + Z.of_nat (List.length rows - 1)) by lia. auto.
  - rewrite O3. destruct runs as [[TB RN]|AD]; [left; split; auto|right].
    + intros q Q1 Q2. destruct (RN (Z.to_nat (q - z))) as (j & x & J & E); [lia|]. exists (z + Z.of_nat j). split; [lia|]. exists x. auto.
    + intros q Q. destruct (POS q Q) as (k & K & ->). destruct (AD k K) as [x E]. exists x. auto.
  - rewrite O3. split.
    + intros q Q. destruct (POS q Q) as (k & K & ->). destruct (nth_error rows k) as [[x|]|] eqn:E; [right; exists x; auto|left; auto|apply nth_error_None in E; lia].
    + intros i j x y I L J X Y. destruct (POS i ltac:(lia)) as (a & A & ->). destruct (POS j ltac:(lia)) as (b & B & ->). apply DATE in X, Y; auto.
      apply (increasing a b); auto. lia.
  - rewrite O3. destruct steps as [E|[E ST]]; [left; auto|right]. split; auto.
    intros i j x y I L J X Y N. destruct (POS i ltac:(lia)) as (a & A & ->). destruct (POS j ltac:(lia)) as (b & B & ->). apply DATE in X, Y; auto.
    apply (ST a b); auto; [lia|]. intros k v K E1. apply (N (z + Z.of_nat k)); [lia|]. exists v. auto.
  - rewrite O3. intros q d Q H. destruct (POS q Q) as (k & K & ->). apply DATE in H; eauto.
  - lia.
  - lia.
  - exists w'. rewrite O5, Z.sub_0_r in CT. split; auto.
Qed.
End Rows.

(** ** Periods left out *)
Lemma spread_facts ds xs vs full : spread ds xs vs full ->
  List.length full = List.length ds /\ List.length vs = List.length xs /\ xs <> [] /\ (forall x, List.last ds x = List.last xs x) /\
  exists ks : list nat, List.length ks = List.length xs /\
    (forall k x i, nth_error xs k = Some x -> nth_error ks k = Some i -> nth_error ds i = Some x) /\
    (forall a b i j, (a < b)%nat -> nth_error ks a = Some i -> nth_error ks b = Some j -> (i < j)%nat).
Proof.
  induction 1 as [x v|x v ds xs vs full S (IH1 & IH2 & IH3 & IH4 & ks & K1 & K2 & K3)|x ds xs vs full S (IH1 & IH2 & IH3 & IH4 & ks & K1 & K2 & K3)].
  - repeat split; auto; try discriminate. exists [0%nat]. split; auto. split.
    + intros [|k] y i X I; cbn in *; [inversion X; inversion I; auto|destruct k; discriminate].
    + intros a [|b] i j L A B; [lia|]. destruct b; discriminate.
  - split; [cbn; congruence|]. split; [cbn; congruence|]. split; [discriminate|].
    assert (ND : ds <> []) by (intros ->; inversion S). split.
    { intros y. destruct ds; [congruence|]. destruct xs; [congruence|]. exact (IH4 y). }
    exists (0%nat :: map Datatypes.S ks). split; [cbn; rewrite map_length; congruence|]. split.
    + intros [|k] y i X I; cbn in *; [inversion I; subst; auto|]. rewrite nth_error_map in I. destruct (nth_error ks k) as [j|] eqn:J; inversion I; subst. cbn. eauto.
    + intros a [|b] i j L A B; [lia|]. cbn in B. rewrite nth_error_map in B. destruct (nth_error ks b) as [j'|] eqn:J; inversion B; subst.
      destruct a as [|a]; cbn in A; [inversion A; lia|]. rewrite nth_error_map in A. destruct (nth_error ks a) as [i'|] eqn:I; inversion A; subst.
      specialize (K3 a b i' j' ltac:(lia) I J). lia.
  - split; [cbn; congruence|]. split; [congruence|]. split; [auto|].
    assert (ND : ds <> []) by (intros ->; inversion S). split.
    { intros y. rewrite <- IH4. destruct ds; [congruence|]. reflexivity. }
    exists (map Datatypes.S ks). split; [rewrite map_length; congruence|]. split.
    + intros k y i X I. rewrite nth_error_map in I. destruct (nth_error ks k) as [j|] eqn:J; inversion I; subst. cbn. eauto.
    + intros a b i j L A B. rewrite nth_error_map in A, B. destruct (nth_error ks b) as [j'|] eqn:J; inversion B; subst.
      destruct (nth_error ks a) as [i'|] eqn:I; inversion A; subst. specialize (K3 a b i' j' L I J). lia.
Qed.

Section Gap.
Variables (e : env) (d : dict) (cells : list (Z * Z)) (time : Z * Z) (z m : Z) (f : string) (se : settings)
  (names : list text) (xs ds : list datetime) (data : list (list spec_float)).
Hypothesis RQ : request d cells time z m f se.
Hypothesis FREQ : periodic f.

Lemma gap_alone w hs t a : names_cells hs cells -> cell_named t (fst time) (snd time) ->
  (forall k, In k PARAM_NAMES -> fixed a (List.length cells) k (requested d z m f se hs t k)) ->
  real_dates w -> gap_table d w cells time z m f se xs ds data -> table_names e d w cells names ->
  exists pn cols, pandas_name f pn /\ column_names names cols /\ alone e w a = Ok [mkdf (mkpr (T pn) ds) cols data].
Proof.
  intros NC TN F RW [c1 c2 c3 [i1 i2] c5 c6 (x0 & c7 & c8 & c9) c10 c11 c12 c13 c14] TNM.
  assert (LNM : List.length names = List.length cells).
  { destruct TNM as [_ L _|_ F2]; auto. symmetry. eapply F2_len; eauto. }
  assert (LD : List.length data = List.length cells) by (symmetry; eapply F2_len; eauto).
  assert (SF : exists vs full, spread ds xs vs full).
  { destruct (rq_headers _ _ _ _ _ _ _ RQ) as (hv & _ & _ & NE). destruct c14 as [|rc full cs dt (vs & S & _) _]; [congruence|]. eauto. }
  destruct SF as (vs0 & full0 & SF). apply spread_facts in SF as (_ & _ & NX & LAST & ks & K1 & K2 & K3).
  assert (REAL : Forall real_date ds) by (eapply Forall_impl; [|exact c10]; cbn; tauto).
  apply (table_general e d cells time z m f se names ds data RQ FREQ w w hs t a); auto; try lia.
  - eauto.
  - intros x X. assert (x = x0) by congruence. subst x. split.
    + replace z with (z + Z.of_nat 0) by lia. apply c5. destruct xs; auto.
    + rewrite LAST. replace m with (z + Z.of_nat (List.length xs - 1)) by lia. apply c5. apply last_whole. auto.
  - clear - c14. induction c14 as [|rc full cs dt (vs & S & _) _ IH]; constructor; auto. apply spread_facts in S. tauto.
  - intros i h rc name full HI CI HN N1 N2. destruct (Forall2_nth_error2 _ _ _ c14 _ _ _ CI N2) as (vs & S & ST). cbn beta in ST.
    pose proof (spread_facts _ _ _ _ S) as (_ & LV & _).
    assert (HC : sp_hc (series_of d z m f se hs t i) = h) by (unfold series_of; cbn [sp_hc]; apply nth_error_nth; auto).
    assert (HO : forall k x, nth_error xs k = Some x -> holds (with_ends (series_of d z m f se hs t i) m) w (z + Z.of_nat k) (VDate x)).
    { intros k x K. apply (along_holds time se _ w t); auto. }
    apply (implicit_read e w _ f (se_markers se) vs xs ds full name t (fst time) (snd time) m); auto.
    + apply (read_series _ w (fst rc) (snd rc)) with (mk := se_markers se) (ds := xs) (m := m); auto.
      * unfold with_ends. cbn [sp_hc]. rewrite HC. auto.
      * change (sp_starts (with_ends (series_of d z m f se hs t i) m)) with z. lia.
    + congruence.
    + destruct rc as [r c]. apply (series_named e d cells z m f se names w hs t i r c h); auto.
    + eapply own_in_sheet; eauto.
    + intros _. apply (time_in_sheet d time z m f se); auto.
  - apply (rows_cleaned e w _ (se_align se) f t (fst time) (snd time) z m (map Some xs)); auto.
    + apply series_plain.
    + rewrite map_length. auto.
    + lia.
    + intros k x K. rewrite nth_error_map in K. destruct (nth_error xs k) as [y|] eqn:E; inversion K; subst. apply (along_holds time se _ w t); auto.
    + intros k K. rewrite nth_error_map in K. destruct (nth_error xs k); discriminate.
    + intros i j x y L X Y. rewrite nth_error_map in X, Y. destruct (nth_error xs i) as [x'|] eqn:E1; inversion X; subst. destruct (nth_error xs j) as [y'|] eqn:E2; inversion Y; subst.
      destruct (nth_error ks i) as [a1|] eqn:A1. 2:{ apply nth_error_None in A1. assert (i < List.length xs)%nat by (apply nth_error_Some; congruence). lia. }
      destruct (nth_error ks j) as [a2|] eqn:A2. 2:{ apply nth_error_None in A2. assert (j < List.length xs)%nat by (apply nth_error_Some; congruence). lia. }
      apply (consecutive_later f ds c6 REAL a2 a1); eauto.
    + left. split; auto. discriminate.
    + intros k x K. rewrite nth_error_map in K. destruct (nth_error xs k) as [y|] eqn:E; inversion K; subst.
      destruct (nth_error ks k) as [a1|] eqn:A1. 2:{ apply nth_error_None in A1. assert (k < List.length xs)%nat by (apply nth_error_Some; congruence). lia. }
      pose proof (K2 _ _ _ E A1) as N. apply (EndAttempt.Forall_nth_error _ _ c10) in N. lia.
    + exists (List.last xs x0). rewrite map_length, nth_error_map, (last_whole xs x0 c8). reflexivity.
    + right. intros k K. rewrite map_length in K. rewrite nth_error_map. destruct (nth_error xs k) as [y|] eqn:E; [exists y; auto|]. apply nth_error_None in E. lia.
    + apply (stops_ends d cells time z m f se RQ); auto.
Qed.
End Gap.

(** ** Blank rows *)
Fixpoint rank (rows : list (option datetime)) (i : nat) : nat :=
  match rows, i with
  | Some _ :: rows', S i' => S (rank rows' i')
  | None :: rows', S i' => rank rows' i'
  | _, _ => 0%nat
  end.
Lemma rank_date rows ds : the_dates rows ds -> forall i x, nth_error rows i = Some (Some x) -> nth_error ds (rank rows i) = Some x.
Proof. induction 1 as [|y rows ds H IH|rows ds H IH]; intros [|i] x E; cbn in *; try discriminate; try congruence; eauto. Qed.
Lemma rank_less rows : forall i j x, (i < j)%nat -> (j <= List.length rows)%nat -> nth_error rows i = Some (Some x) -> (rank rows i < rank rows j)%nat.
Proof.
  induction rows as [|[y|] rows IH]; intros i j x L J E.
  - destruct i; discriminate.
  - destruct j as [|j]; [lia|]. cbn in J. destruct i as [|i]; cbn; [lia|]. cbn in E. specialize (IH i j x ltac:(lia) ltac:(lia) E). lia.
  - destruct j as [|j]; [lia|]. cbn in J. destruct i as [|i]; cbn in *; [discriminate|]. apply (IH i j x); auto; lia.
Qed.
Lemma rank_next rows : forall i j x, (i < j)%nat -> (j <= List.length rows)%nat -> nth_error rows i = Some (Some x) ->
  (forall k v, (i < k < j)%nat -> nth_error rows k <> Some (Some v)) -> rank rows j = S (rank rows i).
Proof.
  assert (Z0 : forall rows j, (j <= List.length rows)%nat -> (forall k v, (k < j)%nat -> nth_error rows k <> Some (Some v)) -> rank rows j = 0%nat).
  { induction rows0 as [|[y|] rows0 IH]; intros [|j] J N; auto; cbn in J.
    - exfalso. apply (N 0%nat y); [lia|auto].
    - cbn. apply IH; [lia|]. intros k v K. apply (N (S k)). lia. }
  induction rows as [|[y|] rows IH]; intros i j x L J E N.
  - destruct i; discriminate.
  - destruct j as [|j]; [lia|]. cbn in J. destruct i as [|i]; cbn.
    + f_equal. apply Z0; [lia|]. intros k v K. apply (N (S k)). lia.
    + f_equal. apply (IH i j x); auto; try lia. intros k v K. apply (N (S k)). lia.
  - destruct j as [|j]; [lia|]. cbn in J. destruct i as [|i]; cbn in *; [discriminate|]. apply (IH i j x); auto; try lia. intros k v K. apply (N (S k)). lia.
Qed.
Lemma dates_last rows ds : the_dates rows ds -> forall x, List.last rows None = Some x -> forall y, List.last ds y = x.
Proof.
  induction 1 as [|y rows ds H IH|rows ds H IH]; intros x E d0; [discriminate| |].
  - destruct H as [|y' rows ds H|rows ds H].
    + cbn in *. congruence.
    + change (List.last (Some y :: Some y' :: rows) None) with (List.last (Some y' :: rows) None) in E. exact (IH x E d0).
    + change (List.last (Some y :: None :: rows) None) with (List.last (None :: rows) None) in E. destruct ds as [|z ds]; [|exact (IH x E d0)].
      exfalso. specialize (IH x E). pose proof (IH (mkdt 1 1 1 0)). pose proof (IH (mkdt 1 1 2 0)). cbn in *. congruence.
  - apply IH. destruct rows; auto.
Qed.
Lemma dates_in rows ds : the_dates rows ds -> forall x, In x ds -> In (Some x) rows.
Proof. induction 1; intros y I; cbn in *; intuition (subst; auto). Qed.
Lemma dates_count rows ds : the_dates rows ds -> (List.length ds <= List.length rows)%nat.
Proof. induction 1; cbn; lia. Qed.
Lemma beside_len ct st rows l vs ds : beside ct st rows l vs -> the_dates rows ds -> List.length l = List.length rows /\ List.length vs = List.length ds.
Proof.
  intros B. revert ds. induction B as [|x v y rows l vs S B IH|v rows l vs N B IH]; intros ds D; inversion D; subst; auto.
  - match goal with T : the_dates rows _ |- _ => destruct (IH _ T) end. cbn. auto.
  - match goal with T : the_dates rows _ |- _ => destruct (IH _ T) end. cbn. auto.
Qed.

Section Column.
Variables (p : sp) (w : worksheet) (r c : Z) (mk : list pyval).
Hypothesis header : cell_named (sp_hc p) r c.
Hypothesis the_markers : sp_mv p = VList mk.
Hypothesis ta : sp_ta p = 0.
Let v_at q := along (sp_al p) w (line_of (sp_al p) (r, c)) q.
Lemma spaced_continuous : sp_blank p = true -> forall rows l vs, beside true (stands_for (sp_missings p) mk) rows l vs ->
  forall a en, en = a + Z.of_nat (List.length rows) - 1 -> (forall k v, nth_error l k = Some v -> v_at (a + Z.of_nat k) = v) ->
  cells_from p w en a l /\ continuous_values p l vs.
Proof.
  intros BL rows l vs B. induction B as [|x v y rows l vs S B IH|v rows l vs N B IH]; intros a en E G.
  - split; constructor. cbn in E. lia.
  - cbn [List.length] in E. destruct (IH (a + 1) en) as [C1 C2]; [lia| |].
    { intros k u K. replace (a + 1 + Z.of_nat k) with (a + Z.of_nat (Datatypes.S k)) by lia. apply G. auto. }
    split; [|apply (stands_continuous p mk the_markers); auto]. constructor; auto; [lia|]. rewrite <- (G 0%nat v eq_refl). replace (a + Z.of_nat 0) with a by lia. apply own_at. auto.
  - cbn [List.length] in E. destruct (IH (a + 1) en) as [C1 C2]; [lia| |].
    { intros k u K. replace (a + 1 + Z.of_nat k) with (a + Z.of_nat (Datatypes.S k)) by lia. apply G. auto. }
    split; [|rewrite N by auto; apply cv_blank; auto]. constructor; auto; [lia|]. rewrite <- (G 0%nat v eq_refl). replace (a + Z.of_nat 0) with a by lia. apply own_at. auto.
Qed.
Lemma spaced_loose : forall rows l vs, beside false (stands_for (sp_missings p) mk) rows l vs ->
  forall a en, en = a + Z.of_nat (List.length rows) - 1 -> (forall k v, nth_error l k = Some v -> v_at (a + Z.of_nat k) = v) ->
  (forall k x, nth_error rows k = Some (Some x) -> holds p w (a + Z.of_nat k) (VDate x)) ->
  (forall k, nth_error rows k = Some None -> blank_at p w (a + Z.of_nat k)) ->
  exists pairs, dated_cells_from p w en a pairs /\ loose_values p pairs vs.
Proof.
  intros rows l vs B. induction B as [|x v y rows l vs S B IH|v rows l vs N B IH]; intros a en E G D1 D2.
  - exists []. split; constructor. cbn in E. lia.
  - cbn [List.length] in E. destruct (IH (a + 1) en) as (pairs & C1 & C2); [lia| | | |].
    { intros k u K. replace (a + 1 + Z.of_nat k) with (a + Z.of_nat (Datatypes.S k)) by lia. apply G. auto. }
    { intros k u K. replace (a + 1 + Z.of_nat k) with (a + Z.of_nat (Datatypes.S k)) by lia. apply D1. auto. }
    { intros k K. replace (a + 1 + Z.of_nat k) with (a + Z.of_nat (Datatypes.S k)) by lia. apply D2. auto. }
    exists ((v, VDate x) :: pairs). split.
    + constructor; auto; [lia| |].
      * rewrite <- (G 0%nat v eq_refl). replace (a + Z.of_nat 0) with a by lia. apply own_at. auto.
      * rewrite ta, Z.add_0_r. replace a with (a + Z.of_nat 0) by lia. apply D1. auto.
    + apply lv_taken; auto; [exists x; auto|]. apply (stands_worth p mk the_markers). auto.
  - cbn [List.length] in E. destruct (IH (a + 1) en) as (pairs & C1 & C2); [lia| | | |].
    { intros k u K. replace (a + 1 + Z.of_nat k) with (a + Z.of_nat (Datatypes.S k)) by lia. apply G. auto. }
    { intros k u K. replace (a + 1 + Z.of_nat k) with (a + Z.of_nat (Datatypes.S k)) by lia. apply D1. auto. }
    { intros k K. replace (a + 1 + Z.of_nat k) with (a + Z.of_nat (Datatypes.S k)) by lia. apply D2. auto. }
    destruct (D2 0%nat eq_refl) as (t & HT & NT). rewrite Z.add_0_r in HT. exists ((v, t) :: pairs). split.
    + constructor; auto; [lia| |].
      * rewrite <- (G 0%nat v eq_refl). replace (a + Z.of_nat 0) with a by lia. apply own_at. auto.
      * rewrite ta, Z.add_0_r. auto.
    + apply lv_left; auto. left. intros [x ->]. inversion NT.
Qed.
End Column.

Section Spaced.
Variables (e : env) (d : dict) (cells : list (Z * Z)) (time : Z * Z) (z m : Z) (f : string) (se : settings)
  (names : list text) (rows : list (option datetime)) (ds : list datetime) (data : list (list spec_float)).
Hypothesis RQ : request d cells time z m f se.
Hypothesis FREQ : periodic f.
Hypothesis NOIMP : se_missings se = true -> ~ In (VStr (pname "Implicit")) (se_markers se).

Lemma spaced_alone w hs t a : names_cells hs cells -> cell_named t (fst time) (snd time) ->
  (forall k, In k PARAM_NAMES -> fixed a (List.length cells) k (requested d z m f se hs t k)) ->
  real_dates w -> spaced_table d w cells time z m f se rows ds data -> table_names e d w cells names ->
  exists pn cols, pandas_name f pn /\ column_names names cols /\ alone e w a = Ok [mkdf (mkpr (T pn) ds) cols data].
Proof.
  intros NC TN F RW [c1 c2 TB c3 c4 c5 c6 (x0 & c7 & c8 & c9) (xl & c10) c11 c12 c13 c14 c15 c16] TNM.
  assert (LNM : List.length names = List.length cells).
  { destruct TNM as [_ L _|_ F2]; auto. symmetry. eapply F2_len; eauto. }
  assert (LD : List.length data = List.length cells) by (symmetry; eapply F2_len; eauto).
  assert (AD : forall k x, nth_error rows k = Some (Some x) -> along (se_align se) w (line_of (se_align se) time) (z + Z.of_nat k) = VDate x) by (intros k x K; exact (c3 _ _ K)).
  assert (AB : forall k, nth_error rows k = Some None -> blank_cell (along (se_align se) w (line_of (se_align se) time) (z + Z.of_nat k))) by (intros k K; exact (c3 _ _ K)).
  assert (REAL : Forall real_date ds).
  { apply Forall_forall. intros x X. apply (dates_in _ _ c4) in X. apply In_nth_error in X as [k K]. apply AD in K.
    destruct (se_align se); cbn [along] in K; eapply RW; eauto. }
  assert (LR : (2 <= List.length rows)%nat) by (pose proof (dates_count _ _ c4); lia).
  assert (LAST : nth_error rows (List.length rows - 1) = Some (Some xl)).
  { rewrite <- c10. assert (NR : rows <> []) by (intros ->; cbn in LR; lia). clear - NR. destruct rows as [|r0 rows0]; [congruence|].
    cbn [List.length]. rewrite Nat.sub_1_r. cbn [pred]. apply last_nth. }
  assert (AH : forall i k x, nth_error rows k = Some (Some x) -> holds (series_of d z m f se hs t i) w (z + Z.of_nat k) (VDate x)).
  { intros i k x K. apply (along_holds time se _ w t); auto. }
  assert (BH : forall i k, nth_error rows k = Some None -> blank_at (series_of d z m f se hs t i) w (z + Z.of_nat k)).
  { intros i k K. eexists. split; [apply (along_holds time se _ w t); auto|]. destruct (AB k K) as [E|(u & E & W)]; rewrite E; [constructor|apply nt_white; auto]. }
  apply (table_general e d cells time z m f se names ds data RQ FREQ w w hs t a); auto; try lia.
  - eauto.
  - rewrite Forall_forall in *. auto.
  - intros x X. assert (x = x0) by congruence. subst x. split.
    + replace z with (z + Z.of_nat 0) by lia. apply AD. destruct rows; auto.
    + rewrite (dates_last _ _ c4 xl c10). replace m with (z + Z.of_nat (List.length rows - 1)) by lia. apply AD. auto.
  - clear - c4 c16. induction c16 as [|rc vs cs dt (l & _ & B) _ IH]; constructor; auto. eapply beside_len; eauto.
  - intros i h rc name vs HI CI HN N1 N2. destruct (Forall2_nth_error2 _ _ _ c16 _ _ _ CI N2) as (l & G & B).
    destruct (beside_len _ _ _ _ _ _ B c4) as [LL LV].
    assert (HC : sp_hc (series_of d z m f se hs t i) = h) by (unfold series_of; cbn [sp_hc]; apply nth_error_nth; auto).
    assert (HW : cell_named (sp_hc (with_ends (series_of d z m f se hs t i) m)) (fst rc) (snd rc)) by (cbn [with_ends sp_hc]; rewrite HC; auto).
    apply c32_accepts.
    + unfold single_frequency. cbn [with_ends sp_freq series_of]. destruct FREQ as [<-|[<-|[<-|[<-|[<-|[]]]]]]; reflexivity.
    + intros MS. exists (se_markers se). split; auto.
    + destruct rc as [r c]. apply (series_named e d cells z m f se names w hs t i r c h); auto.
    + eapply own_in_sheet; eauto.
    + intros _. apply (time_in_sheet d time z m f se); auto.
    + destruct (se_continuity se) eqn:CO.
      * destruct TB as [TB|TB]; [discriminate|].
        destruct (spaced_continuous (with_ends (series_of d z m f se hs t i) m) w (fst rc) (snd rc) (se_markers se) HW eq_refl TB rows l vs B z m c1 G) as [C1 C2].
        apply (vr_continuous _ _ l); auto. exists m. auto.
      * destruct (spaced_loose (with_ends (series_of d z m f se hs t i) m) w (fst rc) (snd rc) (se_markers se) HW eq_refl eq_refl rows l vs B z m c1 G) as (pairs & C1 & C2).
        { intros k x K. apply (along_holds time se _ w t); auto. }
        { intros k K. eexists. split; [apply (along_holds time se _ w t); auto|]. destruct (AB k K) as [E|(u & E & W)]; rewrite E; [constructor|apply nt_white; auto]. }
        apply (vr_loose _ _ m pairs); auto.
    + intros ->. cbn in LV. lia.
  - apply (rows_cleaned e w _ (se_align se) f t (fst time) (snd time) z m rows); auto.
    + apply series_plain.
    + lia.
    + intros i j x y L X Y. apply (consecutive_later f ds c6 REAL (rank rows j) (rank rows i)); try (apply rank_date; auto).
      apply (rank_less rows i j x); auto. apply Nat.lt_le_incl. apply nth_error_Some. congruence.
    + destruct (se_missings se) eqn:MS; [left; split; auto; discriminate|right]. split; [exact MS|].
      intros i j x y L X Y N. apply (consecutive_next f ds c6 (rank rows i)); [apply rank_date; auto|].
      rewrite <- (rank_next rows i j x); auto; [apply rank_date; auto|]. apply Nat.lt_le_incl. apply nth_error_Some. congruence.
    + intros k x K. apply (rank_date _ _ c4) in K. apply (EndAttempt.Forall_nth_error _ _ c12) in K. cbn beta in K. lia.
    + eauto.
    + apply (stops_ends d cells time z m f se RQ); auto.
Qed.
End Spaced.

(** ** The same tables on an equal sheet *)
Section Same.
Variables w w' : worksheet.
Hypothesis SAME : same_sheet w w'.
Lemma gap_same d cells time z m f se xs ds data : gap_table d w cells time z m f se xs ds data -> gap_table d w' cells time z m f se xs ds data.
Proof.
  intros [c1 c2 c3 c4 c5 c6 c7 c8 c9 c10 c11 c12]. constructor; auto.
  - intros k x K. rewrite <- (along_same _ _ SAME). auto.
  - apply (stops_same _ _ SAME). auto.
  - eapply F2_imp; [|exact c12]. intros rc full (vs & S & V). exists vs. split; auto. intros k x K. rewrite <- (along_same _ _ SAME). auto.
Qed.
Lemma spaced_same d cells time z m f se rows ds data : spaced_table d w cells time z m f se rows ds data -> spaced_table d w' cells time z m f se rows ds data.
Proof.
  intros [c1 c2 c3 c4 c5 c6 c7 c8 c9 c10 c11 c12 c13 c14 c15]. constructor; auto.
  - intros k r K. cbv zeta. rewrite <- (along_same _ _ SAME). apply c4. auto.
  - apply (stops_same _ _ SAME). auto.
  - eapply F2_imp; [|exact c15]. intros rc vs (l & V & B). exists l. split; auto. intros k x K. rewrite <- (along_same _ _ SAME). auto.
Qed.
End Same.

(** ** The calls *)
Lemma names_counted e d w cells names : table_names e d w cells names ->
  ~ given (pname "series_names") d \/ exists ns, dget (pname "series_names") d = Some (VList (map VStr ns)) /\ List.length ns = List.length cells.
Proof. intros [G L _|G _]; eauto. Qed.

Lemma c61 e uni json st wb q preserve name i d cells time z m f se names xs ds data :
  wb_ok st wb -> resolves uni strip (names_of st wb) q name -> first_such (fun i => title (sheet st i) = name) wb i ->
  bounded (sheet st i) -> real_dates (sheet st i) ->
  request d cells time z m f se -> periodic f ->
  gap_table d (sheet st i) cells time z m f se xs ds data -> table_names e d (sheet st i) cells names ->
  exists n cols pid, pandas_name f n /\ column_names names cols /\
    snd (get_data_frames e uni json st wb (UInput (PDict d)) q false preserve) = Ok (DF (mkdf (mkpr (T n) ds) cols data), name, pid).
Proof.
  intros WB RES FS BO RD RQ FREQ CT TN.
  set (P := fun fr => exists n cols, pandas_name f n /\ column_names names cols /\ fr = mkdf (mkpr (T n) ds) cols data).
  destruct (call_first P e uni json st wb q preserve name i d cells time z m f se WB RES FS BO RQ FREQ (gt_after _ _ _ _ _ _ _ _ _ _ _ CT) (names_counted _ _ _ _ _ TN))
    as (fr & pid & (n & cols & P1 & P2 & ->) & E).
  { intros w hs t a SM NC TH F. assert (T1 := real_same _ _ SM RD). assert (T2 := gap_same _ _ SM _ _ _ _ _ _ _ _ _ _ CT). assert (T3 := names_same _ _ SM _ _ _ _ TN).
    destruct (gap_alone e d cells time z m f se names xs ds data RQ FREQ w hs t a NC TH F T1 T2 T3) as (n & cols & P1 & P2 & P3).
    eexists. split; [exact P3|]. exists n, cols. auto. }
  exists n, cols, pid. auto.
Qed.
Lemma c62 e uni json st wb q preserve name i d cells time z m f se names rows ds data :
  wb_ok st wb -> resolves uni strip (names_of st wb) q name -> first_such (fun i => title (sheet st i) = name) wb i ->
  bounded (sheet st i) -> real_dates (sheet st i) ->
  request d cells time z m f se -> periodic f -> (se_missings se = true -> ~ In (VStr (pname "Implicit")) (se_markers se)) ->
  spaced_table d (sheet st i) cells time z m f se rows ds data -> table_names e d (sheet st i) cells names ->
  exists n cols pid, pandas_name f n /\ column_names names cols /\
    snd (get_data_frames e uni json st wb (UInput (PDict d)) q false preserve) = Ok (DF (mkdf (mkpr (T n) ds) cols data), name, pid).
Proof.
  intros WB RES FS BO RD RQ FREQ NI CT TN.
  set (P := fun fr => exists n cols, pandas_name f n /\ column_names names cols /\ fr = mkdf (mkpr (T n) ds) cols data).
  destruct (call_first P e uni json st wb q preserve name i d cells time z m f se WB RES FS BO RQ FREQ (st_after _ _ _ _ _ _ _ _ _ _ _ CT) (names_counted _ _ _ _ _ TN))
    as (fr & pid & (n & cols & P1 & P2 & ->) & E).
  { intros w hs t a SM NC TH F. assert (T1 := real_same _ _ SM RD). assert (T2 := spaced_same _ _ SM _ _ _ _ _ _ _ _ _ _ CT). assert (T3 := names_same _ _ SM _ _ _ _ TN).
    destruct (spaced_alone e d cells time z m f se names rows ds data RQ FREQ NI w hs t a NC TH F T1 T2 T3) as (n & cols & P1 & P2 & P3).
    eexists. split; [exact P3|]. exists n, cols. auto. }
  exists n, cols, pid. auto.
Qed.
