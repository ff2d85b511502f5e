(** Proofs of C72 and C73: a whole call on a sheet with several tables. *)
From Coq Require Import Sorted ZifyBool ZifyNat.
From Verif Require Import Base BaseFacts Cal Coord CoordFacts XlMethods Params ParseTime TimeIndex GetData PeriodRange Attempts DataFrame Scrape Xlseries
  SpecCal CalFacts CalProofs SpecCoord SpecCoordFacts SpecParams BuildFacts BuildInv ParamsFacts ParamsProofs
  TimeFacts SpecTime SpecData DataFacts SpecFrames SpecScrape ScrapeFacts TextProofs FrameProofs FrameProofs2 DataProofs ScrapeProofs2 TimeProofs TimeProofs2
  SpecEnd RangeExact TimeEnd EndFacts EndProofs EndAttempt EndCall SpecGaps GapFacts GapCall SpecTables TablesProofs TablesFrames TurnProofs3.
Local Open Scope Z_scope.

(** ** The values of one table *)
Section Rows.
Variables (p : sp) (w : worksheet) (r c : Z) (mk : list pyval).
Hypothesis header : cell_named (sp_hc p) r c.
Hypothesis the_markers : sp_mv p = VList mk.
Let v_at q := along (sp_al p) w (line_of (sp_al p) (r, c)) q.
Lemma rows_continuous : forall rows l vs, beside true (stands_for (sp_missings p) mk) rows l vs -> (In None rows -> sp_blank p = true) ->
  forall a en, en = a + Z.of_nat (List.length rows) - 1 -> (forall k v, nth_error l k = Some v -> v_at (a + Z.of_nat k) = v) ->
  cells_from p w en a l /\ continuous_values p l vs.
Proof.
  intros rows l vs B. induction B as [|x v y rows l vs S B IH|v rows l vs N B IH]; intros BL a en E G.
  - split; constructor. cbn in E. lia.
  - cbn [List.length] in E. destruct (IH ltac:(intros; apply BL; right; auto) (a + 1) en) as [C1 C2]; [lia| |].
    { intros k u K. replace (a + 1 + Z.of_nat k) with (a + Z.of_nat (Datatypes.S k)) by lia. apply G. auto. }
    split; [|apply (stands_continuous p mk the_markers); auto]. constructor; auto; [lia|]. rewrite <- (G 0%nat v eq_refl). replace (a + Z.of_nat 0) with a by lia. apply own_at. auto.
  - cbn [List.length] in E. destruct (IH ltac:(intros; apply BL; right; auto) (a + 1) en) as [C1 C2]; [lia| |].
    { intros k u K. replace (a + 1 + Z.of_nat k) with (a + Z.of_nat (Datatypes.S k)) by lia. apply G. auto. }
    split; [|rewrite N by auto; apply cv_blank; auto; apply BL; left; auto]. constructor; auto; [lia|]. rewrite <- (G 0%nat v eq_refl). replace (a + Z.of_nat 0) with a by lia. apply own_at. auto.
Qed.
Lemma rows_loose : forall rows l vs, beside false (stands_for (sp_missings p) mk) rows l vs ->
  forall a en, en = a + Z.of_nat (List.length rows) - 1 -> (forall k v, nth_error l k = Some v -> v_at (a + Z.of_nat k) = v) ->
  (forall k x, nth_error rows k = Some (Some x) -> holds p w (a + sp_ta p + Z.of_nat k) (VDate x)) ->
  (forall k, nth_error rows k = Some None -> blank_at p w (a + sp_ta p + Z.of_nat k)) ->
  exists pairs, dated_cells_from p w en a pairs /\ loose_values p pairs vs.
Proof.
  intros rows l vs B. induction B as [|x v y rows l vs S B IH|v rows l vs N B IH]; intros a en E G D1 D2.
  - exists []. split; constructor. cbn in E. lia.
  - cbn [List.length] in E. destruct (IH (a + 1) en) as (pairs & C1 & C2); [lia| | | |].
    { intros k u K. replace (a + 1 + Z.of_nat k) with (a + Z.of_nat (Datatypes.S k)) by lia. apply G. auto. }
    { intros k u K. replace (a + 1 + sp_ta p + Z.of_nat k) with (a + sp_ta p + Z.of_nat (Datatypes.S k)) by lia. apply D1. auto. }
    { intros k K. replace (a + 1 + sp_ta p + Z.of_nat k) with (a + sp_ta p + Z.of_nat (Datatypes.S k)) by lia. apply D2. auto. }
    exists ((v, VDate x) :: pairs). split.
    + constructor; auto; [lia| |].
      * rewrite <- (G 0%nat v eq_refl). replace (a + Z.of_nat 0) with a by lia. apply own_at. auto.
      * replace (a + sp_ta p) with (a + sp_ta p + Z.of_nat 0) by lia. apply D1. auto.
    + apply lv_taken; auto; [exists x; auto|]. apply (stands_worth p mk the_markers). auto.
  - cbn [List.length] in E. destruct (IH (a + 1) en) as (pairs & C1 & C2); [lia| | | |].
    { intros k u K. replace (a + 1 + Z.of_nat k) with (a + Z.of_nat (Datatypes.S k)) by lia. apply G. auto. }
    { intros k u K. replace (a + 1 + sp_ta p + Z.of_nat k) with (a + sp_ta p + Z.of_nat (Datatypes.S k)) by lia. apply D1. auto. }
    { intros k K. replace (a + 1 + sp_ta p + Z.of_nat k) with (a + sp_ta p + Z.of_nat (Datatypes.S k)) by lia. apply D2. auto. }
    destruct (D2 0%nat eq_refl) as (t & HT & NT). replace (a + sp_ta p + Z.of_nat 0) with (a + sp_ta p) in HT by lia. exists ((v, t) :: pairs). split.
    + constructor; auto; [lia|]. rewrite <- (G 0%nat v eq_refl). replace (a + Z.of_nat 0) with a by lia. apply own_at. auto.
    + apply lv_left; auto. left. intros [x ->]. inversion NT.
Qed.
End Rows.

Lemma holds_ends s w q v z : holds s w q v -> holds (with_ends s z) w q v.
Proof.
  intros (r & c & I & V). exists r, c. split; auto. destruct I as [t r c A H1 N|t r c A H1 N]; [apply (ic_column _ _ t r c)|apply (ic_row _ _ t r c)]; auto; (destruct H1 as [t H1|t ts H1]; [apply ih_one; exact H1|apply (ih_first _ t ts); exact H1]).
Qed.
Lemma blank_ends s w q z : blank_at s w q -> blank_at (with_ends s z) w q.
Proof. intros (v & H & B). exists v. split; [apply holds_ends; exact H|destruct B; constructor; auto]. Qed.

Section One.
Variables (e : env) (w : worksheet) (s : sp) (tb : table).
Hypothesis IT : in_table e w s tb.
Local Notation en := (end_of s tb).
Local Notation ds := (tb_dates tb).

Lemma the_header : exists t r c, sp_th s = ThStr t /\ cell_named t r c /\ sp_multi s = false.
Proof. destruct (it_index _ _ _ _ IT) as (m & O & _). destruct (or_line _ _ _ _ O) as (OL & t & r & c & TH & CN). exists t, r, c. auto. Qed.
Lemma hd_dates rows l : the_dates rows l -> forall x, hd_error rows = Some (Some x) -> hd_error l = Some x.
Proof. intros [|x r d H|r d H] y E; cbn in *; try discriminate; congruence. Qed.
Lemma last_row {A} (l : list (option A)) y : List.last l None = Some y -> nth_error l (List.length l - 1) = Some (Some y).
Proof.
  intros H. destruct l as [|a l]; [discriminate|]. cbn [List.length]. rewrite Nat.sub_1_r. cbn [pred]. rewrite (last_nth l a None). rewrite H. auto.
Qed.
Lemma first_last x : hd_error ds = Some x -> holds s w (sp_starts s + sp_ta s) (VDate x) /\ holds s w (en + sp_ta s) (VDate (List.last ds x)).
Proof.
  intros HX. destruct (it_inside _ _ _ _ IT) as (IN & _).
  destruct (it_values _ _ _ _ IT) as [rows l ms vs EN MV NI TD (a & b & HA & LB) D1 D2 BL DW BE|xs l ms ys vs EN MV MS IM TA D1 HD DW ST SP].
  - pose proof (hd_dates _ _ TD _ HA) as HA'. rewrite HX in HA'. inversion HA'; subst a. split.
    + replace (sp_starts s + sp_ta s) with (sp_starts s + sp_ta s + Z.of_nat 0) by lia. apply D1. destruct rows; auto.
    + rewrite (dates_last _ _ TD b LB x). pose proof (D1 _ _ (last_row rows b LB)) as D. replace (en + sp_ta s) with (sp_starts s + sp_ta s + Z.of_nat (List.length rows - 1)) by lia. auto.
  - rewrite TA, !Z.add_0_r. destruct (spread_facts _ _ _ _ SP) as (L1 & L2 & NX & LAST & _). split.
    + replace (sp_starts s) with (sp_starts s + Z.of_nat 0) by lia. apply D1. rewrite HX in HD. destruct xs; auto.
    + rewrite LAST. replace en with (sp_starts s + Z.of_nat (List.length xs - 1)) by lia. apply D1. apply last_whole. congruence.
Qed.
Lemma values_length : List.length (tb_values tb) = List.length ds.
Proof.
  destruct (it_values _ _ _ _ IT) as [rows l ms vs EN MV NI TD _ D1 D2 BL DW BE|xs l ms ys vs EN MV MS IM TA D1 HD DW ST SP].
  - eapply beside_len; eauto.
  - apply spread_facts in SP. tauto.
Qed.
Lemma dates_some : exists x, hd_error ds = Some x.
Proof. destruct (it_start _ _ _ _ IT) as (x & H & _). eauto. Qed.

Lemma prs_one w' line t : same_values w w' -> sp_th s = ThStr t -> coord_line (sp_al s) t = Ok line ->
  exists pn, pandas_name (tb_freq tb) pn /\ series_prs e w' (sp_freq s) (sp_starts s) line en (sp_ta s) (sp_al s) = Ok [dates_of pn tb].
Proof.
  intros S TH LN. destruct (it_start _ _ _ _ IT) as (a & H0 & P0). destruct (it_frequency _ _ _ _ IT) as [PF FQ].
  assert (real : Forall real_date ds) by (eapply Forall_impl; [|exact (it_years _ _ _ _ IT)]; cbn; tauto).
  destruct (range_whole _ _ a PF (it_consecutive _ _ _ _ IT) real H0 P0) as (pn & PN & DR). exists pn. split; [exact PN|].
  assert (WL : write_line (sp_al s) (sp_th s) = Ok line) by (rewrite TH; exact LN).
  destruct (it_inside _ _ _ _ IT) as (IN1 & IN2 & IN3).
  assert (RD : forall q, sp_starts s + sp_ta s <= q <= en + sp_ta s -> axis_read (sp_al s) w' line q = Ok (axis_val (sp_al s) w' line q)).
  { intros q Q. destruct (read_in_sheet (sp_al s) t w' line q LN) as [v RV].
    - split; [lia|]. intros A. destruct (IN3 A). lia.
    - rewrite RV. f_equal. symmetry. eapply axis_read_val; eauto. }
  assert (AT : forall q d, holds s w q (VDate d) -> axis_val (sp_al s) w' line q = VDate d).
  { intros q d HO. apply (holds_iff _ _ _ _ _ WL) in HO. rewrite <- HO. unfold axis_val. apply S. }
  assert (TB : forall d, In d ds -> ts_in_bounds d = true).
  { intros d D. pose proof (it_years _ _ _ _ IT) as Y. rewrite Forall_forall in Y. specialize (Y d D). cbn beta in Y. unfold ts_in_bounds. apply andb_true_iff. split; apply leb_spec; right; unfold earlier; cbn [dt_y dt_m dt_d dt_s]; lia. }
  unfold series_prs. rewrite FQ.
  assert (FA : accepts_freq true (T (tb_freq tb)) = false /\ accepts_freq false (T (tb_freq tb)) = true).
  { destruct PF as [<-|[<-|[<-|[<-|[<-|[]]]]]]; split; reflexivity. }
  destruct FA as [-> ->]. unfold single_prs. rewrite !RD by lia. cbn [bind].
  destruct (first_last a H0) as [F1 F2]. rewrite (AT _ _ F1), (AT _ _ F2).
  unfold range_of. cbn [to_timestamp]. rewrite TB by (apply (nth_error_In ds 0); destruct ds; auto). cbn [bind].
  rewrite TB by (eapply nth_error_In; apply (last_whole ds a H0)). cbn [bind]. rewrite DR. reflexivity.
Qed.

Lemma one_in_sheet : series_in_sheet (with_ends s en).
Proof.
  destruct (it_index _ _ _ _ IT) as (m & O & _). destruct (or_inside _ _ _ _ O) as [I1 _]. destruct (it_inside _ _ _ _ IT) as (_ & _ & IN3). split.
  - destruct (it_values _ _ _ _ IT) as [rows l ms vs EN MV NI TD _ D1 D2 BL (r & c & DW & _) BE|xs l ms ys vs EN MV MS IM TA D1 HD (r & c & DW & _) ST SP]; exists r, c; auto.
  - cbn [with_ends sp_ends sp_starts sp_al]. intros z q E Q. inversion E; subst z. split; [lia|]. intros A. destruct (IN3 A). lia.
Qed.
Lemma one_index_in : index_in_sheet (with_ends s en).
Proof.
  destruct (it_inside _ _ _ _ IT) as (_ & IN2 & IN3). destruct the_header as (t & r & c & TH & CN & SM). split.
  - exists t, r, c. split; auto.
  - cbn [with_ends sp_ends sp_starts sp_al sp_ta]. intros z q E Q. inversion E; subst z. split; [lia|]. intros A. destruct (IN3 A). lia.
Qed.
Lemma one_read w' : same_values w w' -> get_data e w' (with_ends s en) = Ok [(tb_name tb, tb_values tb)].
Proof.
  intros S. destruct (it_frequency _ _ _ _ IT) as [PF FQ]. pose proof (name_ends e w s en _ (it_name _ _ _ _ IT)) as NM.
  assert (SF : single_frequency (with_ends s en)).
  { unfold single_frequency. cbn [with_ends sp_freq]. rewrite FQ. destruct PF as [<-|[<-|[<-|[<-|[<-|[]]]]]]; reflexivity. }
  rewrite <- (c53_same_values e w w' (with_ends s en)); [| |apply stored_same; auto].
  2:{ intros _. destruct (it_values _ _ _ _ IT); eauto. }
  pose proof values_length as LV. destruct dates_some as (x0 & HX).
  destruct (it_values _ _ _ _ IT) as [rows l ms vs EN MV NI TD _ D1 D2 BL (r & c & HC & DW) BE|xs l ms ys vs EN MV MS IM TA D1 HD (r & c & HC & DW) ST SP].
  - apply c32_accepts; auto using one_in_sheet, one_index_in.
    + intros MS. exists ms. split; auto.
    + destruct (sp_cont s) eqn:CO.
      * destruct (rows_continuous (with_ends s en) w r c ms HC MV rows l vs BE (BL eq_refl) (sp_starts s) en EN DW) as [C1 C2].
        apply (vr_continuous _ _ l); auto. exists en. auto.
      * destruct (rows_loose (with_ends s en) w r c ms HC MV rows l vs BE (sp_starts s) en EN DW (fun k x K => holds_ends _ _ _ _ en (D1 k x K)) (fun k K => blank_ends _ _ _ en (D2 k K))) as (pairs & C1 & C2).
        apply (vr_loose _ _ en pairs); auto.
    + intros E. rewrite E in LV. destruct ds; discriminate.
  - destruct the_header as (t & rt & ct & TH & CN & SM). destruct (spread_facts _ _ _ _ SP) as (L1 & L2 & NX & LAST & _).
    assert (LL : List.length l = List.length ys) by (clear - ST; induction ST; cbn; auto).
    apply (implicit_read e w (with_ends s en) (tb_freq tb) ms ys xs (tb_dates tb) vs (tb_name tb) t rt ct en); auto using one_in_sheet, one_index_in.
    + assert (BE : forall b, beside b (stands_for (sp_missings s) ms) (map Some xs) l ys).
      { intros b. rewrite MS. clear - ST L2 LL. revert xs L2. induction ST as [|v y l ys S ST IH]; intros [|x xs] L; try discriminate; cbn [map]; constructor; auto. }
      assert (EN' : en = sp_starts s + Z.of_nat (List.length (map Some xs)) - 1) by (rewrite map_length; auto).
      destruct (sp_cont s) eqn:CO.
      * destruct (rows_continuous (with_ends s en) w r c ms HC MV _ l ys (BE true)) with (a := sp_starts s) (en := en) as [C1 C2]; auto.
        { intros N. apply in_map_iff in N as (x & N & _). discriminate. }
        apply (vr_continuous _ _ l); auto. exists en. auto.
      * destruct (rows_loose (with_ends s en) w r c ms HC MV _ l ys (BE false) (sp_starts s) en EN' DW) as (pairs & C1 & C2).
        { intros k x K. rewrite nth_error_map in K. destruct (nth_error xs k) as [y|] eqn:E; inversion K; subst y. cbn [with_ends sp_ta]. rewrite TA, Z.add_0_r. apply holds_ends, D1. auto. }
        { intros k K. rewrite nth_error_map in K. destruct (nth_error xs k); discriminate. }
        apply (vr_loose _ _ en pairs); auto.
    + exact (it_consecutive _ _ _ _ IT).
    + exact (it_years _ _ _ _ IT).
    + intros k x K. apply holds_ends. apply D1. exact K.
Qed.
Lemma one_combo : find (fun k => dcombo_accepts k (with_ends s en)) dcombos <> None.
Proof.
  destruct (it_frequency _ _ _ _ IT) as [PF FQ]. unfold dcombo_accepts, dcombos. cbn [find dk_multifreq dk_cont with_ends sp_freq sp_cont]. rewrite FQ.
  destruct PF as [<-|[<-|[<-|[<-|[<-|[]]]]]]; destruct (sp_cont s); discriminate.
Qed.
End One.

(** ** All the tables *)
Definition pn_of (tb : table) : string :=
  if String.eqb (tb_freq tb) "D" then "D" else if String.eqb (tb_freq tb) "W" then "W-SUN" else if String.eqb (tb_freq tb) "M" then "MS" else
  if String.eqb (tb_freq tb) "Q" then "QS-JAN" else "AS-JAN".
Lemma pn_of_name tb : periodic (tb_freq tb) -> pandas_name (tb_freq tb) (pn_of tb).
Proof. unfold pn_of. intros [<-|[<-|[<-|[<-|[<-|[]]]]]]; cbn; constructor. Qed.
Lemma pn_of_only tb pn : pandas_name (tb_freq tb) pn -> periodic (tb_freq tb) -> pn = pn_of tb.
Proof. unfold pn_of. intros P F. inversion P as [E|E|E|E|E|E]; try reflexivity. rewrite <- E in F. destruct F as [X|[X|[X|[X|[X|[]]]]]]; discriminate. Qed.
Lemma pn_of_inj a b : periodic (tb_freq a) -> periodic (tb_freq b) -> pn_of a = pn_of b -> tb_freq a = tb_freq b.
Proof.
  unfold pn_of. intros [<-|[<-|[<-|[<-|[<-|[]]]]]] [<-|[<-|[<-|[<-|[<-|[]]]]]]; cbn; intros H; try reflexivity; discriminate.
Qed.
Lemma hash_dates pn (ds : list datetime) a : hd_error ds = Some a -> hash_of (mkpr (T pn) ds) = (T pn, a, List.last ds a).
Proof.
  intros H. unfold hash_of, pr_hash, pr_first, pr_last. cbn [pr_dates pr_freq]. destruct ds as [|b l] using rev_ind; [discriminate|].
  rewrite rev_app_distr, last_last. cbn [rev app hd_error]. rewrite H. reflexivity.
Qed.
Lemma tables_exact e w s s' a b : in_table e w s a -> in_table e w s' b -> hash_of (fst (piece_of pn_of a)) = hash_of (fst (piece_of pn_of b)) ->
  fst (piece_of pn_of a) = fst (piece_of pn_of b).
Proof.
  intros A B H. unfold piece_of, dates_of in *. cbn [fst] in *.
  destruct (it_start _ _ _ _ A) as (x & X1 & X2). destruct (it_start _ _ _ _ B) as (y & Y1 & Y2). destruct (it_frequency _ _ _ _ A) as [FA _]. destruct (it_frequency _ _ _ _ B) as [FB _].
  rewrite (hash_dates _ _ x), (hash_dates _ _ y) in H by auto. inversion H as [[HN HF HL]]. apply T_inj in HN. subst y. pose proof (pn_of_inj a b FA FB HN) as EF.
  assert (RA : Forall real_date (tb_dates a)) by (eapply Forall_impl; [|exact (it_years _ _ _ _ A)]; cbn; tauto).
  assert (RB : Forall real_date (tb_dates b)) by (eapply Forall_impl; [|exact (it_years _ _ _ _ B)]; cbn; tauto).
  destruct (range_whole _ _ x FA (it_consecutive _ _ _ _ A) RA X1 X2) as (pa & _ & DA).
  destruct (range_whole _ _ x FB (it_consecutive _ _ _ _ B) RB Y1 Y2) as (pb & _ & DB).
  rewrite EF, HL, DB in DA. inversion DA. rewrite HN. congruence.
Qed.

Section All.
Variables (e : env) (w : worksheet) (p : dict) (ss : list sp) (tbs : list table).
Hypothesis real : real_dates w.
Hypothesis FS : for_series p ss.
Hypothesis IT : Forall2 (in_table e w) ss tbs.
Hypothesis ET : end_together ss tbs.

Lemma same_number : List.length tbs = List.length ss.
Proof. clear - IT. induction IT; cbn; auto. Qed.
Lemma each i : (i < List.length ss)%nat -> exists s tb, nth_error ss i = Some s /\ nth_error tbs i = Some tb /\ in_table e w s tb.
Proof.
  intros I. destruct (nth_error ss i) as [s|] eqn:E1; [|apply nth_error_None in E1; lia]. destruct (nth_error tbs i) as [tb|] eqn:E2; [|apply nth_error_None in E2; pose proof same_number; lia].
  exists s, tb. split; auto. split; auto. eapply Forall2_nth_error2; eauto.
Qed.
Lemma tables_alone w' : same_sheet w w' -> exists frs, alone e w' p = Ok frs /\ collected tbs frs.
Proof.
  intros (_ & SR & SCo & SV).
  assert (SC0 : same_cells w w') by (split; [auto|lia]).
  destruct FS as (NE & LISTS & SER). set (n := List.length ss) in *. assert (N : (0 < n)%nat) by (unfold n; destruct ss; [congruence|cbn; lia]).
  destruct (each 0 N) as (s0 & tb0 & _).
  set (ser := fun i => nth i ss s0). set (tbl := fun i => nth i tbs tb0). set (th := fun i => match sp_th (ser i) with ThStr t => t | _ => [] end).
  set (en := fun i => end_of (ser i) (tbl i)). set (reach := fun i => tb_reach (tbl i)).
  assert (EACH : forall i, (i < n)%nat -> nth_error ss i = Some (ser i) /\ nth_error tbs i = Some (tbl i) /\ in_table e w (ser i) (tbl i)).
  { intros i I. destruct (each i I) as (s & tb & N1 & N2 & T). unfold ser, tbl. rewrite (nth_error_nth _ _ s0 N1), (nth_error_nth _ _ tb0 N2). auto. }
  assert (TH : forall i, (i < n)%nat -> sp_th (ser i) = ThStr (th i)).
  { intros i I. destruct (EACH i I) as (_ & _ & T). destruct (the_header _ _ _ _ T) as (t & r & c & E & _). unfold th. rewrite E. reflexivity. }
  destruct (data_cleaned e w' p n ser th en reach) as (w1 & p1 & CD & SC1 & EK); auto.
  { intros i I. apply SER. apply EACH. auto. }
  { intros i I. destruct (EACH i I) as (_ & _ & T). destruct (the_header _ _ _ _ T) as (t & r & c & _ & _ & E). auto. }
  { intros i w2 I S. destruct (EACH i I) as (_ & _ & T). destruct (it_index _ _ _ _ T) as (m & O & R). destruct (it_frequency _ _ _ _ T) as [PF FQ].
    destruct (orderly_cleaned e (ser i) w w2 (tb_freq (tbl i)) m real FQ PF O) as (w3 & C & (S1 & S2 & S3)).
    { eapply same_cells_trans; eauto. }
    exists w3. unfold reach. rewrite R. split; auto. split; [intros; rewrite <- S1, SV; auto|]. split; [|]. all: lia. }
  { intros i I. destruct (EACH i I) as (_ & _ & T). destruct (it_index _ _ _ _ T) as (m & O & R). destruct (or_inside _ _ _ _ O) as [I1 _]. destruct (or_some _ _ _ _ O) as [_ S]. destruct (it_inside _ _ _ _ T) as (I2 & _).
    unfold en, reach. lia. }
  { intros i I. destruct (EACH i I) as (N1 & N2 & T). unfold en, end_of. destruct (sp_ends (ser i)) as [z|] eqn:E; [left; auto|right]. split; auto. intros j J SH.
    destruct (EACH j J) as (M1 & M2 & T'). unfold reach. eapply (ET j i); eauto. rewrite TH, TH by auto. congruence. }
  assert (S1 : same_values w w1) by (apply same_cells_values; eapply same_cells_trans; eauto).
  set (ser1 := fun i => with_ends (ser i) (en i)). set (line := fun i => match coord_line (sp_al (ser i)) (th i) with Ok l => l | _ => 0 end).
  assert (LN : forall i, (i < n)%nat -> coord_line (sp_al (ser i)) (th i) = Ok (line i)).
  { intros i I. destruct (EACH i I) as (_ & _ & T). destruct (the_header _ _ _ _ T) as (t & r & c & E & CN & _). rewrite TH in E by auto. inversion E; subst t.
    destruct (line_named (sp_al (ser i)) _ _ _ CN) as [l L]. unfold line. rewrite L. auto. }
  set (pieces := map (piece_of pn_of) tbs).
  assert (PL : List.length pieces = n) by (unfold pieces; rewrite map_length; apply same_number).
  assert (PI : forall i pc, nth_error pieces i = Some pc -> (i < n)%nat /\ pc = piece_of pn_of (tbl i)).
  { intros i pc H. assert (I : (i < n)%nat) by (rewrite <- PL; apply nth_error_Some; congruence). split; auto. unfold pieces in H. rewrite nth_error_map in H.
    destruct (EACH i I) as (_ & E & _). rewrite E in H. cbn in H. congruence. }
  assert (PM : forall pc, In pc pieces -> exists i, (i < n)%nat /\ pc = piece_of pn_of (tbl i)).
  { intros pc I. apply In_nth_error in I as [i I]. exists i. apply PI. auto. }
  destruct (all_read e w1 p1 pieces ser1 line en) as (w2 & G); rewrite ?PL; auto.
  - apply EK.
  - intros i I. eapply fields_known; eauto. apply SER. apply EACH. auto.
  - intros i I. exists (th i). split; [apply (TH i I)|apply (LN i I)].
  - intros i I. destruct (EACH i I) as (_ & _ & T). destruct (it_inside _ _ _ _ T) as (I2 & _). split; [reflexivity|]. split; [exact I2|].
    destruct (the_header _ _ _ _ T) as (t & r & c & _ & _ & E). exact E.
  - intros i I. destruct (EACH i I) as (_ & _ & T). apply (one_combo _ _ _ _ T).
  - intros i pc w3 H S. destruct (PI i pc H) as [I ->]. destruct (EACH i I) as (_ & _ & T).
    destruct (prs_one _ _ _ _ T w3 (line i) (th i)) as (pn & PN & E); auto; [eapply same_values_trans; eauto|].
    destruct (it_frequency _ _ _ _ T) as [PF _]. rewrite (pn_of_only _ _ PN PF) in E. exact E.
  - intros i pc w3 H S. destruct (PI i pc H) as [I ->]. destruct (EACH i I) as (_ & _ & T). apply (one_read _ _ _ _ T). eapply same_values_trans; eauto.
  - intros pc H. destruct (PM pc H) as (i & I & ->). destruct (EACH i I) as (_ & _ & T). destruct (dates_some _ _ _ _ T) as (x & X). apply (hash_known _ _ x). auto.
  - intros pc H. destruct (PM pc H) as (i & I & ->). destruct (EACH i I) as (_ & _ & T). apply (values_length _ _ _ _ T).
  - intros a b A B. destruct (PM a A) as (i & I & ->). destruct (PM b B) as (j & J & ->). destruct (EACH i I) as (_ & _ & T). destruct (EACH j J) as (_ & _ & T'). eapply tables_exact; eauto.
  - rewrite alone_full. unfold attempt_full. rewrite CD, G. eexists. split; [reflexivity|].
    assert (MB : forall tb, In tb tbs -> exists s, in_table e w s tb).
    { intros tb I. apply In_nth_error in I as [i I]. assert (I' : (i < n)%nat) by (unfold n; rewrite <- same_number; apply nth_error_Some; congruence).
      destruct (EACH i I') as (_ & E & T). rewrite E in I. inversion I; subst. eauto. }
    apply frames_collected.
    + intros tb I. destruct (MB tb I) as (s & T). apply pn_of_name. apply (it_frequency _ _ _ _ T).
    + intros a b A B. destruct (MB a A) as (s & T). destruct (MB b B) as (s' & T'). eapply tables_exact; eauto.
Qed.
End All.

(** ** The call *)
Lemma c72 e uni json st wb u q name i p ss tbs safe preserve :
  wb_ok st wb -> in_store st u -> resolves uni strip (names_of st wb) q name -> first_such (fun i => title (sheet st i) = name) wb i -> object_of json st u p ->
  bounded (sheet st i) -> real_dates (sheet st i) -> is_complete p = Ok true ->
  for_series p ss -> Forall2 (in_table e (sheet st i)) ss tbs -> end_together ss tbs ->
  exists frs out k, collected tbs frs /\ handed frs out /\ snd (get_data_frames e uni json st wb u q safe preserve) = Ok (out, name, k).
Proof.
  intros WB IS RES FS OB BO RD CO SS IT ET.
  destruct (c23_sheet e uni json st wb u q safe preserve WB IS name p RES OB) as (j & st2 & si & pid & F1 & PF & PT & PP & S1 & S2 & ->).
  rewrite (first_such_det _ _ _ _ F1 FS) in *. rewrite scrape_complete; auto; [|rewrite PP; auto]. rewrite PP.
  destruct (tables_alone e (sheet st i) p ss tbs RD SS IT ET (sheet st2 si)) as (frs & -> & C).
  { destruct preserve; [rewrite PT by auto; apply copy_same; auto|]. destruct (PF eq_refl) as [_ ->]. repeat split; auto. }
  exists frs, (unwrap_result (DL (map DF frs))), pid. split; [exact C|]. split; [apply handed_single|]. reflexivity.
Qed.
Lemma collected_each tbs frs : collected tbs frs -> forall tb, In tb tbs -> exists d c m, In d frs /\
  pr_dates (df_index d) = tb_dates tb /\ nth_error (df_data d) c = Some (tb_values tb) /\ nth_error (df_cols d) c = Some (numbered (tb_name tb) m).
Proof.
  intros C. assert (G : (forall d, In d frs -> List.length (df_data d) = List.length (df_cols d)) /\ forall tb, In tb tbs -> exists d c m, In d frs /\
    pr_dates (df_index d) = tb_dates tb /\ nth_error (df_data d) c = Some (tb_values tb) /\ nth_error (df_cols d) c = Some (numbered (tb_name tb) m)); [|tauto].
  induction C as [|tbs frs tb pn C [L IH] PN N|tbs l l' tb pn cols data col C [L IH] PN (m & M1 & M2 & _)].
  - split; [intros d []|intros tb []].
  - split.
    + intros d I. apply in_app_iff in I as [I|[<-|[]]]; auto.
    + intros t I. apply in_app_iff in I as [I|[<-|[]]].
      * destruct (IH t I) as (d & c & m & D & X). exists d, c, m. split; auto. apply in_app_iff. auto.
      * eexists. exists 0%nat, 1. split; [apply in_app_iff; right; left; reflexivity|]. cbn. auto.
  - assert (LN : List.length data = List.length cols) by (apply (L (mkdf (dates_of pn tb) cols data)); apply in_elt).
    split.
    + intros d I. apply in_app_iff in I as [I|[<-|I]]; [apply L; apply in_app_iff; auto| |apply L; apply in_app_iff; right; right; auto]. cbn. rewrite !app_length, LN. reflexivity.
    + intros t I. apply in_app_iff in I as [I|[<-|[]]].
      * destruct (IH t I) as (d & c & k & D & X1 & X2 & X3). apply in_app_iff in D as [D|[<-|D]].
        -- exists d, c, k. split; [apply in_app_iff; auto|auto].
        -- eexists. exists c, k. split; [apply in_elt|]. cbn in *. split; auto. split; (rewrite nth_error_app1; [auto|apply nth_error_Some; congruence]).
        -- exists d, c, k. split; [apply in_app_iff; right; right; auto|auto].
      * eexists. exists (List.length data), m. split; [apply in_elt|]. cbn. split; auto. split; [rewrite nth_error_app2, Nat.sub_diag by lia; reflexivity|].
        rewrite LN. rewrite nth_error_app2, Nat.sub_diag by lia. cbn. congruence.
Qed.
Lemma c72_each e uni json st wb u q name i p ss tbs safe preserve tb :
  wb_ok st wb -> in_store st u -> resolves uni strip (names_of st wb) q name -> first_such (fun i => title (sheet st i) = name) wb i -> object_of json st u p ->
  bounded (sheet st i) -> real_dates (sheet st i) -> is_complete p = Ok true ->
  for_series p ss -> Forall2 (in_table e (sheet st i)) ss tbs -> end_together ss tbs -> In tb tbs ->
  exists frs out k d c m, snd (get_data_frames e uni json st wb u q safe preserve) = Ok (out, name, k) /\ handed frs out /\ In d frs /\
    pr_dates (df_index d) = tb_dates tb /\ nth_error (df_data d) c = Some (tb_values tb) /\ nth_error (df_cols d) c = Some (numbered (tb_name tb) m).
Proof.
  intros WB IS RES FS OB BO RD CO SS IT ET I. destruct (c72 e uni json st wb u q name i p ss tbs safe preserve WB IS RES FS OB BO RD CO SS IT ET) as (frs & out & k & C & H & E).
  destruct (collected_each _ _ C tb I) as (d & c & m & X). exists frs, out, k, d, c, m. auto.
Qed.
