(** Facts on the filling of left out periods, on indexes with blanks, and one
    attempt whatever the way the values are read (C61, C62). *)
From Coq Require Import Sorted ZifyBool ZifyNat.
From Verif Require Import Base BaseFacts Cal Coord CoordFacts XlMethods Params ParseTime TimeIndex GetData PeriodRange Attempts DataFrame Scrape
  SpecCal CalFacts CalProofs SpecCoord SpecCoordFacts SpecParams BuildFacts BuildInv ParamsFacts ParamsProofs
  TimeFacts SpecTime SpecData DataFacts SpecFrames SpecScrape ScrapeFacts TextProofs FrameProofs FrameProofs2 DataProofs ScrapeProofs2 TimeProofs TimeProofs2 SpecEnd RangeExact TimeEnd EndFacts EndProofs EndAttempt SpecGaps.
Local Open Scope Z_scope.

(** ** Filling *)
Lemma hole_more freq : forall k k' ex obs r, (k <= k')%nat -> fill_hole k freq ex obs = Ok r -> fill_hole k' freq ex obs = Ok r.
Proof.
  induction k as [|k IH]; intros k' ex obs r L H.
  - cbn [fill_hole] in H. destruct (dt_ltb ex obs) eqn:E; [discriminate|]. destruct k'; cbn [fill_hole]; rewrite E; auto.
  - destruct k' as [|k']; [lia|]. cbn [fill_hole] in *. destruct (dt_ltb ex obs); auto.
    apply bind_ok in H as (ex' & I & H). apply bind_ok in H as (r' & F & H). rewrite I. cbn [bind]. rewrite (IH k' ex' obs r' ltac:(lia) F). auto.
Qed.
Lemma spread_fill e f : periodic f -> forall ds xs vs full, spread ds xs vs full -> forall a, hd_error ds = Some a -> consecutive f ds ->
  Forall (fun x => real_date x /\ 1678 <= dt_y x <= 2261) ds ->
  fill_implicit e (T f) (Some a) (combine (map VDate xs) vs) = Ok full.
Proof.
  intros PF.
  assert (NS : text_eqb (T f) (T "S") = false) by (destruct PF as [<-|[<-|[<-|[<-|[<-|[]]]]]]; reflexivity).
  assert (FL : frequency_letter f) by (unfold periodic, frequency_letter in *; cbn in *; tauto).
  assert (HO : forall x, fill_hole (hole_fuel (T f) x x) (T f) x x = Ok ([], x)).
  { intros x. assert (E : dt_ltb x x = false) by (apply ltb_false; auto). destruct (hole_fuel (T f) x x); cbn [fill_hole]; rewrite E; auto. }
  induction 1 as [x v|x v ds xs vs full S IH|x ds xs vs full S IH]; intros a HD C F; cbn [hd_error] in HD; injection HD as <-.
  - cbn [map combine fill_implicit arrow_any bind]. rewrite HO. cbn [bind fst snd app]. inversion F as [|? ? [R Y] _]; subst.
    assert (1 <= max_forth_units (T f)) by (destruct PF as [<-|[<-|[<-|[<-|[<-|[]]]]]]; cbn; lia).
    destruct (increment_ok x 1 f) as [x' ->]; auto; lia.
  - cbn [map combine fill_implicit arrow_any bind]. rewrite HO. cbn [bind fst snd app].
    inversion F as [|? ? [R Y] F']; subst. inversion C as [|? b l P C']; subst; [inversion S|]. inversion F' as [|? ? [R' Y'] F'']; subst.
    rewrite (period_step f x b) by auto. cbn [bind]. rewrite (IH b eq_refl C' F'). reflexivity.
  - inversion F as [|? ? [R Y] F']; subst. inversion C as [|? b l P C']; subst; [inversion S|]. inversion F' as [|? ? [R' Y'] F'']; subst.
    specialize (IH b eq_refl C' F').
    assert (NX : exists y xs' v' vs', xs = y :: xs' /\ vs = v' :: vs' /\ earlier x y /\ dt_ord x < dt_ord b <= dt_ord y).
    { assert (RA : Forall real_date (x :: b :: l)) by (eapply Forall_impl; [|exact F]; cbn; tauto).
      assert (IN : forall ds xs vs full, spread ds xs vs full -> exists y xs' v' vs', xs = y :: xs' /\ vs = v' :: vs' /\ In y ds).
      { clear. induction 1 as [x v|x v ds xs vs full S IH|x ds xs vs full S IH].
        - exists x, [], v, []. cbn. auto.
        - exists x, xs, v, vs. cbn. auto.
        - destruct IH as (y & xs' & v' & vs' & E1 & E2 & I). exists y, xs', v', vs'. cbn. auto. }
      destruct (IN _ _ _ _ S) as (y & xs' & v' & vs' & E1 & E2 & I). exists y, xs', v', vs'. split; auto. split; auto. split.
      - apply In_nth_error in I as [j J]. apply (consecutive_later f (x :: b :: l) C RA (Datatypes.S j) 0); auto. lia.
      - assert (LE : b = y \/ earlier b y).
        { apply In_nth_error in I as [[|j] J]; [left; cbn in J; congruence|right]. inversion RA; subst. apply (consecutive_later f (b :: l) C' ltac:(assumption) (Datatypes.S j) 0); auto. lia. }
        assert (RY : real_date y) by (rewrite Forall_forall in RA; apply RA; right; auto).
        destruct (period_ord f x b) as [_ O]; auto. split; auto. destruct LE as [->|LE]; [lia|]. apply earlier_secs in LE; auto. unfold dt_secs in LE.
        destruct R' as (_ & ? & _), RY as (_ & ? & _). lia. }
    destruct NX as (y & xs' & v' & vs' & -> & -> & E & O). cbn [map combine fill_implicit arrow_any bind] in *.
    apply bind_ok in IH as (h & H1 & IH). rewrite (hole_more (T f) (Datatypes.S (hole_fuel (T f) b y)) (hole_fuel (T f) x y) x y (S754_nan :: fst h, snd h)).
    + cbn [bind fst snd]. apply bind_ok in IH as (ex' & H2 & IH). rewrite H2. cbn [bind]. apply bind_ok in IH as (rest & H3 & IH). rewrite H3. cbn [bind].
      injection IH as <-. reflexivity.
    + unfold hole_fuel. rewrite NS. lia.
    + cbn [fill_hole]. rewrite (proj2 (ltb_earlier _ _) E). rewrite (period_step f x b) by auto. cbn [bind]. rewrite H1. reflexivity.
Qed.

Lemma map_nth_seq {A B} (h : A -> B) (d : A) l : map (fun k => h (nth k l d)) (seq 0 (List.length l)) = map h l.
Proof.
  induction l as [|a l IH]; auto. cbn [List.length seq map nth]. f_equal. rewrite <- seq_shift, map_map. exact IH.
Qed.
Lemma implicit_read e w p f ms vs xs ds full n th r c en :
  sp_freq p = T f -> periodic f -> sp_missings p = true -> sp_mv p = VList ms -> In (VStr (T "Implicit")) ms ->
  sp_ends p = Some en -> en = sp_starts p + Z.of_nat (List.length xs) - 1 -> values_read p w vs -> spread ds xs vs full -> hd_error ds = hd_error xs ->
  consecutive f ds -> Forall (fun x => real_date x /\ 1678 <= dt_y x <= 2261) ds ->
  (forall k x, nth_error xs k = Some x -> holds p w (sp_starts p + Z.of_nat k) (VDate x)) ->
  series_name e w p n -> series_in_sheet p -> (sp_cont p = false -> index_in_sheet p) -> sp_th p = ThStr th -> cell_named th r c ->
  get_data e w p = Ok [(n, full)].
Proof.
  intros FQ PF M MV I E EN V SP HD CO YS HO NM IS IX TH CN.
  assert (SF : single_frequency p) by (eapply periodic_single; eauto).
  assert (LS : marker_list p) by (intros _; eauto).
  destruct (values_collects w p vs LS IS IX V) as (en' & line & E' & L & C). assert (en' = en) by congruence. subst en'.
  unfold get_data. rewrite (named_name e w p n NM). cbn [bind]. unfold get_values. rewrite E, L. cbn [bind]. rewrite C. cbn [bind]. rewrite SF. cbn [Nat.eqb bind].
  destruct (implicit_flag p LS) as (b & BE & BT). rewrite BE. cbn [bind]. assert (b = true) as -> by (apply BT; eauto). cbn [andb].
  assert (NE : vs <> [] /\ xs <> []) by (clear - SP; induction SP; split; try discriminate; tauto). destruct NE as [NV NX].
  assert (GV : match vs with [] => [] | _ :: _ => [vs] end = [vs]) by (destruct vs; congruence). rewrite GV. clear GV.
  destruct (line_named (sp_al p) _ _ _ CN) as [tl TL].
  assert (WL : write_line (sp_al p) (sp_th p) = Ok tl) by (rewrite TH; auto). rewrite WL. cbn [bind].
  destruct (mapM_total (axis_read (sp_al p) w tl) (zrange (sp_starts p) en)) as [tvs TV].
  { intros q Q. apply zrange_In in Q. eapply read_in_sheet; eauto. eapply IS; eauto. }
  rewrite TV. cbn [bind]. set (d0 := mkdt 2000 1 1 0).
  rewrite EN in TV. rewrite <- (seq_length (List.length xs) 0) in TV. apply (dates_read _ _ _ (fun k => nth k xs d0)) in TV.
  2: { intros i k N. assert (K : k = i /\ (i < List.length xs)%nat).
       { assert ((i < List.length xs)%nat) by (rewrite <- (seq_length (List.length xs) 0); apply nth_error_Some; congruence). split; auto.
         rewrite (nth_error_nth' _ 0%nat) in N by (rewrite seq_length; auto). rewrite seq_nth in N by auto. cbn in N. congruence. }
       destruct K as [-> K]. apply (holds_iff _ _ _ _ _ WL). apply HO. apply nth_error_nth'. auto. }
  rewrite map_nth_seq in TV. subst tvs. rewrite FQ.
  destruct xs as [|x xs]; [congruence|]. destruct vs as [|v vs]; [congruence|].
  assert (FI : fill_implicit e (T f) None (combine (map VDate (x :: xs)) (v :: vs)) = Ok full).
  { change (fill_implicit e (T f) (Some x) (combine (map VDate (x :: xs)) (v :: vs)) = Ok full). apply (spread_fill e f PF ds); auto. }
  rewrite FI. reflexivity.
Qed.

(** ** Indexes with blanks *)
Lemma accepted_spaced e w p f t r c m : real_dates w -> one_line p -> sp_th p = ThStr t -> cell_named t r c ->
  sp_composed p = false -> sp_freq p = T f -> frequency_letter f ->
  within_sheet p (sp_starts p) m -> holds_date p w m -> short_runs p w (sp_starts p) m ->
  dated p w (sp_starts p) m -> no_typos p f w (sp_starts p) m -> before_9999 p w (sp_starts p) m ->
  sp_starts p <= m -> sp_starts p < m - sp_ta p -> index_ends p w m ->
  exists w', clean_time_index e w p = (w', Ok (m - sp_ta p)) /\ forall i j, cell w' i j = cell w i j.
Proof.
  intros R OL TH CN NC FQ FL WS HM SR DT NT B9 L1 L2 (last & LO & [->|(AV & ML & EN)]).
  { eapply c26_accepted; eauto. }
  pose proof LO as LO'. apply last_one_iff in LO'. subst last. set (last := last_position p w) in *.
  assert (WL : exists wl, write_line (sp_al p) (sp_th p) = Ok wl /\ (sp_al p = Vert -> 1 <= wl <= 18278)).
  { rewrite TH. cbn [write_line]. unfold coord_line. apply cell_named_iff in CN. pose proof (parse_range _ _ _ CN). rewrite CN. cbn [bind fst snd].
    eexists. split; [reflexivity|]. destruct (sp_al p); intros; try discriminate; lia. }
  destruct WL as (wl & WL & WV). specialize (WV AV).
  assert (TL : time_lines (sp_al p) (sp_th p) (sp_multi p) = Ok (OneLine wl)).
  { unfold one_line in OL. rewrite OL, TH in *. cbn [time_lines write_line] in *. rewrite WL. reflexivity. }
  assert (FN : sp_freq p <> []). { rewrite FQ. destruct FL as [<-|[<-|[<-|[<-|[<-|[<-|[]]]]]]]; discriminate. }
  assert (BL : forall q, blank_at p w q <-> no_time p (axis_val (sp_al p) w wl q)).
  { intros q. unfold blank_at. split.
    - intros (v & HV & N). apply (holds_iff _ _ _ _ _ WL) in HV. congruence.
    - intros N. eexists. split; [|exact N]. apply (holds_iff _ _ _ _ _ WL). auto. }
  assert (ND : forall q, blank_at p w q -> ~ holds_date p w q).
  { intros q Bq [d D]. apply BL in Bq. apply (holds_iff _ _ _ _ _ WL) in D. rewrite D in Bq. inversion Bq. }
  assert (WALK : forall x, m < x -> (forall q, m < q <= x -> blank_at p w q) ->
    exists w' stop, walk e p (OneLine wl) wl None (zrange (sp_starts p) x) (init_state w) w' stop /\ (forall i j, cell w' i j = cell w i j) /\
      m < stop <= x).
  { intros x MX BX.
    assert (DTX : dated p w (sp_starts p) x).
    { destruct DT as [D1 D2]. split.
      - intros q Q. destruct (Z_le_gt_dec q m) as [QM|QM]; [apply D1; lia|left; apply BX; lia].
      - intros i j a b I J K A B. destruct (Z_le_gt_dec j m) as [QM|QM]; [apply (D2 i j); auto|]. exfalso. apply (ND j); [apply BX; lia|exists b; auto]. }
    assert (NTX : no_typos p f w (sp_starts p) x).
    { destruct NT as [NT|[M ST]]; [left; auto|right]. split; auto. intros i j a b I J K A B N.
      destruct (Z_le_gt_dec j m) as [QM|QM]; [apply (ST i j); auto|]. exfalso. apply (ND j); [apply BX; lia|exists b; auto]. }
    pose proof (good_start p f w wl x WL R FQ DTX NTX) as G.
    destruct (walk_exists e p wl f NC FQ FL (no_typos_marker _ _ _ _ _ NTX) (zrange (sp_starts p) x) None (init_state w) x) as (w' & stop & W & C & S'); auto.
    { apply zrange_sorted. }
    { left. rewrite zrange_cons by lia. discriminate. }
    { intros q I. apply zrange_In in I. lia. }
    { intros _. apply zrange_In. lia. }
    { intros q I. apply zrange_In in I. destruct WS as [WS1 WS2]. rewrite AV. unfold cell_ok, max_column, axis_row, axis_col. split; lia. }
    { intros q d I D. apply zrange_In in I. apply (holds_iff _ _ _ _ _ WL) in D. destruct (Z_le_gt_dec q m) as [QM|QM]; [apply (B9 q d); auto; lia|].
      exfalso. apply (ND q); [apply BX; lia|exists d; auto]. }
    { cbn. discriminate. }
    exists w', stop. split; auto. split; auto. cbn [cs_ws init_state] in *.
    destruct (walk_runs e p (OneLine wl) wl (fun q => sp_starts p <= q /\ blank_at p w q) x _ _ _ _ _ W (sp_starts p) eq_refl) as (I1 & I1b & I2 & I3 & I4 & I5 & I6 & I7).
    { cbn. unfold NO_TIME_VALUE_LIMIT. lia. }
    { intros q v I TV. cbn [time_value cs_ws init_state] in TV. apply axis_read_ok in TV. subst v. rewrite no_time_iff, <- BL. apply zrange_In in I. intuition lia. }
    { cbn. intros. lia. }
    assert (I5' : sp_starts p <= stop <= x) by (apply I5; rewrite zrange_cons by lia; discriminate).
    split; [|lia]. destruct S' as [->|S']; [lia|]. apply BL in S'. destruct (Z_le_gt_dec stop m) as [QM|]; [|lia]. exfalso.
    destruct SR as [[TB SR]|SR]; [|exact (ND stop S' (SR stop ltac:(lia)))].
    assert (I8 : forall k, 0 <= k <= 40 -> sp_starts p <= stop - k /\ blank_at p w (stop - k)).
    { apply I7; [lia|rewrite zrange_cons by lia; discriminate|split; [lia|auto]|]. unfold tolerates_blanks in TB. unfold tolerant. destruct (sp_cont p), (sp_blank p); cbn; intuition congruence. }
    destruct (SR (stop - 40)) as (k & K & HK); [apply I8; lia|lia|].
    apply (ND k); auto. replace k with (stop - (stop - k)) by lia. apply I8. lia. }
  assert (ALL : exists w' stop, walk e p (OneLine wl) wl None (zrange (sp_starts p) last) (init_state w) w' stop /\ (forall i j, cell w' i j = cell w i j) /\
      m < stop /\ forall q, m < q <= stop -> blank_at p w q).
  { destruct EN as [[B1 NTO]|EN].
    - destruct (WALK (m + 1)) as (w' & stop & W & C & S'); [lia|intros q Q; replace q with (m + 1) by lia; auto|].
      exists w', stop. split; [|split; [auto|split; [lia|intros q Q; replace q with (m + 1) by lia; auto]]].
      rewrite (zrange_app (sp_starts p) m (m + 1)) in W by lia. rewrite (zrange_cons (m + 1) (m + 1)), (zrange_nil (m + 1 + 1)) in W by lia.
      rewrite (zrange_app (sp_starts p) m last) by lia. rewrite (zrange_cons (m + 1) last) by lia.
      refine (walk_more e p (OneLine wl) wl (m + 1) _ _ _ _ _ _ _ W _ eq_refl _ _).
      + unfold tolerant, tolerates_blanks in *. destruct (sp_cont p), (sp_blank p); cbn; intuition congruence.
      + intros I. apply zrange_In in I. lia.
      + intros v TV. cbn [time_value cs_ws init_state] in TV. apply axis_read_ok in TV. subst v. apply no_time_iff. apply BL. auto.
    - destruct (WALK last) as (w' & stop & W & C & S'); [lia|auto|]. exists w', stop. split; auto. split; auto. split; [lia|]. intros q Q. apply EN. lia. }
  destruct ALL as (w' & stop & W & C & MS & BS). exists w'. split; auto.
  rewrite clean_is_single by auto. unfold clean_single_table. fold last. rewrite TL, WL.
  destruct (zrange (sp_starts p) last) as [|x l] eqn:ZR; [rewrite zrange_cons in ZR by lia; discriminate|]. rewrite (walk_loop _ _ _ _ _ _ _ _ _ W). f_equal.
  unfold estimate_end. rewrite AV.
  assert (WB : walk_back w' wl stop (Z.to_nat (stop - sp_starts p)) = m).
  { assert (VD : forall q, is_date (axis_val Vert w' wl q) = true <-> holds_date p w q).
    { intros q. unfold holds_date. split.
      - intros D. apply is_date_ex in D as [d D]. exists d. apply (holds_iff _ _ _ _ _ WL). rewrite AV. rewrite <- D. unfold axis_val. rewrite C. auto.
      - intros [d D]. apply (holds_iff _ _ _ _ _ WL) in D. rewrite AV in D. unfold axis_val in *. rewrite C, D. auto. }
    destruct (walk_back_spec w' wl (Z.to_nat (stop - sp_starts p)) stop) as (S1 & S2 & S3). cbn zeta in *. set (q := walk_back _ _ _ _) in *.
    assert (~ q < m). { intros Q. assert (X : is_date (axis_val Vert w' wl m) = false) by (apply S2; lia).
      assert (is_date (axis_val Vert w' wl m) = true) by (apply VD; auto). congruence. }
    destruct (Z.eq_dec q m) as [|NQ]; auto. exfalso. destruct S3 as [S3|S3]; [|lia]. apply VD in S3. apply (ND q); auto. apply BS. lia. }
  rewrite WB. cbn [bind]. destruct WS as [WS1 _]. replace (negb (m - sp_ta p =? 0) && (sp_starts p <? m - sp_ta p)) with true by lia. reflexivity.
Qed.

(** ** One attempt *)
Definition plain_series (al : align) (t f : text) (z m : Z) (s : sp) : Prop :=
  sp_al s = al /\ sp_th s = ThStr t /\ sp_starts s = z /\ (sp_ends s = None \/ sp_ends s = Some m) /\ sp_ta s = 0 /\
  sp_freq s = f /\ sp_multi s = false.

Section Attempt.
Variables (e : env) (w0 w : worksheet) (p : dict) (n : nat) (al : align) (f : string) (t : text) (r c z m : Z)
  (ds : list datetime) (names : list text) (data : list (list spec_float)).
Hypothesis freq : periodic f.
Hypothesis cons : consecutive f ds.
Hypothesis real : Forall real_date ds.
Hypothesis start : exists d, hd_error ds = Some d /\ period_start f d.
Hypothesis years : Forall (fun d => 1678 <= dt_y d <= 2261) ds.
Hypothesis large : z < m.
Hypothesis named : cell_named t r c.
Hypothesis low : 1 <= z.
Hypothesis high : al = Horiz -> m < 18278.
Hypothesis lists : all_lists p n.
Hypothesis some : (0 < n)%nat.
Hypothesis series : forall i, (i < n)%nat -> exists s, series_sp p i = Ok s /\ plain_series al t (T f) z m s.
Hypothesis first_ : forall s x, plain_series al t (T f) z m s -> hd_error ds = Some x -> holds s w z (VDate x).
Hypothesis last_ : forall s x, plain_series al t (T f) z m s -> hd_error ds = Some x -> holds s w m (VDate (List.last ds x)).
(* the index is cleaned, and the cells left are those of [w] *)
Hypothesis cleans : forall s, series_sp p 0 = Ok s -> exists w', clean_time_index e w0 s = (w', Ok m) /\ same_values w w'.
Hypothesis names_n : List.length names = n.
Hypothesis data_n : List.length data = n.
Hypothesis lengths : Forall (fun vs => List.length vs = List.length ds) data.
Hypothesis reads : forall i s name vs, series_sp p i = Ok s -> nth_error names i = Some name -> nth_error data i = Some vs ->
  marker_list s /\ get_data e w (with_ends s m) = Ok [(name, vs)].

Lemma prs_range : exists pn, pandas_name f pn /\ forall w' line, coord_line al t = Ok line -> same_values w w' ->
  series_prs e w' (T f) z line m 0 al = Ok [mkpr (T pn) ds].
Proof.
  destruct start as [a [H0 P0]].
  destruct (range_whole f ds a freq cons real H0 P0) as (pn & PN & DR). exists pn. split; [exact PN|]. intros w' line LN S.
  destruct (series 0%nat some) as (s & S0 & O). pose proof O as (O1 & O2 & O3 & _).
  assert (WL : write_line (sp_al s) (sp_th s) = Ok line) by (rewrite O1, O2; exact LN).
  assert (RD : forall q, z <= q <= m -> axis_read al w' line q = Ok (axis_val al w' line q)).
  { intros q Q. destruct (read_in_sheet al t w' line q LN) as [v RV].
    - split; [arith|]. intros A. specialize (high A). arith.
    - rewrite RV. f_equal. symmetry. eapply axis_read_val; eauto. }
  assert (AT : forall q d, holds s w q (VDate d) -> axis_val al w' line q = VDate d).
  { intros q d HO. apply (holds_iff _ _ _ _ _ WL) in HO. rewrite <- HO. rewrite O1. unfold axis_val. apply S. }
  assert (TB : forall d, In d ds -> ts_in_bounds d = true).
  { intros d D. rewrite Forall_forall in years. specialize (years d D). cbn beta in years. unfold ts_in_bounds. apply andb_true_iff. split; apply leb_spec; right; unfold earlier; cbn [dt_y dt_m dt_d dt_s]; arith. }
  unfold series_prs.
  assert (FQ : accepts_freq true (T f) = false /\ accepts_freq false (T f) = true).
  { destruct freq as [<-|[<-|[<-|[<-|[<-|[]]]]]]; split; reflexivity. }
  destruct FQ as [-> ->]. unfold single_prs. rewrite !Z.add_0_r.
  rewrite !RD by arith. cbn [bind].
  rewrite (AT z a (first_ s a O H0)). rewrite (AT m _ (last_ s a O H0)).
  unfold range_of. cbn [to_timestamp]. rewrite TB by (apply (nth_error_In ds 0); destruct ds; auto). cbn [bind].
  rewrite TB by (eapply nth_error_In; apply (last_whole ds a H0)). cbn [bind]. rewrite DR. reflexivity.
Qed.

Lemma attempt_read : exists pn cols, pandas_name f pn /\ column_names names cols /\ alone e w0 p = Ok [mkdf (mkpr (T pn) ds) cols data].
Proof.
  destruct prs_range as (pn & PN & PRS).
  destruct (series 0%nat some) as (s0 & S0 & O0). pose proof O0 as (O1 & O2 & O3 & O4 & O5 & O6 & O7).
  assert (LINE : exists line, coord_line al t = Ok line).
  { unfold coord_line. pose proof (proj1 (cell_named_iff _ _ _) named) as NM. rewrite NM. cbn [bind]. eexists; reflexivity. }
  destruct LINE as [line LN].
  destruct (cleans s0 S0) as (w1 & CT & SV1).
  assert (TH : forall j, (j < n)%nat -> series_value p n_time_header j (VStr t) /\ exists v, series_value p n_data_ends j v /\ open_end m v).
  { intros j J. destruct (series j J) as (s & SE & Q1 & Q2 & Q3 & Q4 & _). apply (fields_sp p n j s lists J) in SE.
    destruct SE as [_ _ _ _ _ _ [g [g1 g2]] _ _ _ _ _ _ [q [q1 q2]] _ _]. split.
    - rewrite Q2 in q2. destruct q; cbn in q2; try discriminate; [inversion q2; subst; auto|].
      destruct (mapM as_text l); discriminate.
    - exists g. split; auto. unfold open_end. destruct (truthy g); [right|left; auto]. split; auto.
      destruct (as_int g) as [g'|]; [|discriminate]. cbn in g2. inversion g2 as [E]. rewrite <- E in Q4. destruct Q4 as [Q4|Q4]; congruence. }
  assert (TM : exists v, series_value p n_time_multicolumn 0 v /\ truthy v = false).
  { pose proof S0 as F0. apply (fields_sp p n 0 s0 lists some) in F0. destruct F0 as [_ _ _ _ _ _ _ _ _ _ _ _ [v [v1 v2]] _ _ _]. exists v. rewrite O7 in v2. auto. }
  destruct (clean_all e w0 p n t m s0 some ltac:(arith) lists TH TM S0 w1 CT) as (p1 & CD & ES).
  assert (SE1 : forall i s, (i < n)%nat -> series_sp p i = Ok s -> series_sp p1 i = Ok (with_ends s m)).
  { intros i s I E. eapply fields_ends; eauto. }
  assert (L1 : all_lists p1 n) by apply ES.
  assert (HASH : exists h, pr_hash (mkpr (T pn) ds) = Ok h).
  { destruct start as [a [H0 _]]. apply (hash_known (T pn) ds a H0). }
  destruct HASH as [h HASH].
  destruct (read_all e w1 p1 n (T f) t al z m line (mkpr (T pn) ds) h L1) with (names := names) (data := data) as (w2 & cols & GD & CN); auto.
  - intros w' S. apply PRS; auto. eapply same_values_trans; eauto.
  - intros i I. destruct (series i I) as (s & SE & Q). exists (with_ends s m). split; [apply SE1; auto|].
    destruct Q as (Q1 & Q2 & Q3 & Q4 & Q5 & Q6 & Q7). repeat split; auto.
  - intros j name vs s N1 N2 SE.
    assert (J : (j < n)%nat) by (rewrite <- names_n; apply nth_error_Some; congruence).
    destruct (series j J) as (s' & SE' & Q). pose proof (SE1 j s' J SE') as SE2. rewrite SE in SE2. inversion SE2; subst s. clear SE2.
    destruct (reads j s' name vs SE' N1 N2) as (ML & GD). pose proof Q as (Q1 & Q2 & Q3 & Q4 & Q5 & Q6 & Q7).
    split.
    + unfold dcombo_accepts, dcombos. cbn [find dk_multifreq dk_cont with_ends sp_freq sp_cont]. rewrite Q6.
      destruct freq as [<-|[<-|[<-|[<-|[<-|[]]]]]]; destruct (sp_cont s'); discriminate.
    + intros w' S. assert (SW : same_values w w') by (eapply same_values_trans; eauto).
      rewrite <- (c53_same_values e w w' (with_ends s' m)); auto. apply stored_same; auto.
  - exists pn, cols. split; auto. split; auto. unfold alone, run_attempt. cbn [sheet params st_sheets st_params nth].
    rewrite CD. rewrite GD. reflexivity.
Qed.
End Attempt.
