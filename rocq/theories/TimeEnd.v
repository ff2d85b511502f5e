(** Time indexes full of dates are accepted, with whatever follows them (C38). *)
From Coq Require Import Sorted.
From Verif Require Import Base BaseFacts Cal Coord CoordFacts Params ParseTime TimeIndex SpecCal CalFacts CalProofs SpecCoord SpecCoordFacts
  TimeFacts SpecTime ScrapeProofs2 TimeProofs TimeProofs2 SpecEnd.
Local Open Scope Z_scope.

(** a reading that stops at a blank does not look further *)
Lemma walk_more e p tl wl b rest : tolerant p = false -> forall l1 prev st w' stop, walk e p tl wl prev l1 st w' stop ->
  forall l, l1 = l ++ [b] -> ~ In b l ->
  (forall v, time_value e (sp_al p) (cs_ws st) tl b = Ok v -> must_be_time (negb (sp_ta p =? 0)) v = false) ->
  walk e p tl wl prev (l ++ b :: rest) st w' stop.
Proof.
  intros TT l1 prev st w' stop W. induction W; intros l E NI BV.
  - destruct l; discriminate.
  - destruct l as [|x l]; inversion E; subst.
    + exfalso. rewrite (BV curr) in H0; [discriminate|apply H].
    + cbn [app]. eapply wk_date; eauto. apply IHW; auto; [intros I; apply NI; right; auto|].
      cbn [cs_ws]. intros v. rewrite time_written; auto. intros ->. apply NI. left. auto.
  - destruct l as [|x' l]; inversion E; subst.
    + exfalso. rewrite (BV curr) in H0; [discriminate|apply H].
    + cbn [app]. eapply wk_month; eauto. apply IHW; auto; [intros I; apply NI; right; auto|].
      cbn [cs_ws]. intros v. rewrite time_written; auto. intros ->. apply NI. left. auto.
  - destruct l as [|x' l]; inversion E; subst; cbn [app]; eapply wk_note; eauto.
  - congruence.
  - destruct l as [|x' l]; inversion E; subst; cbn [app]; eapply wk_stop; eauto.
Qed.

Lemma accepted_ends e w p f t r c m : real_dates w -> one_line p -> sp_th p = ThStr t -> cell_named t r c ->
  sp_composed p = false -> sp_freq p = T f -> frequency_letter f ->
  within_sheet p (sp_starts p) m ->
  (forall q, sp_starts p <= q <= m -> holds_date p w q) ->
  dated p w (sp_starts p) m -> no_typos p f w (sp_starts p) m -> before_9999 p w (sp_starts p) m ->
  sp_starts p <= m -> sp_starts p < m - sp_ta p -> index_ends p w m ->
  exists w', clean_time_index e w p = (w', Ok (m - sp_ta p)) /\ forall i j, cell w' i j = cell w i j.
Proof.
  intros R OL TH CN NC FQ FL WS HD DT NT B9 L1 L2 (last & LO & [->|(AV & ML & EN)]).
  { eapply c26_accepted; eauto; [right; auto|apply HD; lia]. }
  assert (NTOL : (blank_at p w (m + 1) /\ ~ tolerates_blanks p) \/ (forall q, m < q <= last -> blank_at p w q)) by exact EN.
  pose proof LO as LO'. apply last_one_iff in LO'. subst last. set (last := last_position p w) in *.
  assert (WL : exists wl, write_line (sp_al p) (sp_th p) = Ok wl /\ (sp_al p = Vert -> 1 <= wl <= 18278)).
  { rewrite TH. cbn [write_line]. unfold coord_line. apply cell_named_iff in CN. pose proof (parse_range _ _ _ CN). rewrite CN. cbn [bind fst snd].
    eexists. split; [reflexivity|]. destruct (sp_al p); intros; try discriminate; lia. }
  destruct WL as (wl & WL & WV). specialize (WV AV).
  assert (TL : time_lines (sp_al p) (sp_th p) (sp_multi p) = Ok (OneLine wl)).
  { unfold one_line in OL. rewrite OL, TH in *. cbn [time_lines write_line] in *. rewrite WL. reflexivity. }
  assert (FN : sp_freq p <> []). { rewrite FQ. destruct FL as [<-|[<-|[<-|[<-|[<-|[<-|[]]]]]]]; discriminate. }
  assert (BL : forall q, blank_at p w q <-> no_time p (axis_val (sp_al p) w wl q)).
  { intros q. unfold blank_at. split.
    - intros (v & HV & N). apply (holds_iff _ _ _ _ _ WL) in HV. congruence.
    - intros N. eexists. split; [|exact N]. apply (holds_iff _ _ _ _ _ WL). auto. }
  assert (ND : forall q, blank_at p w q -> ~ holds_date p w q).
  { intros q Bq [d D]. apply BL in Bq. apply (holds_iff _ _ _ _ _ WL) in D. rewrite D in Bq. inversion Bq. }
  (* the same up to a position with blanks from m on *)
  assert (WALK : forall x, m < x -> (forall q, m < q <= x -> blank_at p w q) ->
    exists w' stop, walk e p (OneLine wl) wl None (zrange (sp_starts p) x) (init_state w) w' stop /\ (forall i j, cell w' i j = cell w i j) /\
      m < stop <= x).
  { intros x MX BX.
    assert (DTX : dated p w (sp_starts p) x).
    { destruct DT as [D1 D2]. split.
      - intros q Q. destruct (Z_le_gt_dec q m) as [QM|QM]; [apply D1; lia|left; apply BX; lia].
      - intros i j a b I J K A B. destruct (Z_le_gt_dec j m) as [QM|QM]; [apply (D2 i j); auto|]. exfalso. apply (ND j); [apply BX; lia|exists b; auto]. }
    assert (NTX : no_typos p f w (sp_starts p) x).
    { destruct NT as [NT|[M ST]]; [left; auto|right]. split; auto. intros i j a b I J K A B N.
      destruct (Z_le_gt_dec j m) as [QM|QM]; [apply (ST i j); auto|]. exfalso. apply (ND j); [apply BX; lia|exists b; auto]. }
    pose proof (good_start p f w wl x WL R FQ DTX NTX) as G.
    destruct (walk_exists e p wl f NC FQ FL (no_typos_marker _ _ _ _ _ NTX) (zrange (sp_starts p) x) None (init_state w) x) as (w' & stop & W & C & S'); auto.
    { apply zrange_sorted. }
    { left. rewrite zrange_cons by lia. discriminate. }
    { intros q I. apply zrange_In in I. lia. }
    { intros _. apply zrange_In. lia. }
    { intros q I. apply zrange_In in I. destruct WS as [WS1 WS2]. rewrite AV. unfold cell_ok, max_column, axis_row, axis_col. split; lia. }
    { intros q d I D. apply zrange_In in I. apply (holds_iff _ _ _ _ _ WL) in D. destruct (Z_le_gt_dec q m) as [QM|QM]; [apply (B9 q d); auto; lia|].
      exfalso. apply (ND q); [apply BX; lia|exists d; auto]. }
    { cbn. discriminate. }
    exists w', stop. split; auto. split; auto. cbn [cs_ws init_state] in *.
    destruct (walk_runs e p (OneLine wl) wl (fun q => sp_starts p <= q /\ blank_at p w q) x _ _ _ _ _ W (sp_starts p) eq_refl) as (I1 & I1b & I2 & I3 & I4 & I5 & I6 & I7).
    { cbn. unfold NO_TIME_VALUE_LIMIT. lia. }
    { intros q v I TV. cbn [time_value cs_ws init_state] in TV. apply axis_read_ok in TV. subst v. rewrite no_time_iff, <- BL. apply zrange_In in I. intuition lia. }
    { cbn. intros. lia. }
    assert (I5' : sp_starts p <= stop <= x) by (apply I5; rewrite zrange_cons by lia; discriminate).
    split; [|lia]. destruct S' as [->|S']; [lia|]. apply BL in S'. destruct (Z_le_gt_dec stop m) as [QM|]; [|lia]. exfalso. apply (ND stop S'). apply HD. lia. }
  assert (ALL : exists w' stop, walk e p (OneLine wl) wl None (zrange (sp_starts p) last) (init_state w) w' stop /\ (forall i j, cell w' i j = cell w i j) /\
      m < stop /\ forall q, m < q <= stop -> blank_at p w q).
  { destruct EN as [[B1 NTO]|EN].
    - destruct (WALK (m + 1)) as (w' & stop & W & C & S'); [lia|intros q Q; replace q with (m + 1) by lia; auto|].
      exists w', stop. split; [|split; [auto|split; [lia|intros q Q; replace q with (m + 1) by lia; auto]]].
      rewrite (zrange_app (sp_starts p) m (m + 1)) in W by lia. rewrite (zrange_cons (m + 1) (m + 1)), (zrange_nil (m + 1 + 1)) in W by lia.
      rewrite (zrange_app (sp_starts p) m last) by lia. rewrite (zrange_cons (m + 1) last) by lia.
      refine (walk_more e p (OneLine wl) wl (m + 1) _ _ _ _ _ _ _ W _ eq_refl _ _).
      + unfold tolerant, tolerates_blanks in *. destruct (sp_cont p), (sp_blank p); cbn; intuition congruence.
      + intros I. apply zrange_In in I. lia.
      + intros v TV. cbn [time_value cs_ws init_state] in TV. apply axis_read_ok in TV. subst v. apply no_time_iff. apply BL. auto.
    - destruct (WALK last) as (w' & stop & W & C & S'); [lia|auto|]. exists w', stop. split; auto. split; auto. split; [lia|]. intros q Q. apply EN. lia. }
  destruct ALL as (w' & stop & W & C & MS & BS). exists w'. split; auto.
  rewrite clean_is_single by auto. unfold clean_single_table. fold last. rewrite TL, WL.
  destruct (zrange (sp_starts p) last) as [|x l] eqn:ZR; [rewrite zrange_cons in ZR by lia; discriminate|]. rewrite (walk_loop _ _ _ _ _ _ _ _ _ W). f_equal.
  unfold estimate_end. rewrite AV.
  assert (WB : walk_back w' wl stop (Z.to_nat (stop - sp_starts p)) = m).
  { assert (VD : forall q, is_date (axis_val Vert w' wl q) = true <-> holds_date p w q).
    { intros q. unfold holds_date. split.
      - intros D. apply is_date_ex in D as [d D]. exists d. apply (holds_iff _ _ _ _ _ WL). rewrite AV. rewrite <- D. unfold axis_val. rewrite C. auto.
      - intros [d D]. apply (holds_iff _ _ _ _ _ WL) in D. rewrite AV in D. unfold axis_val in *. rewrite C, D. auto. }
    destruct (walk_back_spec w' wl (Z.to_nat (stop - sp_starts p)) stop) as (S1 & S2 & S3). cbn zeta in *. set (q := walk_back _ _ _ _) in *.
    assert (~ q < m). { intros Q. assert (X : is_date (axis_val Vert w' wl m) = false) by (apply S2; lia). destruct (HD m ltac:(lia)) as [d D].
      assert (is_date (axis_val Vert w' wl m) = true) by (apply VD; exists d; auto). congruence. }
    destruct (Z.eq_dec q m) as [|NQ]; auto. exfalso. destruct S3 as [S3|S3]; [|lia]. apply VD in S3. apply (ND q); auto. apply BS. lia. }
  rewrite WB. cbn [bind]. destruct WS as [WS1 _]. replace (negb (m - sp_ta p =? 0) && (sp_starts p <? m - sp_ta p)) with true by lia. reflexivity.
Qed.
