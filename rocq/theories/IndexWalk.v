(** A whole time index, in one or several columns (rows), whose values are read,
    one after the other, as given dates. *)
From Coq Require Import Sorted.
From Verif Require Import Base BaseFacts Cal Coord CoordFacts Params ParseTime TimeIndex SpecCal CalFacts CalProofs SpecCoord SpecCoordFacts
  TimeFacts SpecTime ScrapeProofs2 TimeProofs TimeProofs2.
Local Open Scope Z_scope.

(** what is known before reading a position: nothing at the first one, the date
    before and the way of reading at the others *)
Definition before {X} (p : sp) (q : Z) (x : X) : option X := if q =? sp_starts p then None else Some x.

Lemma time_value_same e al w w' tl q : (forall line, axis_val al w' line q = axis_val al w line q) -> time_value e al w' tl q = time_value e al w tl q.
Proof.
  intros H. assert (R : forall l, axis_read al w' l q = axis_read al w l q).
  { intros l. unfold axis_read, read. fold (axis_val al w' l q) (axis_val al w l q). rewrite H. reflexivity. }
  destruct tl as [l|ls]; cbn [time_value]; [apply R|]. unfold many_value.
  match goal with |- bind ?a _ = bind ?b _ => assert (E : a = b); [|rewrite E; reflexivity] end.
  match goal with |- foldM ?f _ _ = foldM ?g _ _ => assert (FG : forall a l, f a l = g a l); [intros; rewrite R; reflexivity|generalize f g FG] end.
  clear. intros f g FG. generalize (@nil text).
  induction ls as [|l ls IH]; intros acc; cbn [foldM]; auto. rewrite FG. destruct (g acc l); cbn [bind]; auto.
Qed.
Lemma axis_write_other al w l q v line q' : q' <> q -> axis_val al (axis_write al l q v w) line q' = axis_val al w line q'.
Proof.
  intros N. unfold axis_val, axis_write, write, axis_row, axis_col. destruct al; cbn [cell]; replace (q' =? q) with false by lia; rewrite ?andb_false_r; auto.
Qed.

(** the walk over dates and over what follows them, whatever the reading *)
Section Walk.
Variables (e : env) (p : sp) (tl : tlines) (wl : Z) (s : strat) (m reach : Z) (w : worksheet) (d : Z -> datetime) (v : Z -> pyval).
Let val (w : worksheet) (line q : Z) : pyval := axis_val (sp_al p) w line q.
Hypothesis READS : forall q, sp_starts p <= q <= reach + 1 -> time_value e (sp_al p) w tl q = Ok (v q).
Hypothesis OK : forall q, sp_starts p <= q <= reach -> cell_ok (axis_row (sp_al p) wl q) (axis_col (sp_al p) wl q) = true.
Hypothesis MR : sp_starts p <= m <= reach.

Lemma here_readable st pos : sp_starts p <= pos <= reach -> (forall line q, pos <= q -> val (cs_ws st) line q = val w line q) ->
  readable e p tl wl (cs_ws st) pos (v pos) (v (pos + 1)).
Proof.
  intros P V. unfold readable.
  rewrite (time_value_same e (sp_al p) w (cs_ws st) tl pos) by (intros; apply V; lia).
  rewrite (time_value_same e (sp_al p) w (cs_ws st) tl (pos + 1)) by (intros; apply V; lia).
  split; [apply READS; lia|]. split; [apply READS; lia|]. unfold axis_read, read. rewrite OK by lia. eauto.
Qed.

(** [Inv] is what is known of the rest of the state before reading a position *)
Lemma dates_walk_inv (Inv : Z -> option strat -> (ascii -> option datetime) -> text -> Prop) :
  (forall q, sp_starts p <= q <= m -> must_be_time (negb (sp_ta p =? 0)) (v q) = true) ->
  (forall pos st, sp_starts p <= pos <= m -> cs_last st = before p pos (d (pos - 1)) -> Inv pos (cs_parser st) (cs_lasts st) (cs_lf st) ->
    exists k lasts lf, process_value e p st (v pos) (v (pos + 1)) = (k, Ok (d pos, lasts, lf)) /\ Inv (pos + 1) k lasts lf) ->
  forall n pos prev st, n = Z.to_nat (m + 1 - pos) -> sp_starts p <= pos -> pos <= m + 1 ->
  (pos = m + 1 -> prev = Some m /\ cs_count st = 0) ->
  cs_last st = before p pos (d (pos - 1)) -> Inv pos (cs_parser st) (cs_lasts st) (cs_lf st) ->
  (forall line q, pos <= q -> val (cs_ws st) line q = val w line q) ->
  exists st', (cs_last st' = Some (d m) /\ Inv (m + 1) (cs_parser st') (cs_lasts st') (cs_lf st')) /\
    (forall rest w' stop, walk e p tl wl (Some m) rest st' w' stop -> walk e p tl wl prev (zrange pos m ++ rest) st w' stop) /\
    (forall q, pos <= q <= m -> val (cs_ws st') wl q = VDate (d q)) /\ (forall line q, q < pos \/ m < q -> val (cs_ws st') line q = val (cs_ws st) line q).
Proof.
  intros TIME PROC. induction n as [|n IH]; intros pos prev st N I1 I2 PV L1 L2 V.
  - destruct (PV ltac:(lia)) as [-> C0]. assert (pos = m + 1) by lia. subst pos. exists st.
    split; [rewrite L1; unfold before; replace (m + 1 =? sp_starts p) with false by lia; replace (m + 1 - 1) with m by lia; auto|].
    split; [|split; [intros; lia|auto]]. rewrite zrange_nil by lia. auto.
  - assert (pos <= m) by lia. assert (RDB := here_readable st pos ltac:(lia) V).
    destruct (PROC pos (mkcs (touched p tl wl (cs_ws st) pos) (cs_parser st) (cs_last st) (cs_count st) (cs_lasts st) (cs_lf st)) ltac:(lia) L1 L2) as (k & lasts & lf & PR & IV).
    set (st' := mkcs (axis_write (sp_al p) wl pos (VDate (d pos)) (touched p tl wl (cs_ws st) pos)) k (Some (d pos)) 0 lasts lf).
    assert (VW : forall q, val (cs_ws st') wl q = if q =? pos then VDate (d pos) else val (cs_ws st) wl q).
    { intros q. unfold val. cbn [cs_ws st']. rewrite axis_val_write. destruct (q =? pos); auto. unfold axis_val. rewrite cell_touched. auto. }
    assert (VO : forall line q, q <> pos -> val (cs_ws st') line q = val (cs_ws st) line q).
    { intros line q NE. unfold val. cbn [cs_ws st']. rewrite axis_write_other by auto. unfold axis_val. rewrite cell_touched. auto. }
    destruct (IH (pos + 1) (Some pos) st') as (st2 & C2 & W & D1 & D2).
    { lia. }
    { lia. }
    { lia. }
    { intros. split; [f_equal; lia|reflexivity]. }
    { unfold before. replace (pos + 1 =? sp_starts p) with false by lia. cbn. replace (pos + 1 - 1) with pos by lia. reflexivity. }
    { exact IV. }
    { intros line q Q. rewrite VO by lia. apply V. lia. }
    exists st2. split; auto. split; [|split].
    + intros rest w' stop H0. rewrite zrange_cons by auto. cbn [app].
      eapply wk_date; [exact RDB|apply TIME; lia|exact PR|]. apply W. exact H0.
    + intros q Q. destruct (Z.eq_dec q pos) as [->|NE]; [|apply D1; lia]. rewrite D2, VW by lia. rewrite Z.eqb_refl. auto.
    + intros line q Q. rewrite D2, VO by lia. auto.
Qed.
Lemma dates_walk : 
  (forall q, sp_starts p <= q <= m -> must_be_time (negb (sp_ta p =? 0)) (v q) = true) ->
  (forall pos st, sp_starts p <= pos <= m -> cs_last st = before p pos (d (pos - 1)) -> cs_parser st = before p pos s ->
    process_value e p st (v pos) (v (pos + 1)) = (Some s, Ok (d pos, cs_lasts st, cs_lf st))) ->
  forall n pos prev st, n = Z.to_nat (m + 1 - pos) -> sp_starts p <= pos -> pos <= m + 1 ->
  (pos = m + 1 -> prev = Some m /\ cs_count st = 0) ->
  cs_last st = before p pos (d (pos - 1)) -> cs_parser st = before p pos s ->
  (forall line q, pos <= q -> val (cs_ws st) line q = val w line q) ->
  exists st', (cs_last st' = Some (d m) /\ cs_parser st' = Some s) /\ (forall rest w' stop, walk e p tl wl (Some m) rest st' w' stop -> walk e p tl wl prev (zrange pos m ++ rest) st w' stop) /\
    (forall q, pos <= q <= m -> val (cs_ws st') wl q = VDate (d q)) /\ (forall line q, q < pos \/ m < q -> val (cs_ws st') line q = val (cs_ws st) line q).
Proof.
  intros TIME PROC n pos prev st N I1 I2 PV L1 L2 V.
  destruct (dates_walk_inv (fun q k _ _ => k = before p q s) TIME) with (n := n) (pos := pos) (prev := prev) (st := st) as (st' & (C1 & C2) & R); auto.
  - intros q st0 Q A B. exists (Some s), (cs_lasts st0), (cs_lf st0). split; [apply PROC; auto|]. unfold before. replace (q + 1 =? sp_starts p) with false by lia. reflexivity.
  - exists st'. split; auto. split; auto. rewrite C2. unfold before. replace (m + 1 =? sp_starts p) with false by lia. reflexivity.
Qed.

Lemma blanks_walk last : reach = last \/ reach = m + 1 /\ m + 1 <= last /\ tolerant p = false ->
  (forall q, m < q <= reach -> no_time p (v q)) ->
  forall n pos prev st, n = Z.to_nat (last + 1 - pos) -> m < pos -> pos <= last + 1 -> prev = Some (pos - 1) ->
  (tolerant p = false -> pos = m + 1) ->
  (forall line q, m < q -> val (cs_ws st) line q = val w line q) ->
  exists w' stop, walk e p tl wl prev (zrange pos last) st w' stop /\ pos - 1 <= stop <= reach /\ (forall line q, val w' line q = val (cs_ws st) line q).
Proof.
  intros RL B. induction n as [|n IH]; intros pos prev st N I1 I2 -> TO V.
  - exists (cs_ws st), (pos - 1). rewrite zrange_nil by lia. split; [constructor|]. split; [|auto]. destruct RL as [|(-> & Q & T)]; [lia|]. specialize (TO T). lia.
  - assert (pos <= last) by lia. assert (PR : pos <= reach). { destruct RL as [|(-> & _ & T)]; [lia|]. rewrite TO by auto. lia. }
    assert (RDB := here_readable st pos ltac:(lia) ltac:(intros; apply V; lia)).
    assert (NT : must_be_time (negb (sp_ta p =? 0)) (v pos) = false) by (apply no_time_iff; apply B; lia).
    assert (TV : forall line q, val (touched p tl wl (cs_ws st) pos) line q = val (cs_ws st) line q).
    { intros line q. unfold val, axis_val. rewrite cell_touched. auto. }
    rewrite zrange_cons by auto. destruct (tolerant p) eqn:T.
    + assert (reach = last) by (destruct RL as [|(_ & _ & Q)]; [auto|discriminate]). subst reach.
      destruct (Z_lt_ge_dec (cs_count st) NO_TIME_VALUE_LIMIT) as [LT|GE].
      * destruct (IH (pos + 1) (Some pos) (mkcs (touched p tl wl (cs_ws st) pos) (cs_parser st) (cs_last st) (cs_count st + 1) (cs_lasts st) (cs_lf st)))
          as (w' & stop & W & S1 & S2); try lia.
        { f_equal. lia. }
        { intros line q Q. cbn [cs_ws]. rewrite TV. apply V; auto. }
        exists w', stop. split; [eapply wk_blank; eauto|]. split; [lia|]. intros line q. rewrite S2. cbn [cs_ws]. auto.
      * exists (touched p tl wl (cs_ws st) pos), pos. split; [eapply wk_stop; eauto; left; lia|]. split; [lia|]. auto.
    + exists (touched p tl wl (cs_ws st) pos), pos. split; [eapply wk_stop; eauto|]. split; [lia|]. auto.
Qed.
End Walk.

Lemma no_date_blank e p w tl wl q v : reads_line tl wl -> time_value e (sp_al p) w tl q = Ok v -> no_time p v -> is_date (axis_val (sp_al p) w wl q) = false.
Proof.
  intros RL TV NT. destruct (is_date _) eqn:D; auto. apply is_date_ex in D as [x D]. rewrite (time_value_date _ _ _ _ _ _ _ _ RL TV D) in NT. inversion NT.
Qed.
(** the end found when the walk stops at or after the last date *)
Lemma walk_conclude e w p tl wl d m w' stop (last := last_position p w) : sp_freq p <> [] ->
  time_lines (sp_al p) (sp_th p) (sp_multi p) = Ok tl -> write_line (sp_al p) (sp_th p) = Ok wl ->
  sp_starts p <= m <= last -> m <= stop -> (sp_al p = Vert \/ m = stop) -> sp_starts p < m - sp_ta p ->
  walk e p tl wl None (zrange (sp_starts p) last) (init_state w) w' stop ->
  (forall q, sp_starts p <= q <= m -> axis_val (sp_al p) w' wl q = VDate (d q)) ->
  (forall line q, m < q -> axis_val (sp_al p) w' line q = axis_val (sp_al p) w line q) ->
  (forall q, m < q <= stop -> is_date (axis_val (sp_al p) w wl q) = false) -> 1 <= sp_starts p ->
  exists w', clean_time_index e w p = (w', Ok (m - sp_ta p)) /\
    (forall q, sp_starts p <= q <= m -> holds p w' q (VDate (d q))) /\
    (forall i j, (forall q, sp_starts p <= q <= m -> ~ index_cell p q i j) -> cell w' i j = cell w i j).
Proof.
  intros FN TL WL MR ST VM L2 W3 DV DA B S1.
  assert (CL : clean_time_index e w p = (w', Ok (m - sp_ta p))).
  { rewrite clean_is_single by auto. unfold clean_single_table. fold last. rewrite TL, WL.
    destruct (zrange (sp_starts p) last) as [|x l] eqn:ZR; [rewrite zrange_cons in ZR by lia; discriminate|]. rewrite (walk_loop _ _ _ _ _ _ _ _ _ W3). f_equal.
    unfold estimate_end. replace (match sp_al p with Vert => _ | Horiz => _ end) with (@Ok Z m).
    - cbn [bind]. replace (negb (m - sp_ta p =? 0) && (sp_starts p <? m - sp_ta p)) with true by lia. reflexivity.
    - destruct (sp_al p) eqn:AL.
      + f_equal. destruct (walk_back_spec w' wl (Z.to_nat (stop - sp_starts p)) stop) as (B1 & B2 & B3). cbn zeta in *. set (q := walk_back _ _ _ _) in *.
        assert (DM : is_date (axis_val Vert w' wl m) = true) by (rewrite DV by lia; reflexivity).
        assert (~ q < m). { intros Q. rewrite B2 in DM by lia. discriminate. }
        destruct (Z.eq_dec q m) as [|NQ]; auto. exfalso. destruct B3 as [B3|B3]; [|lia].
        rewrite DA in B3 by lia.
        rewrite B in B3 by lia. discriminate.
      + assert (m = stop) by (destruct VM; [discriminate|lia]). subst stop. rewrite DV by lia. reflexivity. }
  exists w'. split; [exact CL|]. split.
  - intros q I. apply (holds_iff _ _ _ _ _ WL). auto.
  - intros i j N. assert (DEC : (exists line q, m < q <= last /\ i = axis_row (sp_al p) line q /\ j = axis_col (sp_al p) line q) \/
      forall q, m < q <= last -> ~ (i = axis_row (sp_al p) wl q /\ j = axis_col (sp_al p) wl q)).
    { unfold axis_row, axis_col. destruct (sp_al p).
      - assert (D : m < i <= last \/ ~ m < i <= last) by lia. destruct D as [D|D]; [left; exists j, i; auto|right; lia].
      - assert (D : m < j <= last \/ ~ m < j <= last) by lia. destruct D as [D|D]; [left; exists i, j; auto|right; lia]. }
    destruct DEC as [(line & q & Q & -> & ->)|DEC].
    + apply (DA line q). lia.
    + eapply (c27_frame _ _ _ _ _ CL). fold last. intros q Q IC. destruct (Z_le_gt_dec q m); [apply (N q); auto; lia|].
      apply (DEC q); [lia|]. apply (index_cell_iff _ _ _ _ _ WL) in IC. inversion IC. auto.
Qed.
Lemma walk_lines_inv (Inv : Z -> option strat -> (ascii -> option datetime) -> text -> Prop) e w p tl wl d v m reach : sp_freq p <> [] ->
  time_lines (sp_al p) (sp_th p) (sp_multi p) = Ok tl -> write_line (sp_al p) (sp_th p) = Ok wl ->
  (reach = last_position p w \/ reach = m + 1 /\ m + 1 <= last_position p w /\ tolerant p = false) ->
  (sp_al p = Vert \/ m = last_position p w) ->
  (forall q, sp_starts p <= q <= reach + 1 -> time_value e (sp_al p) w tl q = Ok (v q)) ->
  (forall q, sp_starts p <= q <= reach -> cell_ok (axis_row (sp_al p) wl q) (axis_col (sp_al p) wl q) = true) ->
  (forall q, m < q <= reach -> no_time p (v q)) ->
  Inv (sp_starts p) None (fun _ => None) [] ->
  (forall q, sp_starts p <= q <= m -> ~ no_time p (v q) /\
     forall st, cs_last st = before p q (d (q - 1)) -> Inv q (cs_parser st) (cs_lasts st) (cs_lf st) ->
       exists k lasts lf, process_value e p st (v q) (v (q + 1)) = (k, Ok (d q, lasts, lf)) /\ Inv (q + 1) k lasts lf) ->
  1 <= sp_starts p -> sp_starts p <= m <= reach -> sp_starts p < m - sp_ta p ->
  exists w', clean_time_index e w p = (w', Ok (m - sp_ta p)) /\
    (forall q, sp_starts p <= q <= m -> holds p w' q (VDate (d q))) /\
    (forall i j, (forall q, sp_starts p <= q <= m -> ~ index_cell p q i j) -> cell w' i j = cell w i j).
Proof.
  intros FN TL WL RL VM READS OK B I0 READ S1 MR L2. set (last := last_position p w) in *.
  assert (ML : m <= last) by lia.
  destruct (dates_walk_inv e p tl wl m reach w d v READS OK MR Inv) with (n := Z.to_nat (m + 1 - sp_starts p)) (pos := sp_starts p) (prev := @None Z) (st := init_state w)
    as (st & C0 & W & D1 & D2); auto; try lia.
  { intros q I. destruct (READ q I) as [NT _]. destruct (must_be_time _ (v q)) eqn:M; auto. apply no_time_iff in M. contradiction. }
  { intros q st I. apply (READ q I). }
  { unfold before. rewrite Z.eqb_refl. auto. }
  cbn [cs_ws init_state] in *.
  destruct (blanks_walk e p tl wl m reach w d v READS OK MR last RL B (Z.to_nat (last - m)) (m + 1) (Some m) st) as (w' & stop & W2 & ST & S2); try lia.
  { f_equal. lia. }
  { intros line q Q. rewrite D2 by lia. auto. }
  apply (walk_conclude e w p tl wl d m w' stop); auto; fold last; try lia.
  - destruct VM; [auto|right; lia].
  - rewrite (zrange_app (sp_starts p) m last) by lia. apply W. exact W2.
  - intros q Q. rewrite S2. apply D1. auto.
  - intros line q Q. rewrite S2. apply D2. lia.
  - intros q Q. apply (no_date_blank e p w tl wl q (v q)); [eapply lines_agree; eauto|apply READS; lia|apply B; lia].
Qed.
Lemma walk_lines e w p tl wl s d v m reach : sp_freq p <> [] ->
  time_lines (sp_al p) (sp_th p) (sp_multi p) = Ok tl -> write_line (sp_al p) (sp_th p) = Ok wl ->
  (reach = last_position p w \/ reach = m + 1 /\ m + 1 <= last_position p w /\ tolerant p = false) ->
  (sp_al p = Vert \/ m = last_position p w) ->
  (forall q, sp_starts p <= q <= reach + 1 -> time_value e (sp_al p) w tl q = Ok (v q)) ->
  (forall q, sp_starts p <= q <= reach -> cell_ok (axis_row (sp_al p) wl q) (axis_col (sp_al p) wl q) = true) ->
  (forall q, m < q <= reach -> no_time p (v q)) ->
  (forall q, sp_starts p <= q <= m -> ~ no_time p (v q) /\
     forall st, cs_last st = before p q (d (q - 1)) -> cs_parser st = before p q s ->
       process_value e p st (v q) (v (q + 1)) = (Some s, Ok (d q, cs_lasts st, cs_lf st))) ->
  1 <= sp_starts p -> sp_starts p <= m <= reach -> sp_starts p < m - sp_ta p ->
  exists w', clean_time_index e w p = (w', Ok (m - sp_ta p)) /\
    (forall q, sp_starts p <= q <= m -> holds p w' q (VDate (d q))) /\
    (forall i j, (forall q, sp_starts p <= q <= m -> ~ index_cell p q i j) -> cell w' i j = cell w i j).
Proof.
  intros FN TL WL RL VM READS OK B READ S1 MR L2.
  apply (walk_lines_inv (fun q k _ _ => k = before p q s) e w p tl wl d v m reach); auto.
  - unfold before. rewrite Z.eqb_refl. reflexivity.
  - intros q Q. destruct (READ q Q) as [NT R]. split; auto. intros st A C. exists (Some s), (cs_lasts st), (cs_lf st). split; [auto|].
    unfold before. replace (q + 1 =? sp_starts p) with false by lia. reflexivity.
Qed.
