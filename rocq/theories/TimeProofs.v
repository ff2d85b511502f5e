(** Proofs about the cleaning of a time index (C24 - C29). *)
From Coq Require Import Sorted.
From Verif Require Import Base BaseFacts Cal Coord CoordFacts Params ParseTime TimeIndex SpecCal CalFacts CalProofs SpecCoord SpecCoordFacts
  TimeFacts SpecTime ScrapeProofs2.
Local Open Scope Z_scope.

Lemma py_eq_str v t : py_eq v (VStr t) = true -> v = VStr t.
Proof. destruct v; cbn; try discriminate. intros H. apply text_eqb_eq in H. congruence. Qed.
Lemma explicit_ok p : explicit_marker p -> implicit p = false.
Proof. intros H. unfold implicit. destruct (py_eq _ _) eqn:E; auto. apply py_eq_str in E. contradiction. Qed.

(** ** from clean_time_index to the loop *)
Lemma write_line_header p wl : write_line (sp_al p) (sp_th p) = Ok wl ->
  exists t r c, index_header p t /\ cell_named t r c /\ wl = match sp_al p with Vert => c | Horiz => r end.
Proof.
  unfold write_line, coord_line. destruct (sp_th p) as [t|[|t ts]] eqn:E; [|discriminate|]; intros H;
    apply bind_ok in H as [[r c] [P H]]; exists t, r, c; (split; [econstructor; eauto|]); (split; [apply cell_named_iff; auto|]);
    destruct (sp_al p); inversion H; reflexivity.
Qed.
Lemma header_det p t t' : index_header p t -> index_header p t' -> t = t'.
Proof. intros [? E|? ? E] [? E'|? ? E']; rewrite E in E'; congruence. Qed.
Lemma named_det t r c r' c' : cell_named t r c -> cell_named t r' c' -> r = r' /\ c = c'.
Proof. rewrite !cell_named_iff. intros H H'. rewrite H in H'. inversion H'. auto. Qed.
Lemma index_cell_iff p wl pos r c : write_line (sp_al p) (sp_th p) = Ok wl ->
  (index_cell p pos r c <-> r = axis_row (sp_al p) wl pos /\ c = axis_col (sp_al p) wl pos).
Proof.
  intros W. destruct (write_line_header _ _ W) as (t & hr & hc & IH & CN & ->). unfold axis_row, axis_col. split.
  - intros [t' r' c' A I N|t' r' c' A I N]; rewrite A in *; rewrite <- (header_det _ _ _ IH I) in N;
      destruct (named_det _ _ _ _ _ CN N); subst; auto.
  - intros [-> ->]. destruct (sp_al p) eqn:A; econstructor; eauto.
Qed.
Lemma holds_iff p wl w pos v : write_line (sp_al p) (sp_th p) = Ok wl -> (holds p w pos v <-> axis_val (sp_al p) w wl pos = v).
Proof.
  intros W. unfold holds, axis_val. split.
  - intros (r & c & I & E). apply (index_cell_iff _ _ _ _ _ W) in I as [-> ->]. auto.
  - intros E. exists (axis_row (sp_al p) wl pos), (axis_col (sp_al p) wl pos). split; auto. apply (index_cell_iff _ _ _ _ _ W). auto.
Qed.
Lemma last_one_iff p w z : last_one p w z <-> z = last_position p w.
Proof.
  unfold last_position. split.
  - intros [z' E|E A|E A]; rewrite E; auto; unfold axis_max; rewrite A; auto.
  - intros ->. destruct (sp_ends p) eqn:E; [constructor; auto|]. unfold axis_max. destruct (sp_al p) eqn:A; [apply lo_rows|apply lo_cols]; auto.
Qed.

(** every frequency but the empty one reaches the loop *)
Lemma clean_split e w p w' r : clean_time_index e w p = (w', r) ->
  (w' = w /\ exists x, r = Err x) \/
  sp_starts p <= last_position p w /\ exists tl wl, time_lines (sp_al p) (sp_th p) (sp_multi p) = Ok tl /\ write_line (sp_al p) (sp_th p) = Ok wl /\
    clean_loop e p tl wl (zrange (sp_starts p) (last_position p w)) None (init_state w) = (w', r).
Proof.
  intros H. unfold clean_time_index in H. destruct (find _ combos) as [k|]; [|inversion H; eauto].
  destruct (k_multitable k); [inversion H; eauto|]. unfold clean_single_table in H.
  destruct (Z_le_gt_dec (sp_starts p) (last_position p w)) as [L|L].
  2:{ rewrite zrange_nil in H by lia. inversion H; eauto. }
  destruct (zrange (sp_starts p) (last_position p w)) as [|q l] eqn:Z; [rewrite zrange_cons in Z by lia; discriminate|].
  destruct (time_lines _ _ _) as [tl|x]; [|inversion H; eauto]. destruct (write_line _ _) as [wl|x]; [|inversion H; eauto].
  right. split; auto. exists tl, wl. auto.
Qed.
Lemma clean_walk e w p w' en : clean_time_index e w p = (w', Ok en) ->
  sp_starts p <= last_position p w /\ exists tl wl stop, time_lines (sp_al p) (sp_th p) (sp_multi p) = Ok tl /\ write_line (sp_al p) (sp_th p) = Ok wl /\
    reads_line tl wl /\
    walk e p tl wl None (zrange (sp_starts p) (last_position p w)) (init_state w) w' stop /\
    estimate_end (sp_al p) w' wl stop (sp_starts p) (sp_ta p) = Ok en.
Proof.
  intros H. destruct (clean_split _ _ _ _ _ H) as [[_ [x X]]|(L & tl & wl & TL & WL & C)]; [discriminate|]. split; auto.
  destruct (loop_walk _ _ _ _ _ _ _ _ _ C) as (stop & W & E). exists tl, wl, stop. split; auto. split; auto.
  split; [eapply lines_agree; eauto|]. auto.
Qed.

(** ** the end *)
Lemma walk_back_spec w line n : forall pos, let q := walk_back w line pos n in
  pos - Z.of_nat n <= q <= pos /\ (forall k, q < k <= pos -> is_date (axis_val Vert w line k) = false) /\
  (is_date (axis_val Vert w line q) = true \/ q = pos - Z.of_nat n).
Proof.
  induction n as [|n IH]; intros pos q; unfold q; cbn [walk_back]; destruct (is_date (axis_val Vert w line pos)) eqn:D; cbn zeta.
  - split; [lia|]. split; [intros; lia|]. auto.
  - split; [lia|]. split; [intros; lia|]. right. lia.
  - split; [lia|]. split; [intros; lia|]. auto.
  - destruct (IH (pos - 1)) as (A & B & C). split; [lia|]. split.
    + intros k K. destruct (Z.eq_dec k pos) as [->|]; auto. apply B. lia.
    + destruct C as [C|C]; auto. right. lia.
Qed.
Lemma is_date_ex v : is_date v = true -> exists d, v = VDate d.
Proof. destruct v; try discriminate. eauto. Qed.
Lemma estimate_spec al w wl stop start ta en : start <= stop -> estimate_end al w wl stop start ta = Ok en ->
  en <> 0 /\ start < en /\ start <= en + ta <= stop /\ (forall k d, en + ta < k <= stop -> axis_val al w wl k <> VDate d) /\
  ((exists d, axis_val al w wl (en + ta) = VDate d) \/ en + ta = start /\ ta < 0).
Proof.
  intros L H. unfold estimate_end in H. apply bind_ok in H as [q [Q H]]. apply bind_ok in H as [u [A H]].
  inversion H; subst en. destruct (negb (q - ta =? 0) && (start <? q - ta)) eqn:B; [|discriminate].
  split; [lia|]. split; [lia|]. replace (q - ta + ta) with q by lia. destruct al.
  - inversion Q as [Q']. destruct (walk_back_spec w wl (Z.to_nat (stop - start)) stop) as (S1 & S2 & S3). rewrite Q' in *.
    split; [lia|]. split. { intros k d K E. apply S2 in K. rewrite E in K. discriminate. }
    destruct S3 as [S3|S3]; [left; apply is_date_ex; auto|]. right. lia.
  - destruct (is_date _) eqn:D; [|discriminate]. inversion Q; subst q. split; [lia|]. split; [intros; lia|]. left. apply is_date_ex; auto.
Qed.

(** ** chains of corrected dates *)
Section Chain.
Variable p : sp.
Hypothesis EXP : implicit p = false.
Lemma corrected_later l d : real_date l -> corrected p (Some l) d -> earlier l d.
Proof.
  intros R (curr & RC & C & N). unfold correct_progression in C. apply bind_ok in C as [ex [I C]].
  assert (IE : earlier l ex) by (eapply increment_earlier; eauto; lia). specialize (N l eq_refl).
  destruct (dt_eqb ex curr) eqn:B; [apply dt_eqb_eq in B; inversion C; subst; auto|].
  destruct (dt_ltb curr l) eqn:B2; [destruct (time_value_typo curr ex); [inversion C; subst; auto|discriminate]|].
  destruct (dt_ltb l curr && negb (sp_missings p)) eqn:B3; [destruct (time_value_typo curr ex); [inversion C; subst; auto|discriminate]|].
  apply bind_ok in C as [mx [MX C]]. unfold implicit in EXP. rewrite EXP, andb_false_r in C. inversion C; subst d.
  apply ltb_false in B2 as [B2|B2]; auto. congruence.
Qed.
Lemma corrected_step l d : real_date l -> sp_missings p = false -> corrected p (Some l) d -> increment_time l 1 (sp_freq p) = Ok d.
Proof.
  intros R M (curr & RC & C & N). unfold correct_progression in C. apply bind_ok in C as [ex [I C]]. specialize (N l eq_refl).
  rewrite M in C. destruct (dt_eqb ex curr) eqn:B; [apply dt_eqb_eq in B; inversion C; subst; auto|].
  destruct (dt_ltb curr l) eqn:B2; [destruct (time_value_typo curr ex); [inversion C; subst; auto|discriminate]|].
  destruct (dt_ltb l curr) eqn:B3; cbn [andb negb] in C; [destruct (time_value_typo curr ex); [inversion C; subst; auto|discriminate]|].
  apply bind_ok in C as [mx [MX C]]. rewrite !andb_false_r in C. inversion C; subst d.
  apply ltb_false in B2 as [B2|B2]; [congruence|]. apply ltb_false in B3 as [B3|B3]; [congruence|].
  exfalso. exact (earlier_irrefl _ (earlier_trans _ _ _ B2 B3)).
Qed.
Lemma chain_later ds : forall l, real_date l -> Forall real_date ds -> chain p (Some l) ds -> Forall (earlier l) ds /\ StronglySorted earlier ds.
Proof.
  induction ds as [|d ds IH]; intros l R F C; [split; constructor|]. inversion C; subst. inversion F; subst.
  pose proof (corrected_later _ _ R H2) as E. destruct (IH d) as [A B]; auto. split; constructor; auto.
  eapply Forall_impl; [|exact A]. intros x X. eapply earlier_trans; eauto.
Qed.
Lemma chain_sorted ds : Forall real_date ds -> chain p None ds -> StronglySorted earlier ds.
Proof.
  intros F C. inversion C; subst; [constructor|]. inversion F; subst. destruct (chain_later ds0 d) as [A B]; auto. constructor; auto.
Qed.
End Chain.

Lemma sorted_pairs out : StronglySorted Z.lt (map fst out) -> StronglySorted earlier (map snd out) ->
  forall i a j b, In (i, a) out -> In (j, b) out -> i < j -> earlier a b.
Proof.
  induction out as [|[k c] out IH]; cbn [map fst snd]; intros S1 S2 i a j b I J L; [destruct I|].
  inversion S1; inversion S2; subst. rewrite Forall_forall in *.
  destruct I as [I|I], J as [J|J].
  - inversion I; inversion J; subst. lia.
  - inversion I; subst. apply H6. apply in_map_iff. exists (j, b). auto.
  - inversion J; subst. assert (j < i) by (apply H2; apply in_map_iff; exists (i, a); auto). lia.
  - eauto.
Qed.
Lemma last_of_some out : forall l d, last_of l out = Some d -> out <> [] -> exists q, In (q, d) out /\ forall q' d', In (q', d') out -> StronglySorted Z.lt (map fst out) -> q' <= q.
Proof.
  induction out as [|[k c] out IH]; intros l d H N; [congruence|]. unfold last_of in *. cbn [fold_left snd] in H.
  destruct out as [|x out].
  - cbn in H. inversion H; subst. exists k. split; [left; auto|]. intros q' d' [Q|[]] _. inversion Q. lia.
  - destruct (IH _ _ H ltac:(discriminate)) as (q & I & Q). exists q. split; [right; auto|]. intros q' d' [E|E] S.
    + inversion E; subst. inversion S; subst. rewrite Forall_forall in H3. specialize (H3 q). cbn [map] in H3.
      assert (q' < q) by (apply H3; change (In q (map fst (x :: out))); apply in_map_iff; exists (q, d); auto). lia.
    + apply (Q q' d'); auto. inversion S; auto.
Qed.

(** ** C24 *)
Lemma zrange_sorted a b : StronglySorted Z.lt (zrange a b).
Proof.
  destruct (Z_le_gt_dec a b) as [L|L]; [|rewrite zrange_nil by lia; constructor].
  remember (Z.to_nat (b + 1 - a)) as n eqn:E. revert a L E. induction n as [|n IH]; intros a L E; [lia|].
  rewrite zrange_cons by lia. constructor; [|apply Forall_forall; intros x I; apply zrange_In in I; lia].
  destruct (Z_le_gt_dec (a + 1) b) as [L'|L']; [apply IH; lia|rewrite zrange_nil by lia; constructor].
Qed.
Lemma init_lasts w : all_lasts (init_state w).
Proof. split; cbn; discriminate. Qed.

(** the dates found in the index when the cleaning succeeds *)
Lemma clean_trace e w p w' en : real_dates w -> clean_time_index e w p = (w', Ok en) ->
  sp_starts p <= last_position p w /\ exists tl wl stop out, write_line (sp_al p) (sp_th p) = Ok wl /\ time_lines (sp_al p) (sp_th p) (sp_multi p) = Ok tl /\
    walk e p tl wl None (zrange (sp_starts p) (last_position p w)) (init_state w) w' stop /\
    estimate_end (sp_al p) w' wl stop (sp_starts p) (sp_ta p) = Ok en /\
    sp_starts p <= stop <= last_position p w /\
    trace p wl None (zrange (sp_starts p) (last_position p w)) (init_state w) w' stop out.
Proof.
  intros R H. destruct (clean_walk _ _ _ _ _ H) as (L & tl & wl & stop & TL & WL & RL & W & E). split; auto.
  destruct (walk_spec e p tl wl _ _ _ _ _ (zrange_sorted _ _) W RL R (init_lasts w)) as (out & TR).
  exists tl, wl, stop, out. split; auto. split; auto. split; auto. split; auto. split; auto.
  destruct TR as (_ & _ & _ & [I|[Z _]] & _).
  - apply zrange_In in I. auto.
  - rewrite zrange_cons in Z by lia. discriminate.
Qed.

Lemma c24_increasing e w p w' en : real_dates w -> single_frequency p -> explicit_marker p ->
  clean_time_index e w p = (w', Ok en) ->
  forall i j a b, sp_starts p <= i -> i < j -> j <= en + sp_ta p -> holds p w' i (VDate a) -> holds p w' j (VDate b) ->
  earlier a b \/ (j = en + sp_ta p /\ holds p w j (VDate b) /\ sp_ends p = None /\
                  exists k, i <= k < j /\ holds p w' k (VDate b)).
Proof.
  intros R SF EX H i j a b L1 L2 L3 HA HB. apply explicit_ok in EX.
  destruct (clean_trace _ _ _ _ _ R H) as (L & tl & wl & stop & out & WL & TL & W & E & SB & T1 & T2 & T3 & T4 & T6).
  apply estimate_spec in E as (_ & E1 & E2 & _); [|lia].
  apply (holds_iff _ _ _ _ _ WL) in HA, HB. specialize (T1 SF). cbn [cs_last init_state] in *.
  assert (FR : Forall real_date (map snd out)).
  { apply Forall_forall. intros d I. apply in_map_iff in I as [[q d'] [<- I]]. apply T3 in I. tauto. }
  pose proof (chain_sorted p EX _ FR T1) as SS.
  assert (IA : In (i, a) out).
  { destruct (T6 i a) as [I|(I & _)]; auto; [apply zrange_In; lia|lia|]. lia. }
  destruct (T6 j b) as [I|(I & IE & IV & IL)]; auto; [apply zrange_In; lia|lia| |].
  - left. eapply sorted_pairs; eauto.
  - destruct (IL EX) as [_ LO]. assert (ON : out <> []) by (intros ->; destruct IA).
    destruct (last_of_some _ _ _ LO ON) as (k & IK & MK).
    destruct (Z.eq_dec k j) as [->|NK]; [left; eapply sorted_pairs; eauto|].
    pose proof (T3 _ _ IK) as (Z1 & Z2 & Z3 & Z4).
    right. split; [lia|]. split; [apply (holds_iff _ _ _ _ _ WL); exact IV|]. split; auto.
    exists k. split; [split; [eapply MK; eauto|lia]|]. apply (holds_iff _ _ _ _ _ WL). auto.
Qed.

(** ** C25 *)
Lemma chain_adjacent p out : forall l, chain p l (map snd out) -> StronglySorted Z.lt (map fst out) ->
  forall i a j b, In (i, a) out -> In (j, b) out -> i < j -> (forall k c, In (k, c) out -> ~ i < k < j) -> corrected p (Some a) b.
Proof.
  induction out as [|[k c] out IH]; cbn [map fst snd]; intros l C S i a j b I J L N; [destruct I|].
  inversion C as [|? ? ? CO CC]; subst. apply StronglySorted_inv in S as [S1 F1]. rewrite Forall_forall in F1.
  destruct I as [I|I].
  - inversion I; subst. destruct J as [J|J]; [inversion J; lia|]. destruct out as [|[k c] out]; [destruct J|].
    cbn [map fst snd] in *. inversion CC as [|? ? ? CO2 CC2]; subst. apply StronglySorted_inv in S1 as [S2 F2]. rewrite Forall_forall in F2.
    destruct J as [J|J]; [inversion J; subst; auto|]. exfalso. apply (N k c); [right; left; auto|].
    split; [apply F1; left; auto|]. apply F2. apply in_map_iff. exists (j, b). auto.
  - destruct J as [J|J].
    + inversion J; subst. assert (j < i) by (apply F1; apply in_map_iff; exists (i, a); auto). lia.
    + apply (IH (Some c)) with (i := i) (j := j); auto. intros k' c' K. apply (N k' c'). right. auto.
Qed.
Lemma step_period f l d : periodic f -> real_date l -> increment_time l 1 (T f) = Ok d -> one_period f l d.
Proof.
  intros P R H. destruct P as [<-|[<-|[<-|[<-|[<-|[]]]]]].
  - apply (days_iff "D" 1 l 1) in H as [H _]; auto. eapply op_days; [reflexivity|]. exact H.
  - apply (days_iff "W" 7 l 1) in H as [H _]; auto. eapply op_days; [reflexivity|]. exact H.
  - apply (months_iff "M" 1 l 1) in H as [H _]; auto. eapply op_months; [reflexivity|]. exact H.
  - apply (months_iff "Q" 3 l 1) in H as [H _]; auto. eapply op_months; [reflexivity|]. exact H.
  - apply (months_iff "A" 12 l 1) in H as [H _]; auto. eapply op_months; [reflexivity|]. exact H.
Qed.
Lemma periodic_single p f : periodic f -> sp_freq p = T f -> single_frequency p.
Proof. unfold single_frequency. intros P ->. destruct P as [<-|[<-|[<-|[<-|[<-|[]]]]]]; reflexivity. Qed.
Lemma c25_gapless e w p w' en f : real_dates w -> sp_freq p = T f -> periodic f -> explicit_marker p -> sp_missings p = false ->
  clean_time_index e w p = (w', Ok en) ->
  forall i j a b, sp_starts p <= i -> i < j -> j <= en + sp_ta p -> holds p w' i (VDate a) -> holds p w' j (VDate b) ->
  (forall k, i < k < j -> ~ holds_date p w' k) ->
  one_period f a b \/ (j = en + sp_ta p /\ sp_ends p = None /\ holds p w j (VDate b) /\ a = b).
Proof.
  intros R FQ PF EX MS H i j a b L1 L2 L3 HA HB NK. pose proof (periodic_single _ _ PF FQ) as SF. apply explicit_ok in EX.
  destruct (clean_trace _ _ _ _ _ R H) as (L & tl & wl & stop & out & WL & TL & W & E & SB & T1 & T2 & T3 & T4 & T6).
  apply estimate_spec in E as (_ & E1 & E2 & _); [|lia].
  apply (holds_iff _ _ _ _ _ WL) in HA, HB. specialize (T1 SF). cbn [cs_last init_state] in *.
  assert (NO : forall k c, In (k, c) out -> ~ i < k < j).
  { intros k c I K. apply (NK k K). exists c. apply (holds_iff _ _ _ _ _ WL). apply T3 in I. tauto. }
  assert (IA : In (i, a) out).
  { destruct (T6 i a) as [I|(I & _)]; auto; [apply zrange_In; lia|lia|]. lia. }
  assert (RA : real_date a) by (apply T3 in IA; tauto).
  assert (STEP : In (j, b) out -> one_period f a b).
  { intros I. pose proof (chain_adjacent p out _ T1 T2 i a j b IA I L2 NO) as C.
    apply corrected_step in C; auto. rewrite FQ in C. apply step_period; auto. }
  destruct (T6 j b) as [I|(I & IE & IV & IL)]; auto; [apply zrange_In; lia|lia|].
  destruct (IL EX) as [_ LO]. assert (ON : out <> []) by (intros ->; destruct IA).
  destruct (last_of_some _ _ _ LO ON) as (k & IK & MK).
  pose proof (T3 _ _ IK) as (Z1 & Z2 & Z3 & Z4).
  assert (i <= k) by (eapply MK; eauto). assert (~ i < k < j) by eauto.
  destruct (Z.eq_dec k j) as [->|]; [auto|]. right. split; [lia|]. split; auto.
  split; [apply (holds_iff _ _ _ _ _ WL); exact IV|]. assert (k = i) by lia. subst k. rewrite HA in Z3. congruence.
Qed.

(** ** C27 *)
Lemma c27_frame e w p w' r : clean_time_index e w p = (w', r) ->
  forall i j, (forall pos, sp_starts p <= pos <= last_position p w -> ~ index_cell p pos i j) -> cell w' i j = cell w i j.
Proof.
  intros H i j N. destruct (clean_split _ _ _ _ _ H) as [[-> _]|(L & tl & wl & TL & WL & C)]; auto.
  rewrite (loop_frame e p tl wl _ _ _ _ _ C i j); auto. intros q I E. apply zrange_In in I.
  apply (N q I). apply (index_cell_iff _ _ _ _ _ WL). inversion E. auto.
Qed.
Lemma c27_outside e w p w' r last : clean_time_index e w p = (w', r) -> last_one p w last ->
  forall i j, (forall pos, sp_starts p <= pos <= last -> ~ index_cell p pos i j) -> cell w' i j = cell w i j.
Proof. intros H L. apply last_one_iff in L. subst. eapply c27_frame; eauto. Qed.
(** what is changed becomes a date or an empty cell *)
Lemma loop_values e p tl wl positions : forall prev st w' r, StronglySorted Z.lt positions -> clean_loop e p tl wl positions prev st = (w', r) ->
  forall i j, cell w' i j = cell (cs_ws st) i j \/ cell w' i j = VNone \/ exists d, cell w' i j = VDate d.
Proof.
  induction positions as [|pos rest IH]; intros prev st w' r SS H i j; cbn [clean_loop] in H.
  - destruct prev; inversion H; auto.
  - assert (SR : StronglySorted Z.lt rest) by (inversion SS; auto).
    destruct (do c <- _; _) as [[curr next]|x]; [|inversion H; auto].
    set (w1 := axis_touch _ wl pos _) in H.
    assert (C1 : cell w1 i j = cell (cs_ws st) i j) by (unfold w1, axis_touch; rewrite cell_touch, !cell_touch_time; auto).
    assert (WR : forall v, cell (axis_write (sp_al p) wl pos v w1) i j = cell (cs_ws st) i j \/ cell (axis_write (sp_al p) wl pos v w1) i j = v).
    { intros v. unfold axis_write, write. cbn [cell]. destruct ((i =? _) && (j =? _)); auto. }
    destruct (must_be_time _ curr).
    + destruct (process_value _ _ _ _ _) as [sticky [[[d lasts] lf]|x]].
      * destruct (IH _ _ _ _ SR H i j) as [Q|Q]; auto. rewrite Q. cbn [cs_ws]. destruct (WR (VDate d)) as [-> | ->]; eauto.
      * destruct (_ || _).
        -- destruct (IH _ _ _ _ SR H i j) as [Q|Q]; auto. rewrite Q. cbn [cs_ws]. destruct (WR VNone) as [-> | ->]; eauto.
        -- destruct (_ && _); inversion H; subst; auto.
    + destruct (_ && _).
      * destruct (IH _ _ _ _ SR H i j) as [Q|Q]; auto. rewrite Q. auto.
      * inversion H; subst. auto.
Qed.
Lemma c27_values e w p w' r : clean_time_index e w p = (w', r) ->
  forall i j, cell w' i j = cell w i j \/ cell w' i j = VNone \/ exists d, cell w' i j = VDate d.
Proof.
  intros H i j. destruct (clean_split _ _ _ _ _ H) as [[-> _]|(L & tl & wl & TL & WL & C)]; auto.
  exact (loop_values _ _ _ _ _ _ _ _ _ (zrange_sorted _ _) C i j).
Qed.

(** ** C28, C29 *)
Lemma white_space c : white c <-> is_space c = true.
Proof.
  assert (E : is_space c = existsb (Nat.eqb (nat_of_ascii c)) [9; 10; 11; 12; 13; 28; 29; 30; 31; 32]%nat)
    by (destruct c as [[] [] [] [] [] [] [] []]; vm_compute; reflexivity).
  rewrite E, existsb_exists. unfold white. split.
  - intros H. exists (nat_of_ascii c). rewrite Nat.eqb_refl. auto.
  - intros (x & I & Q). apply Nat.eqb_eq in Q. congruence.
Qed.
Lemma drop_all t : forallb is_space t = true -> drop_while is_space t = [].
Proof. induction t as [|c t IH]; cbn; auto. destruct (is_space c); [auto|discriminate]. Qed.
Lemma drop_some t c : In c t -> is_space c = false -> drop_while is_space t <> [] /\ In c (drop_while is_space t).
Proof.
  induction t as [|x t IH]; intros I N; [destruct I|]. cbn [drop_while]. destruct (is_space x) eqn:X.
  - destruct I as [->|I]; [congruence|auto].
  - split; [discriminate|auto].
Qed.
Lemma strip_blank t : Nat.ltb 0 (List.length (strip t)) = false <-> Forall white t.
Proof.
  split.
  - intros H. apply Forall_forall. intros c I. apply white_space. destruct (is_space c) eqn:S; auto.
    exfalso. unfold strip in H. destruct (drop_some t c I S) as [_ I1].
    apply in_rev in I1. destruct (drop_some _ c I1 S) as [N2 _].
    rewrite rev_length in H. destruct (drop_while is_space (rev (drop_while is_space t))); [congruence|discriminate].
  - intros H. unfold strip. rewrite (drop_all t); auto. apply forallb_forall. intros c I. rewrite Forall_forall in H.
    apply white_space. auto.
Qed.
Lemma no_time_iff p v : must_be_time (negb (sp_ta p =? 0)) v = false <-> no_time p v.
Proof.
  unfold must_be_time, must_be_time_value. split.
  - destruct v; cbn [is_float andb negb]; rewrite ?andb_false_r; cbn [negb andb]; rewrite ?andb_true_r; try discriminate; intros H.
    + constructor.
    + apply nt_float. destruct (sp_ta p =? 0) eqn:E; [discriminate|lia].
    + apply nt_white, strip_blank. auto.
  - intros [|t H|f H]; auto.
    + apply strip_blank in H. rewrite H. auto.
    + cbn. destruct (sp_ta p =? 0) eqn:E; [lia|auto].
Qed.
Lemma c29_all e w p w' en last : real_dates w -> one_line p -> clean_time_index e w p = (w', Ok en) -> last_one p w last ->
  exists stop, sp_starts p <= stop <= last /\ read_until p w w' stop /\
    (forall q, en + sp_ta p < q <= stop -> ~ holds_date p w' q) /\ en + sp_ta p <= stop /\
    (stop < last -> sp_ends p = None \/ blank_at p w stop) /\
    (tolerates_blanks p -> forall a, sp_starts p <= a -> a + 40 <= last -> (forall q, a <= q <= a + 40 -> blank_at p w q) -> stop <= a + 40) /\
    (~ tolerates_blanks p -> forall q, sp_starts p <= q <= last -> blank_at p w q -> stop <= q) /\
    (tolerates_blanks p -> stop < last -> blank_at p w stop -> sp_starts p <= stop - 40 /\ forall q, stop - 40 <= q <= stop -> blank_at p w q).
Proof.
  intros R OL H LO. apply last_one_iff in LO. subst last.
  destruct (clean_walk _ _ _ _ _ H) as (L & tl & wl & stop & TL & WL & RL & W & E).
  unfold one_line in OL. assert (TL' : tl = OneLine wl).
  { rewrite OL in TL. unfold time_lines in TL. destruct (sp_th p); [|discriminate]. apply bind_ok in TL as [l [Q TL]]. inversion TL; subst.
    cbn in RL. congruence. }
  assert (BL : forall q, blank_at p w q <-> no_time p (axis_val (sp_al p) w wl q)).
  { intros q. unfold blank_at. split.
    - intros (v & HV & N). apply (holds_iff _ _ _ _ _ WL) in HV. congruence.
    - intros N. eexists. split; [|exact N]. apply (holds_iff _ _ _ _ _ WL). auto. }
  assert (NZ : zrange (sp_starts p) (last_position p w) <> []) by (rewrite zrange_cons by lia; discriminate).
  destruct (walk_runs e p tl wl (fun q => sp_starts p <= q /\ blank_at p w q) (last_position p w) _ _ _ _ _ W (sp_starts p) eq_refl) as (I1 & I1b & I2 & I3 & I4 & I5 & I6 & I7).
  { cbn. unfold NO_TIME_VALUE_LIMIT. lia. }
  { intros q v I TV. subst tl. cbn [time_value cs_ws init_state] in TV. apply axis_read_ok in TV. subst v. rewrite no_time_iff, <- BL. apply zrange_In in I. intuition lia. }
  { cbn. intros. lia. }
  cbn [cs_ws init_state cs_count] in *. unfold NO_TIME_VALUE_LIMIT in *.
  specialize (I5 NZ). apply estimate_spec in E as (_ & E1 & E2 & E3 & _); [|lia].
  assert (TOL : tolerates_blanks p <-> tolerant p = true).
  { unfold tolerates_blanks, tolerant. destruct (sp_cont p), (sp_blank p); cbn; intuition congruence. }
  assert (DEC : forall q, blank_at p w q \/ ~ blank_at p w q).
  { intros q. rewrite BL, <- no_time_iff. destruct (must_be_time _ _); [right; discriminate|left; auto]. }
  exists stop. split; [auto|]. split; [|split; [|split; [lia|split; [|split; [|split]]]]].
  - split.
    + intros q Q. destruct (DEC q) as [B|B]; auto. right.
      destruct (I1 q) as [V|[d V]]; [apply zrange_In; lia|lia|tauto| |].
      * right. apply (holds_iff _ _ _ _ _ WL). auto.
      * left. exists d. apply (holds_iff _ _ _ _ _ WL). auto.
    + intros q v Q B HV. apply (holds_iff _ _ _ _ _ WL). apply (holds_iff _ _ _ _ _ WL) in HV. rewrite <- HV.
      destruct (Z_le_gt_dec q (last_position p w)) as [LQ|LQ].
      * apply I1b; [apply zrange_In; lia|tauto].
      * apply (walk_val _ _ _ _ _ _ _ _ _ q W). intros I. apply zrange_In in I. lia.
  - intros q Q [d D]. apply (holds_iff _ _ _ _ _ WL) in D. exact (E3 q d Q D).
  - intros SL. destruct (DEC stop) as [|NB]; auto. left. apply I6; auto. tauto.
  - intros T a A1 A2 A3. apply I4; auto. intros k K. split; [lia|]. apply A3. lia.
  - intros T q Q B. apply I2; [|apply zrange_In; auto|split; [lia|auto]]. destruct (tolerant p) eqn:TT; auto. exfalso. apply T, TOL. auto.
  - intros T SL B. assert (I8 : forall k, 0 <= k <= 40 -> sp_starts p <= stop - k /\ blank_at p w (stop - k)).
    { apply I7; auto; [split; [lia|auto]|apply TOL; auto]. }
    split; [apply I8; lia|]. intros q Q. replace q with (stop - (stop - q)) by lia. apply I8. lia.
Qed.
