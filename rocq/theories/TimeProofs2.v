(** Proofs about time indexes that already hold dates (C26, C29), and the end of
    the index in general (C28). *)
From Coq Require Import Sorted.
From Verif Require Import Base BaseFacts Cal Coord CoordFacts Params ParseTime TimeIndex SpecCal CalFacts CalProofs SpecCoord SpecCoordFacts
  TimeFacts SpecTime ScrapeProofs2 TimeProofs.
Local Open Scope Z_scope.

Lemma c28_end e w p w' en last : real_dates w -> clean_time_index e w p = (w', Ok en) -> last_one p w last ->
  sp_starts p < en /\ (0 <= sp_ta p -> holds_date p w' (en + sp_ta p)) /\
  exists stop, en + sp_ta p <= stop <= last /\
    (forall q, en + sp_ta p < q <= stop -> ~ holds_date p w' q) /\
    (forall q v, stop < q -> holds p w q v -> holds p w' q v).
Proof.
  intros R H LO. apply last_one_iff in LO. subst last.
  destruct (clean_walk _ _ _ _ _ H) as (L & tl & wl & stop & TL & WL & RL & W & E).
  set (B := fun q => exists v, time_value e (sp_al p) w tl q = Ok v /\ must_be_time (negb (sp_ta p =? 0)) v = false).
  assert (NZ : zrange (sp_starts p) (last_position p w) <> []) by (rewrite zrange_cons by lia; discriminate).
  destruct (walk_runs e p tl wl B (last_position p w) _ _ _ _ _ W (sp_starts p) eq_refl) as (I1 & I1b & I2 & I3 & I4 & I5 & I6 & I7).
  { cbn. unfold NO_TIME_VALUE_LIMIT. lia. }
  { intros q v I TV. cbn [cs_ws init_state] in TV. unfold B. split; [eauto|]. intros (v' & T' & M). congruence. }
  { cbn. intros. lia. }
  cbn [cs_ws init_state cs_count] in *. specialize (I5 NZ). apply estimate_spec in E as (_ & E1 & E2 & E3 & E4); [|lia].
  split; auto. split.
  { intros TA. destruct E4 as [[d D]|E4]; [|lia]. exists d. apply (holds_iff _ _ _ _ _ WL). auto. }
  exists stop. split; [lia|]. split.
  - intros q Q [d D]. apply (holds_iff _ _ _ _ _ WL) in D. exact (E3 q d Q D).
  - intros q v Q HV. apply (holds_iff _ _ _ _ _ WL). apply (holds_iff _ _ _ _ _ WL) in HV. rewrite <- HV.
    destruct (Z_le_gt_dec q (last_position p w)) as [LQ|LQ].
    + apply I1b; [apply zrange_In; lia|tauto].
    + apply (walk_val _ _ _ _ _ _ _ _ _ q W). intros I. apply zrange_In in I. lia.
Qed.

(** ** increments before year 9999 do not overflow *)
Lemma ord_9998 t : real_date t -> dt_y t < 9999 -> dt_ord t <= 3652059 - 365.
Proof.
  intros R Y. pose proof (real_day_ok _ R) as K. destruct R as [YR _].
  assert (K2 : day_ok 9998 12 31) by (split; cbn; lia).
  change (3652059 - 365) with (ymd2ord 9998 12 31). unfold dt_ord.
  destruct (Z_le_gt_dec (ymd2ord (dt_y t) (dt_m t) (dt_d t)) (ymd2ord 9998 12 31)) as [|G]; auto.
  assert (LT : ymd2ord 9998 12 31 < ymd2ord (dt_y t) (dt_m t) (dt_d t)) by lia.
  apply ord_lt in LT; auto. destruct K as [M D]. destruct LT as [LT|[L1 [LT|[L2 LT]]]]; try lia.
  rewrite <- L1, <- L2 in D. cbn in D. lia.
Qed.
Lemma increment_ok t n f : real_date t -> dt_y t < 9999 -> frequency_letter f -> 1 <= n -> n <= max_forth_units (T f) ->
  exists t', increment_time t n (T f) = Ok t'.
Proof.
  intros R Y F N1 N2. pose proof (ord_9998 t R Y) as O. pose proof (secs_lo t R) as LO. pose proof R as (YR & S & _).
  pose proof (real_day_ok _ R) as [M _].
  assert (SEC : forall k, 0 <= k <= 140 * 86400 -> exists t', add_seconds t k = Ok t').
  { intros k K. apply add_seconds_total; auto; [lia|]. unfold dt_secs. lia. }
  assert (MON : forall k, 0 <= k <= 12 -> exists t', add_months t k = Ok t').
  { intros k K. unfold add_months. replace ((1 <=? _) && _) with true; eauto. symmetry. apply andb_true_intro. split; divs. }
  unfold increment_time. destruct F as [<-|[<-|[<-|[<-|[<-|[<-|[]]]]]]]; cbn in N2 |- *; first [apply SEC; lia|apply MON; lia].
Qed.

Lemma pool_keeps e tp st d l n : tp_composed tp = false -> exists k, parse_with_pool e tp st (VDate d) l n = (k, Ok d).
Proof.
  intros C. destruct (parse_with_pool e tp st (VDate d) l n) as [k r] eqn:E. exists k. f_equal.
  unfold parse_with_pool in E. destruct st as [s|].
  - replace (parse_time e tp s (VDate d) l n) with (@Ok datetime d) in E by (destruct s; reflexivity). inversion E. auto.
  - cbn [pool_loop strategies accepts] in E. rewrite C in E. inversion E. reflexivity.
Qed.
Lemma keeps_date l d f m mv : real_date d -> (forall x, l = Some x -> real_date x /\ earlier x d) ->
  py_eq mv (str_ "Implicit") = false \/ m = false ->
  (m = true \/ forall x, l = Some x -> increment_time x 1 f = Ok d) ->
  correct_progression l d f m mv = Ok d \/ exists x, correct_progression l d f m mv = Err x /\ (ends_index x = false /\ x <> EDay /\ x <> EMonth) /\
    exists l0 n, l = Some l0 /\ 1 <= n <= max_forth_units f /\ increment_time l0 n f = Err x.
Proof.
  intros RD LL EX MM. assert (MF : 1 <= max_forth_units f).
  { unfold max_forth_units. repeat match goal with |- context [if ?b then _ else _] => destruct b end; lia. } unfold correct_progression. destruct l as [l|]; [|auto]. destruct (LL l eq_refl) as [RL LE].
  assert (IE : forall n x, increment_time l n f = Err x -> ends_index x = false /\ x <> EDay /\ x <> EMonth).
  { intros n x I. unfold increment_time, add_seconds, add_months in I.
    repeat match type of I with
    | Err _ = Err _ => inversion I; subst; repeat split; discriminate
    | context [match ?y with _ => _ end] => destruct y
    end; try discriminate. }
  destruct (increment_time l 1 f) as [ex|x] eqn:I; cbn [bind]; [|right; eexists; split; [reflexivity|]; split; [eauto|]; eexists; eexists; split; [reflexivity|]; split; [|eassumption]; lia].
  destruct (dt_eqb ex d) eqn:B; [auto|].
  destruct (dt_ltb d l) eqn:B2; [apply ltb_earlier in B2; destruct (earlier_irrefl _ (earlier_trans _ _ _ B2 LE))|].
  destruct MM as [->|MM].
  - cbn [negb]. rewrite andb_false_r. destruct (increment_time l (max_forth_units f) f) as [mx|x] eqn:I2; cbn [bind]; [|right; eexists; split; [reflexivity|]; split; [eauto|]; eexists; eexists; split; [reflexivity|]; split; [|eassumption]; lia].
    destruct EX as [EX|EX]; [|discriminate]. rewrite EX, andb_false_r. auto.
  - specialize (MM l eq_refl). assert (ex = d) by congruence. subst. rewrite dt_eqb_refl in B. discriminate.
Qed.

Section Keep.
Variables (e : env) (p : sp) (wl : Z) (f : string).
Hypothesis NC : sp_composed p = false.
Hypothesis FQ : sp_freq p = T f.
Hypothesis FL : frequency_letter f.
Hypothesis EX : implicit p = false \/ sp_missings p = false.
Let val (w : worksheet) (q : Z) : pyval := axis_val (sp_al p) w wl q.
Let tl := OneLine wl.

Lemma letter_single : Nat.eqb (List.length (sp_freq p)) 1 = true.
Proof. rewrite FQ. destruct FL as [<-|[<-|[<-|[<-|[<-|[<-|[]]]]]]]; reflexivity. Qed.

Definition good_from (l : option datetime) (w : worksheet) (positions : list Z) : Prop :=
  (forall q, In q positions -> no_time p (val w q) \/ exists d, val w q = VDate d /\ real_date d) /\
  (forall q d, In q positions -> val w q = VDate d -> forall x, l = Some x -> real_date x /\ earlier x d) /\
  (sp_missings p = true \/ forall q d, In q positions -> val w q = VDate d ->
     (forall k c, In k positions -> k < q -> val w k <> VDate c) -> forall x, l = Some x -> increment_time x 1 (sp_freq p) = Ok d) /\
  (forall i j a b, In i positions -> In j positions -> i < j -> val w i = VDate a -> val w j = VDate b -> earlier a b) /\
  (sp_missings p = true \/ forall i j a b, In i positions -> In j positions -> i < j -> val w i = VDate a -> val w j = VDate b ->
     (forall k c, In k positions -> i < k < j -> val w k <> VDate c) -> increment_time a 1 (sp_freq p) = Ok b).

Lemma process_date st d next : real_date d -> (forall x, cs_last st = Some x -> real_date x /\ earlier x d) ->
  (sp_missings p = true \/ forall x, cs_last st = Some x -> increment_time x 1 (sp_freq p) = Ok d) ->
  exists k, process_value e p st (VDate d) next = (k, Ok (d, cs_lasts st, cs_lf st)) \/
    exists x, process_value e p st (VDate d) next = (k, Err x) /\ (ends_index x = false /\ x <> EDay /\ x <> EMonth) /\
      exists l n, cs_last st = Some l /\ 1 <= n <= max_forth_units (sp_freq p) /\ increment_time l n (sp_freq p) = Err x.
Proof.
  intros RD L1 L2. unfold process_value. cbn zeta.
  destruct (pool_keeps e {| tp_composed := sp_composed p; tp_freq := sp_freq p |} (cs_parser st) d (cs_last st) next NC) as [k K].
  rewrite K. exists k. cbn [bind]. unfold correct_state. rewrite letter_single.
  destruct (keeps_date (cs_last st) d (sp_freq p) (sp_missings p) (sp_mv p) RD L1) as [C|(x & C & X)]; auto.
  - left. rewrite C. cbn [bind fst]. unfold same_as_last. destruct (cs_last st) as [l|] eqn:LL; [|reflexivity].
    destruct (dt_eqb d l) eqn:B; auto. apply dt_eqb_eq in B. subst. destruct (L1 l eq_refl) as [_ Q]. destruct (earlier_irrefl _ Q).
  - right. exists x. rewrite C. auto.
Qed.

Lemma good_rest l w pos rest w1 : StronglySorted Z.lt (pos :: rest) -> good_from l w (pos :: rest) -> (forall q, In q rest -> val w1 q = val w q) ->
  (no_time p (val w pos) -> good_from l w1 rest) /\ (forall d, val w pos = VDate d -> real_date d -> good_from (Some d) w1 rest).
Proof.
  intros SS (G1 & G2 & G3 & G4 & G5) V. apply StronglySorted_inv in SS as [SR F]. rewrite Forall_forall in F.
  assert (K1 : forall q, In q rest -> no_time p (val w1 q) \/ exists d, val w1 q = VDate d /\ real_date d).
  { intros q I. rewrite V by auto. apply G1. right. auto. }
  assert (K4 : forall i j a b, In i rest -> In j rest -> i < j -> val w1 i = VDate a -> val w1 j = VDate b -> earlier a b).
  { intros i j a b I J L. rewrite !V by auto. apply G4; auto; right; auto. }
  assert (K5 : sp_missings p = true \/ forall i j a b, In i rest -> In j rest -> i < j -> val w1 i = VDate a -> val w1 j = VDate b ->
     (forall k c, In k rest -> i < k < j -> val w1 k <> VDate c) -> increment_time a 1 (sp_freq p) = Ok b).
  { destruct G5 as [G5|G5]; auto. right. intros i j a b I J L. rewrite !V by auto. intros A B N. apply (G5 i j); auto; try (right; auto).
    intros k c [<-|K] KK; [specialize (F i I); lia|]. rewrite <- V by auto. apply N; auto. }
  split.
  - intros B. split; [auto|]. split; [intros q d I; rewrite V by auto; apply G2; right; auto|]. split; [|split; auto].
    destruct G3 as [G3|G3]; auto. right. intros q d I. rewrite V by auto. intros D N. apply (G3 q); auto; [right; auto|].
    intros k c [<-|K] KQ E.
    + rewrite E in B. inversion B.
    + rewrite <- V in E by auto. exact (N k c K KQ E).
  - intros d D RD. split; [auto|]. split; [|split; [|split; auto]].
    + intros q b I. rewrite V by auto. intros B x Q. inversion Q; subst. split; auto. apply (G4 pos q); auto; [left; auto|right; auto].
    + destruct G5 as [G5|G5]; auto. right. intros q b I. rewrite V by auto. intros B N x Q. inversion Q; subst.
      apply (G5 pos q); auto; [left; auto|right; auto|]. intros k c [<-|K] KK; [lia|]. rewrite <- V by auto. apply N; auto. lia.
Qed.

(** whatever follows, the dates at the beginning stay *)
Lemma loop_keeps rest : forall positions prev st w' r, StronglySorted Z.lt (positions ++ rest) ->
  clean_loop e p tl wl (positions ++ rest) prev st = (w', r) -> good_from (cs_last st) (cs_ws st) positions ->
  forall q, In q positions -> val w' q = val (cs_ws st) q.
Proof.
  induction positions as [|pos pre IH]; intros prev st w' r SS H G q I; [destruct I|].
  cbn [app] in SS, H. pose proof (StronglySorted_inv SS) as [SR F]. rewrite Forall_forall in F.
  assert (SP : StronglySorted Z.lt (pos :: pre)).
  { clear -SS. change (pos :: pre ++ rest) with ((pos :: pre) ++ rest) in SS. revert SS. generalize (pos :: pre).
    intros l. induction l as [|x l IH]; intros S; [constructor|]. cbn in S. apply StronglySorted_inv in S as [S1 F]. constructor; auto.
    rewrite Forall_forall in *. intros y Y. apply F. apply in_or_app. auto. }
  assert (NP : ~ In pos (pre ++ rest)) by (intros J; specialize (F pos J); lia).
  cbn [clean_loop] in H. destruct (time_value e (sp_al p) (cs_ws st) tl pos) as [curr|x] eqn:TV; cbn [bind] in H; [|inversion H; auto].
  destruct (time_value e (sp_al p) (cs_ws st) tl (pos + 1)) as [next|x]; cbn [bind] in H; [|inversion H; auto].
  destruct (axis_read (sp_al p) (cs_ws st) wl pos) as [cv|x]; cbn [bind] in H; [|inversion H; auto].
  fold (touched p tl wl (cs_ws st) pos) in H. fold (at_touched p tl wl st pos) in H.
  cbn [time_value tl] in TV. apply axis_read_ok in TV. subst curr.
  assert (DONE : forall w2, (forall i j, cell w2 i j = cell (cs_ws st) i j) -> val w2 q = val (cs_ws st) q) by (intros w2 C; apply C).
  destruct (proj1 G pos (or_introl eq_refl)) as [B|(d & D & RD)].
  - fold (val (cs_ws st) pos) in H. rewrite (proj2 (no_time_iff p _) B) in H.
    destruct (_ && _).
    + destruct (good_rest _ _ _ _ (touched p tl wl (cs_ws st) pos) SP G) as [GR _]; [intros; apply cell_touched|].
      destruct I as [<-|I].
      * unfold val. rewrite (loop_val e p tl wl _ _ _ _ _ pos H NP). cbn [cs_ws]. apply cell_touched.
      * rewrite (IH _ _ _ _ SR H (GR B) q I). cbn [cs_ws]. apply cell_touched.
    + inversion H; subst. apply DONE. intros. apply cell_touched.
  - fold (val (cs_ws st) pos) in H. rewrite D in H. rewrite date_must in H.
    destruct (process_date (at_touched p tl wl st pos) d next RD) as [k [K|(x & K & (X1 & X2 & X3) & XL)]].
    + cbn [at_touched cs_last]. intros x Q. apply (proj1 (proj2 G) pos d); auto. left. auto.
    + destruct (proj1 (proj2 (proj2 G))) as [M|M]; auto. right. cbn [at_touched cs_last]. apply (M pos d); auto; [left; auto|].
      intros k c [<-|KK] L; [lia|]. apply StronglySorted_inv in SP as [_ F']. rewrite Forall_forall in F'. specialize (F' k KK). lia.
    + rewrite K in H.
      assert (VV : forall q', val (axis_write (sp_al p) wl pos (VDate d) (touched p tl wl (cs_ws st) pos)) q' = val (cs_ws st) q').
      { intros q'. unfold val. rewrite axis_val_write. destruct (q' =? pos) eqn:E; [apply Z.eqb_eq in E; subst; auto|apply cell_touched]. }
      destruct (good_rest _ _ _ _ (axis_write (sp_al p) wl pos (VDate d) (touched p tl wl (cs_ws st) pos)) SP G) as [_ GR]; [intros; apply VV|].
      destruct I as [<-|I].
      * unfold val. rewrite (loop_val e p tl wl _ _ _ _ _ pos H NP). cbn [cs_ws]. apply VV.
      * rewrite (IH _ _ _ _ SR H (GR d D RD) q I). cbn [cs_ws]. apply VV.
    + rewrite K in H. replace (exn_eqb x EDay || exn_eqb x EMonth) with false in H.
      2:{ destruct (exn_eqb x EDay) eqn:Q; [apply exn_eqb_eq in Q; contradiction|]. destruct (exn_eqb x EMonth) eqn:Q2; auto. apply exn_eqb_eq in Q2. contradiction. }
      rewrite X1 in H. cbn [andb] in H. inversion H; subst. apply DONE. intros. apply cell_touched.
Qed.

(** and when there is nothing else the reading ends normally *)
Lemma walk_exists : forall positions prev st last, StronglySorted Z.lt positions -> good_from (cs_last st) (cs_ws st) positions ->
  (positions <> [] \/ prev <> None) -> (forall q, In q positions -> q <= last) -> (prev = None \/ positions <> [] \/ prev = Some last) ->
  (positions <> [] -> In last positions) ->
  (forall q, In q positions -> cell_ok (axis_row (sp_al p) wl q) (axis_col (sp_al p) wl q) = true /\
                               cell_ok (axis_row (sp_al p) wl (q + 1)) (axis_col (sp_al p) wl (q + 1)) = true) ->
  (forall q d, In q positions -> val (cs_ws st) q = VDate d -> dt_y d < 9999) ->
  (forall d, cs_last st = Some d -> dt_y d < 9999) ->
  exists w' stop, walk e p tl wl prev positions st w' stop /\ (forall i j, cell w' i j = cell (cs_ws st) i j) /\
    (stop = last \/ no_time p (val (cs_ws st) stop)).
Proof.
  induction positions as [|pos rest IH]; intros prev st last SS G NE LA PL IL OK Y1 Y2.
  { destruct prev as [pos|]; [|destruct NE; congruence]. exists (cs_ws st), pos. split; [constructor|]. split; auto.
    left. destruct PL as [|[|]]; congruence. }
  pose proof (StronglySorted_inv SS) as [SR F]. rewrite Forall_forall in F.
  destruct (OK pos (or_introl eq_refl)) as [O1 O2].
  assert (RDB : readable e p tl wl (cs_ws st) pos (val (cs_ws st) pos) (axis_val (sp_al p) (cs_ws st) wl (pos + 1))).
  { unfold readable, tl, time_value, axis_read, read. rewrite O1, O2. split; [reflexivity|]. split; [reflexivity|eauto]. }
  assert (NX : rest <> [] \/ (rest = [] /\ pos = last)).
  { destruct rest; [right|left; discriminate]. split; auto. destruct (IL ltac:(discriminate)) as [Q|[]]. auto. }
  assert (ARGS : (rest <> [] \/ Some pos <> None) /\ (forall q, In q rest -> q <= last) /\ (Some pos = None \/ rest <> [] \/ Some pos = Some last) /\
    (rest <> [] -> In last rest)).
  { split; [right; discriminate|]. split; [intros; apply LA; right; auto|]. split.
    - destruct NX as [|[_ ->]]; auto.
    - intros NR. destruct (IL ltac:(discriminate)) as [Q|]; auto. subst pos. destruct rest as [|x rest]; [congruence|].
      pose proof (F x (or_introl eq_refl)). pose proof (LA x (or_intror (or_introl eq_refl))). lia. }
  destruct ARGS as (AA1 & AA2 & AA3 & AA4).
  destruct (proj1 G pos (or_introl eq_refl)) as [B|(d & D & RD)].
  - pose proof (proj2 (no_time_iff p _) B) as TB.
    destruct (Z_lt_ge_dec (cs_count st) NO_TIME_VALUE_LIMIT) as [CL|CL];
      [|exists (touched p tl wl (cs_ws st) pos), pos; split; [eapply wk_stop; eauto; left; lia|split; [apply cell_touched|auto]]].
    destruct (tolerant p) eqn:TT;
      [|exists (touched p tl wl (cs_ws st) pos), pos; split; [eapply wk_stop; eauto|split; [apply cell_touched|auto]]].
    destruct (good_rest _ _ _ _ (touched p tl wl (cs_ws st) pos) SS G) as [GR _]; [intros; apply cell_touched|].
    destruct (IH (Some pos) (mkcs (touched p tl wl (cs_ws st) pos) (cs_parser st) (cs_last st) (cs_count st + 1) (cs_lasts st) (cs_lf st)) last)
      as (w' & stop & W & C & S); auto.
    { intros q I. apply OK. right. auto. }
    { cbn [cs_ws]. intros q d I. unfold val. rewrite val_touched. apply Y1. right. auto. }
    exists w', stop. split; [eapply wk_blank; eauto|]. split.
    + intros i j. rewrite C. cbn [cs_ws]. apply cell_touched.
    + cbn [cs_ws] in S. unfold val in S. rewrite val_touched in S. exact S.
  - destruct (process_date (at_touched p tl wl st pos) d (axis_val (sp_al p) (cs_ws st) wl (pos + 1)) RD) as [k [K|(x & K & (X1 & X2 & X3) & XL)]].
    + cbn [at_touched cs_last]. intros x Q. apply (proj1 (proj2 G) pos d); auto. left. auto.
    + destruct (proj1 (proj2 (proj2 G))) as [M|M]; auto. right. cbn [at_touched cs_last]. apply (M pos d); auto; [left; auto|].
      intros k c [<-|KK] L; [lia|]. specialize (F k KK). lia.
    + assert (VV : forall i j, cell (axis_write (sp_al p) wl pos (VDate d) (touched p tl wl (cs_ws st) pos)) i j = cell (cs_ws st) i j).
      { intros i j. unfold axis_write, write. cbn [cell]. destruct ((i =? _) && (j =? _)) eqn:E; [|apply cell_touched].
        replace i with (axis_row (sp_al p) wl pos) by lia. replace j with (axis_col (sp_al p) wl pos) by lia. symmetry. exact D. }
      destruct (good_rest _ _ _ _ (axis_write (sp_al p) wl pos (VDate d) (touched p tl wl (cs_ws st) pos)) SS G) as [_ GR]; [intros; apply VV|].
      destruct (IH (Some pos) (mkcs (axis_write (sp_al p) wl pos (VDate d) (touched p tl wl (cs_ws st) pos)) k (Some d) 0 (cs_lasts st) (cs_lf st)) last)
        as (w' & stop & W & C & S); auto.
      { apply (GR d D RD). }
      { intros q I. apply OK. right. auto. }
      { cbn [cs_ws]. intros q d' I E. apply (Y1 q); [right; auto|]. rewrite <- E. symmetry. apply VV. }
      { cbn [cs_last]. intros d' Q. inversion Q; subst. apply (Y1 pos); auto. left. auto. }
      exists w', stop. split; [eapply wk_date; eauto|]. 1:{ rewrite D. apply date_must. } 1:{ rewrite D. exact K. }
      split; [intros i j; rewrite C; apply VV|]. cbn [cs_ws] in S. replace (val (cs_ws st) stop) with (val (axis_write (sp_al p) wl pos (VDate d) (touched p tl wl (cs_ws st) pos)) stop) by apply VV. exact S.
    + exfalso. destruct XL as (l & n & XL1 & XL2 & XL3). cbn [at_touched cs_last] in XL1. rewrite FQ in *.
      destruct (increment_ok l n f) as [t' T']; try lia; auto; [|congruence].
      eapply (proj1 (proj2 G) pos d); eauto. left. auto.
Qed.
End Keep.

Lemma period_step f a b : real_date a -> real_date b -> one_period f a b -> increment_time a 1 (T f) = Ok b.
Proof.
  intros RA RB H. assert (Y : 1 <= dt_y b <= 9999) by (destruct RB; auto). destruct H as [k P H|k P H].
  - apply (days_iff f k a 1); auto. rewrite Nat.mul_1_l. split; auto. lia.
  - apply (months_iff f k a 1); auto. rewrite Z.mul_1_l. auto.
Qed.
Lemma good_start p f w wl m : write_line (sp_al p) (sp_th p) = Ok wl -> real_dates w -> sp_freq p = T f ->
  dated p w (sp_starts p) m -> no_typos p f w (sp_starts p) m -> good_from p wl None w (zrange (sp_starts p) m).
Proof.
  intros WL R FQ [D1 D2] NT. split; [|split; [discriminate|split; [|split]]].
  - intros q I. apply zrange_In in I. destruct (D1 q I) as [(v & HV & N)|(d & D)].
    + left. apply (holds_iff _ _ _ _ _ WL) in HV. subst v. auto.
    + right. apply (holds_iff _ _ _ _ _ WL) in D. exists d. split; auto. eapply R. exact D.
  - destruct NT as [[M _]|[M _]]; auto. right. intros. discriminate.
  - intros i j a b I J L A B. apply zrange_In in I, J. apply (D2 i j); try lia; apply (holds_iff _ _ _ _ _ WL); auto.
  - destruct NT as [[M _]|[M NT]]; auto. right. intros i j a b I J L A B N. apply zrange_In in I, J. rewrite FQ.
    apply period_step; [eapply R; exact A|eapply R; exact B|]. apply (NT i j); try lia; try (apply (holds_iff _ _ _ _ _ WL); auto).
    intros k K [c C]. apply (holds_iff _ _ _ _ _ WL) in C. apply (N k c); auto. apply zrange_In. lia.
Qed.
Lemma one_line_tl p tl wl : one_line p -> time_lines (sp_al p) (sp_th p) (sp_multi p) = Ok tl -> write_line (sp_al p) (sp_th p) = Ok wl -> tl = OneLine wl.
Proof.
  unfold one_line. intros -> TL WL. unfold time_lines in TL. destruct (sp_th p) eqn:E; [|discriminate]. cbn [write_line] in WL. rewrite WL in TL.
  inversion TL. auto.
Qed.
Lemma no_typos_marker p f w a b : no_typos p f w a b -> implicit p = false \/ sp_missings p = false.
Proof. intros [[_ E]|[M _]]; auto. left. apply explicit_ok. auto. Qed.

Lemma c26_kept e w p w' r f m last : real_dates w -> one_line p -> sp_composed p = false -> sp_freq p = T f -> frequency_letter f ->
  dated p w (sp_starts p) m -> no_typos p f w (sp_starts p) m -> last_one p w last -> m <= last ->
  clean_time_index e w p = (w', r) -> forall q v, q <= m -> holds p w q v -> holds p w' q v.
Proof.
  intros R OL NC FQ FL DT NT LO LM H q v LQ HV. apply last_one_iff in LO. subst last.
  destruct (clean_split _ _ _ _ _ H) as [[-> _]|(L & tl & wl & TL & WL & C)]; auto.
  apply (holds_iff _ _ _ _ _ WL). apply (holds_iff _ _ _ _ _ WL) in HV.
  pose proof (one_line_tl _ _ _ OL TL WL) as ->.
  destruct (Z_le_gt_dec (sp_starts p) q) as [LS|LS].
  - rewrite (zrange_app (sp_starts p) m) in C by lia. rewrite <- HV.
    refine (loop_keeps e p wl f NC FQ FL (no_typos_marker _ _ _ _ _ NT) _ _ _ _ _ _ _ C _ q _).
    + rewrite <- zrange_app by lia. apply zrange_sorted.
    + apply (good_start p f); auto.
    + apply zrange_In. lia.
  - rewrite <- HV. apply (loop_val e p (OneLine wl) wl _ _ _ _ _ q C). intros I. apply zrange_In in I. lia.
Qed.

Lemma c26_accepted e w p f t r c last : real_dates w -> one_line p -> sp_th p = ThStr t -> cell_named t r c ->
  sp_composed p = false -> sp_freq p = T f -> frequency_letter f ->
  last_one p w last -> within_sheet p (sp_starts p) last ->
  dated p w (sp_starts p) last -> no_typos p f w (sp_starts p) last -> before_9999 p w (sp_starts p) last ->
  short_runs p w (sp_starts p) last -> holds_date p w last ->
  sp_starts p <= last -> sp_starts p < last - sp_ta p ->
  exists w', clean_time_index e w p = (w', Ok (last - sp_ta p)) /\ forall i j, cell w' i j = cell w i j.
Proof.
  intros R OL TH CN NC FQ FL LO WS DT NT B9 SR HL L1 L2. pose proof LO as LO'. apply last_one_iff in LO'. subst last.
  set (last := last_position p w) in *.
  assert (WL : exists wl, write_line (sp_al p) (sp_th p) = Ok wl /\ (sp_al p = Vert -> 1 <= wl <= 18278) /\ (sp_al p = Horiz -> 1 <= wl)).
  { rewrite TH. cbn [write_line]. unfold coord_line. apply cell_named_iff in CN. pose proof (parse_range _ _ _ CN). rewrite CN. cbn [bind fst snd].
    eexists. split; [reflexivity|]. destruct (sp_al p); split; intros; try discriminate; lia. }
  destruct WL as (wl & WL & WV & WH).
  assert (TL : time_lines (sp_al p) (sp_th p) (sp_multi p) = Ok (OneLine wl)).
  { unfold one_line in OL. rewrite OL, TH in *. cbn [time_lines write_line] in *. rewrite WL. reflexivity. }
  assert (FN : sp_freq p <> []). { rewrite FQ. destruct FL as [<-|[<-|[<-|[<-|[<-|[<-|[]]]]]]]; discriminate. }
  pose proof (good_start p f w wl last WL R FQ DT NT) as G.
  assert (NZ : zrange (sp_starts p) last <> []) by (rewrite zrange_cons by lia; discriminate).
  destruct (walk_exists e p wl f NC FQ FL (no_typos_marker _ _ _ _ _ NT) (zrange (sp_starts p) last) None (init_state w) last) as (w' & stop & W & C & S); auto.
  { apply zrange_sorted. }
  { intros q I. apply zrange_In in I. lia. }
  { intros _. apply zrange_In. lia. }
  { intros q I. apply zrange_In in I. destruct WS as [WS1 WS2]. unfold cell_ok, max_column, axis_row, axis_col. destruct (sp_al p).
    - specialize (WV eq_refl). split; lia.
    - specialize (WH eq_refl). split; lia. }
  { intros q d I D. apply zrange_In in I. apply (B9 q d I). apply (holds_iff _ _ _ _ _ WL). auto. }
  { cbn. discriminate. }
  cbn [cs_ws init_state] in *.
  assert (BL : forall q, blank_at p w q <-> no_time p (axis_val (sp_al p) w wl q)).
  { intros q. unfold blank_at. split.
    - intros (v & HV & N). apply (holds_iff _ _ _ _ _ WL) in HV. congruence.
    - intros N. eexists. split; [|exact N]. apply (holds_iff _ _ _ _ _ WL). auto. }
  assert (ND : forall q, blank_at p w q -> ~ holds_date p w q).
  { intros q Bq [d D]. apply BL in Bq. apply (holds_iff _ _ _ _ _ WL) in D. rewrite D in Bq. inversion Bq. }
  destruct (walk_runs e p (OneLine wl) wl (fun q => sp_starts p <= q /\ blank_at p w q) last _ _ _ _ _ W (sp_starts p) eq_refl) as (I1 & I1b & I2 & I3 & I4 & I5 & I6 & I7).
  { cbn. unfold NO_TIME_VALUE_LIMIT. lia. }
  { intros q v I TV. cbn [time_value cs_ws init_state] in TV. apply axis_read_ok in TV. subst v. rewrite no_time_iff, <- BL. apply zrange_In in I. intuition lia. }
  { cbn. intros. lia. }
  specialize (I5 NZ). assert (SL : stop = last).
  { destruct S as [S|S]; auto. apply BL in S. destruct (Z.eq_dec stop last) as [|NS]; auto. exfalso.
    destruct SR as [[TB SR]|SR]; [|exact (ND stop S (SR stop ltac:(lia)))].
    assert (I8 : forall k, 0 <= k <= 40 -> sp_starts p <= stop - k /\ blank_at p w (stop - k)).
    { apply I7; auto; [lia|split; [lia|auto]|]. unfold tolerates_blanks in TB. unfold tolerant. destruct (sp_cont p), (sp_blank p); cbn; intuition congruence. }
    destruct (SR (stop - 40)) as (k & K & HK); [apply I8; lia|lia|].
    apply (ND k); auto. replace k with (stop - (stop - k)) by lia. apply I8. lia. }
  subst stop. exists w'. split; [|auto]. rewrite clean_is_single by auto. unfold clean_single_table. fold last. rewrite TL, WL.
  destruct (zrange (sp_starts p) last) as [|x l] eqn:ZR; [congruence|]. rewrite (walk_loop _ _ _ _ _ _ _ _ _ W). f_equal.
  destruct HL as [d HL]. apply (holds_iff _ _ _ _ _ WL) in HL.
  assert (DW : is_date (axis_val (sp_al p) w' wl last) = true) by (unfold axis_val in *; rewrite C, HL; reflexivity).
  unfold estimate_end. replace (match sp_al p with Vert => _ | Horiz => _ end) with (@Ok Z last).
  - cbn [bind]. destruct WS as [WS _]. replace (negb (last - sp_ta p =? 0) && (sp_starts p <? last - sp_ta p)) with true by lia. reflexivity.
  - destruct (sp_al p).
    + destruct (Z.to_nat (last - sp_starts p)); cbn [walk_back]; rewrite DW; reflexivity.
    + rewrite DW. reflexivity.
Qed.
