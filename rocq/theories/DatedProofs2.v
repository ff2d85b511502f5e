(** Proofs about the dates of the numbers of a series of several frequencies,
    and of one with implicit missings (C66). *)
From Coq Require Import Sorted ZifyBool ZifyNat.
From Verif Require Import Base BaseFacts Cal SpecCal CalFacts CalProofs SpecCoord SpecCoordFacts Coord CoordFacts XlMethods Params ParseTime TimeIndex GetData PeriodRange DataFrame
  Scrape Xlseries SpecTime SpecScrape ScrapeFacts TimeFacts TimeProofs SpecData DataFacts DataProofs SpecFrames FrameProofs FrameProofs2 RangeProofs FrameProofs3 SpecEnd RangeExact CleanReal
  SpecDated DatedProofs MultiRange SpecCycles CycleClean CycleEnd SpecDated2.
Local Open Scope Z_scope.

Lemma letters_prefix fr n cs : letters_of fr n cs -> forall m cs', (m <= n)%nat -> letters_of fr m cs' -> exists l, cs = cs' ++ l.
Proof.
  intros L. induction L as [|n cs b L IH C I|n cs b L IH C I]; intros m cs' LE M.
  - assert (m = 0%nat) by lia. subst m. inversion M. exists []. auto.
  - destruct (Nat.eq_dec m (S n)) as [->|]; [|apply (IH m); auto; lia]. exists []. rewrite app_nil_r. eapply letters_det; [|exact M]. apply lo_old with b; auto.
  - destruct (Nat.eq_dec m (S n)) as [->|].
    + exists []. rewrite app_nil_r. eapply letters_det; [|exact M]. apply lo_new; auto.
    + destruct (IH m cs' ltac:(lia) M) as (l & ->). exists (l ++ [b]). apply app_assoc_reverse.
Qed.
Lemma seq_nth_error : forall n a j, (j < n)%nat -> nth_error (seq a n) j = Some (a + j)%nat.
Proof.
  induction n as [|n IH]; intros a [|j] J; try lia; cbn [seq nth_error]; [f_equal; lia|]. rewrite IH by lia. f_equal. lia.
Qed.
Lemma letters_nth fr m cs k c : fr <> [] -> letters_of fr m cs -> nth_error cs k = Some c -> nth_error (uniq [] fr) k = Some c.
Proof.
  intros NE L N. destruct (Nat.le_gt_cases (List.length fr) m) as [G|G].
  - rewrite <- (letters_det _ _ _ _ L (letters_more fr m NE G)). auto.
  - destruct (letters_prefix _ _ _ (distinct_letters fr) m cs ltac:(lia) L) as (l & ->). rewrite nth_error_app1; auto. apply nth_error_Some. congruence.
Qed.
Lemma letters_occur fr n cs c : letters_of fr n cs -> In c cs -> exists k, (k < n)%nat /\ cycle_letter fr k = Some c.
Proof.
  induction 1 as [|n cs b L IH C I|n cs b L IH C I]; intros J; [destruct J| |].
  - destruct (IH J) as (k & K & E). exists k. split; auto.
  - apply in_app_or in J as [J|[<-|[]]]; [destruct (IH J) as (k & K & E); exists k; split; auto|exists n; auto].
Qed.
Lemma share_some {A} fr c : forall (l : list A) k i, (i < List.length l)%nat -> cycle_letter fr (k + i) = Some c -> share fr c k l <> [].
Proof.
  induction l as [|x l IH]; intros k i L C; [cbn in L; lia|]. cbn [share]. destruct i as [|i].
  - rewrite Nat.add_0_r in C. rewrite C. destruct (ascii_dec c c); [discriminate|congruence].
  - assert (Q : share fr c (S k) l <> []) by (apply (IH (S k) i); [cbn in L; lia|replace (S k + i)%nat with (k + S i)%nat by lia; auto]).
    destruct (cycle_letter fr k) as [d|]; auto. destruct (ascii_dec d c); auto. discriminate.
Qed.
(** three lists shared out together *)
Lemma share3 {A B C} fr c (P : A -> B -> C -> Prop) : forall la lb lc k, List.length la = List.length lb -> List.length lb = List.length lc ->
  (forall i x y z, nth_error la i = Some x -> nth_error lb i = Some y -> nth_error lc i = Some z -> P x y z) ->
  List.length (share fr c k la) = List.length (share fr c k lb) /\ List.length (share fr c k lb) = List.length (share fr c k lc) /\
  forall i x y z, nth_error (share fr c k la) i = Some x -> nth_error (share fr c k lb) i = Some y -> nth_error (share fr c k lc) i = Some z -> P x y z.
Proof.
  induction la as [|a la IH]; intros [|b lb] [|d lc] k L1 L2 H; try discriminate; [cbn; repeat split; auto; intros [|i]; discriminate|].
  destruct (IH lb lc (S k)) as (E1 & E2 & E3); [cbn in L1; lia|cbn in L2; lia|intros i; apply (H (S i))|]. cbn [share].
  destruct (cycle_letter fr k) as [x|]; auto. destruct (ascii_dec x c); auto. cbn [List.length]. split; [lia|]. split; [lia|].
  intros [|i] x0 y0 z0 X Y Z; cbn in X, Y, Z; eauto. injection X as <-. injection Y as <-. injection Z as <-. apply (H 0%nat); auto.
Qed.
Lemma share_iff fr c : forall n a k q, In q (share fr c k (map (fun i => a + Z.of_nat i) (seq k n))) <-> exists i, (k <= i < k + n)%nat /\ q = a + Z.of_nat i /\ cycle_letter fr i = Some c.
Proof.
  induction n as [|n IH]; intros a k q; cbn [seq map share].
  - split; [intros []|intros (i & I & _); lia].
  - specialize (IH a (S k) q).
    assert (G : In q (share fr c (S k) (map (fun i => a + Z.of_nat i) (seq (S k) n))) -> exists i, (k <= i < k + S n)%nat /\ q = a + Z.of_nat i /\ cycle_letter fr i = Some c).
    { intros H. apply IH in H as (i & I & Q). exists i. split; [lia|auto]. }
    destruct (cycle_letter fr k) as [d|] eqn:E; [destruct (ascii_dec d c) as [->|N]|].
    + split.
      * intros [<-|H]; auto. exists k. split; [lia|auto].
      * intros (i & I & Q & C). destruct (Nat.eq_dec i k) as [->|]; [left; auto|right]. apply IH. exists i. split; [lia|auto].
    + split; auto. intros (i & I & Q & C). apply IH. exists i. split; auto. destruct (Nat.eq_dec i k) as [->|]; [congruence|lia].
    + split; auto. intros (i & I & Q & C). apply IH. exists i. split; auto. destruct (Nat.eq_dec i k) as [->|]; [congruence|lia].
Qed.
Lemma share_sorted fr c : forall n a k, StronglySorted Z.lt (share fr c k (map (fun i => a + Z.of_nat i) (seq k n))).
Proof.
  induction n as [|n IH]; intros a k; cbn [seq map share]; [constructor|].
  destruct (cycle_letter fr k) as [d|]; [destruct (ascii_dec d c)|]; auto. constructor; auto. apply Forall_forall. intros q Q. apply share_iff in Q as (i & I & -> & _). lia.
Qed.
(** all the cells of a continuous series, each read as it stands *)
Lemma continuous_nth s : sp_blank s = false -> forall cells vs, continuous_values s cells vs -> forall i v x, nth_error cells i = Some v -> nth_error vs i = Some x -> read_as s v x.
Proof.
  intros B. induction 1 as [|l vs BL H IH|v v' l vs NB M SD MK H IH|v v' f l vs NB SD NM CN H IH]; intros i u x U X; [destruct i; discriminate|congruence| |];
    (destruct i as [|i]; cbn in U, X; [injection U as <-; injection X as <-|eauto]); [right; auto|left; auto].
Qed.
Lemma cells_nth s w en : forall a cells, cells_from s w en a cells -> forall i v, nth_error cells i = Some v -> in_series s w (a + Z.of_nat i) v.
Proof.
  induction 1 as [|a v l L I C IH]; intros i u U; [destruct i; discriminate|]. destruct i as [|i]; cbn in U; [injection U as <-; rewrite Z.add_0_r; auto|].
  apply IH in U. replace (a + Z.of_nat (S i)) with (a + 1 + Z.of_nat i) by lia. auto.
Qed.

Lemma c66_several e w p dfs w1 p1 i m s en ds nvs cs k c n vs : real_stamps e -> real_dates w -> alone e w p = Ok dfs -> clean_data e w p = (w1, p1, Ok tt) ->
  py_len (dgetN n_headers_coord p1) = Ok m -> (i < m)%nat -> series_sp p1 i = Ok s -> (2 <= List.length (sp_freq s))%nat -> (forall c, In c (sp_freq s) -> periodic (letter c)) -> marker_list s ->
  sp_cont s = true -> sp_blank s = false -> 1 <= sp_starts s -> sp_ends s = Some en -> en <= axis_max (sp_al s) w1 -> cycle_rows s w1 en ds ->
  letters_of (sp_freq s) (List.length ds) cs -> nth_error cs k = Some c -> get_data e w1 s = Ok nvs -> nth_error nvs k = Some (n, vs) ->
  exists d, In d dfs /\ in_frame d n vs /\ pr_dates (df_index d) = share (sp_freq s) c 0 ds /\ dated_by_cycle s w1 en c (share (sp_freq s) c 0 ds) vs.
Proof.
  intros RS R A C PL Hi SS NF PF ML CT BL S1 EN EX (LD & HD & CN) LC K GD N.
  destruct (alone_parts _ _ _ _ A) as (w1' & p1' & w2 & C' & G). rewrite C in C'. injection C' as <- <-.
  pose proof (clean_data_real _ _ _ _ _ _ C R) as R1. set (fr := sp_freq s) in *.
  assert (NE : fr <> []) by (intros Q; rewrite Q in NF; cbn in NF; lia).
  destruct (c30_cycle e w1 s nvs NF ML GD) as (name & all & cs' & VR & LC' & ->). fold fr in LC', N.
  destruct VR as [cells all _ (en' & EN' & CF) CV|en' pairs all CT' _ _ _]; [|congruence]. rewrite EN in EN'. injection EN' as <-.
  pose proof (continuous_length _ _ _ BL CV) as L1. pose proof (cells_length _ _ _ _ _ CF) as L2.
  assert (LA : List.length all = List.length ds) by lia. rewrite LA in LC'. pose proof (letters_det _ _ _ _ LC LC') as EC. subst cs'. clear LC'.
  rewrite nth_error_map, K in N. cbn in N. injection N as <- <-. rewrite share_values.
  assert (IC : In c fr) by (eapply letters_in; [exact LC|eapply nth_error_In; eauto]).
  destruct (letters_occur _ _ _ _ LC (nth_error_In _ _ K)) as (o & O & OC).
  pose proof (share_some fr c ds 0 o O OC) as NS.
  assert (RA : Forall real_date (share fr c 0 ds)).
  { apply Forall_forall. intros d I. apply share_in in I. apply In_nth_error in I as (j & J). destruct (HD j d J) as (r & c0 & _ & Q). eapply R1; eauto. }
  destruct (share fr c 0 ds) as [|a l] eqn:SH; [congruence|]. clear NS.
  destruct (share_hd fr c a ds 0) as (fi & I1 & I2 & I3); [rewrite SH; reflexivity|].
  destruct (share_last fr c a ds 0) as (la & J1 & J2 & J3); [rewrite SH; discriminate|]. rewrite SH in J1.
  assert (LB : List.last (a :: l) a = List.last l a) by (destruct l; [auto|cbn; apply last_any]). rewrite LB in J1. set (b := List.last l a) in *.
  assert (Lf : (fi < List.length ds)%nat) by (apply nth_error_Some; congruence). assert (Ll : (la < List.length ds)%nat) by (apply nth_error_Some; congruence).
  assert (PP : forall j, position_letter s (sp_starts s + Z.of_nat j) = cycle_letter fr j). { intros j. unfold position_letter. fold fr. f_equal. lia. }
  assert (FP : first_place s c (sp_starts s + Z.of_nat fi)).
  { split; [lia|]. rewrite PP. split; auto. intros q Q. pose proof (I3 (Z.to_nat (q - sp_starts s)) ltac:(lia)) as X. cbn [Nat.add] in X. rewrite <- PP in X. replace (sp_starts s + Z.of_nat (Z.to_nat (q - sp_starts s))) with q in X by lia. exact X. }
  assert (LP : last_place s en c (sp_starts s + Z.of_nat la)).
  { split; [lia|]. rewrite PP. split; auto. intros q Q. pose proof (J3 (Z.to_nat (q - sp_starts s)) ltac:(lia)) as X. cbn [Nat.add] in X. rewrite <- PP in X. replace (sp_starts s + Z.of_nat (Z.to_nat (q - sp_starts s))) with q in X by lia. exact X. }
  assert (GK : nth_error (map (fun c => (name, values_of fr c 0 all)) cs) k = Some (name, values_of fr c 0 all)) by (rewrite nth_error_map, K; reflexivity).
  destruct (c37_multi e w1 p1 w2 dfs i m s _ en (uniq [] fr) k name (values_of fr c 0 all) c _ _ a b RS R1 G PL Hi SS NF EN S1 EX (distinct_letters fr) (letters_nth _ _ _ _ _ NE LC K) FP LP (HD _ _ I1) (HD _ _ J1) GD GK) as (d & Id & IF & RC & IX).
  rewrite share_values in IF.
  pose proof (in_frame_length _ _ _ RC IF) as LE.
  destruct (share3 fr c (fun q d x => holds s w1 q (VDate d) /\ exists v, in_series s w1 q v /\ read_as s v x) (map (fun j => sp_starts s + Z.of_nat j) (seq 0 (List.length ds))) ds all 0) as (E1 & E2 & E3).
  { rewrite map_length, seq_length. auto. } { auto. }
  { intros j q d' x Q D X. assert (J : (j < List.length ds)%nat) by (apply nth_error_Some; congruence). rewrite nth_error_map, seq_nth_error in Q by auto. cbn in Q. injection Q as <-. split; [apply HD; auto|].
    destruct (nth_error cells j) as [v|] eqn:V; [|apply nth_error_None in V; lia]. exists v. split; [apply (cells_nth _ _ _ _ _ CF); auto|eapply continuous_nth; eauto]. }
  rewrite SH in E1, E2, E3. cbn [List.length] in E2.
  specialize (CN c IC). fold fr in CN. rewrite SH in CN. pose proof (PF c IC) as PC.
  assert (EXA : forall r, period_start (letter c) a -> covers (letter c) a b r -> pr_dates r = a :: l).
  { intros r PS CVR. destruct (range_exact (letter c) a l PC CN RA PS) as (nm & _ & DR). rewrite LB in DR.
    assert (Rab : real_date a /\ real_date b). { rewrite Forall_forall in RA. split; apply RA; [left; auto|apply last_in]. }
    destruct (range_covers (letter c) a b _ (proj1 Rab) (proj2 Rab) DR) as (CV' & _). rewrite (covers_one _ _ _ _ _ CVR CV'). auto. }
  assert (IXE : pr_dates (df_index d) = a :: l).
  { destruct IX as [CVR|(-> & r & x & y & CVR & NL & _)].
    - apply EXA; auto. apply (count_start (letter c) a l (df_index d)); auto. lia.
    - exfalso. apply NL. rewrite (EXA r) by (auto; exact Logic.I). cbn [List.length]. lia. }
  exists d. split; auto. split; auto. split; auto. split; [exact E2|].
  eexists. split; [apply share_sorted|]. split; [|split; [|exact E3]]; [cbn [List.length] in E1; lia|].
  intros q. rewrite share_iff. split.
  - intros (j & J & -> & CJ). split; [lia|]. rewrite PP. auto.
  - intros [Q PQ]. exists (Z.to_nat (q - sp_starts s)). split; [lia|]. split; [lia|]. rewrite <- PP. rewrite <- PQ. f_equal. lia.
Qed.

(** ** Implicit missings *)
Lemma consecutive_nth f : forall l a k, consecutive f (a :: l) -> (k < List.length l)%nat -> one_period f (nth k (a :: l) a) (nth (S k) (a :: l) a).
Proof.
  assert (G : forall l a z k, consecutive f (a :: l) -> (k < List.length l)%nat -> one_period f (nth k (a :: l) z) (nth (S k) (a :: l) z)).
  { induction l as [|b l IH]; intros a z k C K; [cbn in K; lia|]. inversion C as [|? ? ? O C']; subst. destruct k as [|k]; [exact O|]. apply (IH b z k); auto. cbn in K. lia. }
  intros l a k. apply G.
Qed.
Lemma sorted_one ks : StronglySorted lt ks -> forall i j k, nth_error ks i = Some k -> nth_error ks j = Some k -> i = j.
Proof.
  induction 1 as [|x ks SS IH F]; intros i j k I J; [destruct i; discriminate|]. rewrite Forall_forall in F.
  destruct i as [|i], j as [|j]; auto; cbn in I, J.
  - injection I as <-. apply nth_error_In in J. apply F in J. lia.
  - injection J as <-. apply nth_error_In in I. apply F in I. lia.
  - f_equal. eauto.
Qed.
Lemma holds_one s w q u v : holds s w q u -> holds s w q v -> u = v.
Proof.
  intros (r & c & IC & <-) (r' & c' & IC' & <-). 
  assert (H : forall t t', index_header s t -> index_header s t' -> t = t') by (intros t t' [x X|x xs X] [y Y|y ys Y]; congruence).
  inversion IC as [t r0 c0 A I N|t r0 c0 A I N]; inversion IC' as [t' r1 c1 A' I' N'|t' r1 c1 A' I' N']; subst; try congruence;
    rewrite <- (H t t' I I') in N'; apply cell_named_iff in N, N'; rewrite N in N'; injection N' as <- <-; reflexivity.
Qed.
Lemma sorted_last ks : StronglySorted lt ks -> forall k, In k ks -> (k <= List.last ks 0)%nat.
Proof.
  induction 1 as [|x ks SS IH F]; intros k I; [destruct I|]. destruct I as [->|I].
  - destruct ks as [|y ks]; [cbn; lia|]. rewrite Forall_forall in F. specialize (IH y (or_introl eq_refl)). specialize (F y (or_introl eq_refl)). change (List.last (k :: y :: ks) 0%nat) with (List.last (y :: ks) 0%nat). lia.
  - specialize (IH k I). destruct ks; [destruct I|]. exact IH.
Qed.
Lemma consecutive_order f : forall l, consecutive f l -> Forall real_date l -> in_order l.
Proof.
  intros l C. induction C as [a|a b l O C IH]; intros F; [repeat constructor|]. inversion F as [|? ? Ra F']; subst. specialize (IH F'). constructor; auto.
  inversion F' as [|? ? Rb _]; subst. destruct (period_earlier f a b Ra Rb O) as [_ E]. constructor; auto. inversion IH as [|? ? _ FE]; subst.
  eapply Forall_impl; [|exact FE]. intros x X. unfold earlier in *. lia.
Qed.
Lemma nth_length_last {A} : forall (l : list A) a z, nth (List.length l) (a :: l) z = List.last (a :: l) z.
Proof. induction l as [|y l IH]; intros a z; auto. exact (IH y z). Qed.
Lemma c66_gaps e w p dfs w1 p1 i m s f en ms grid ks n vs : real_stamps e -> real_dates w -> alone e w p = Ok dfs -> clean_data e w p = (w1, p1, Ok tt) ->
  py_len (dgetN n_headers_coord p1) = Ok m -> (i < m)%nat -> series_sp p1 i = Ok s -> sp_freq s = T f -> periodic f ->
  sp_missings s = true -> sp_mv s = VList ms -> In (VStr (T "Implicit")) ms -> sp_cont s = true -> sp_blank s = false -> sp_ta s = 0 ->
  sp_ends s = Some en -> rows_with_gaps s f w1 en grid ks -> get_data e w1 s = Ok [(n, vs)] ->
  exists d, In d dfs /\ in_frame d n vs /\ pr_dates (df_index d) = grid /\ dated_with_gaps s w1 en grid vs.
Proof.
  intros RS R A C PL Hi SS FR PF MS MV IM CT BL TA EN (CN & RG & SK & LK & HK & LG & HD) GD.
  destruct (alone_parts _ _ _ _ A) as (w1' & p1' & w2 & C' & G). rewrite C in C'. injection C' as <- <-.
  pose proof (clean_data_real _ _ _ _ _ _ C R) as R1.
  assert (SF : single_frequency s) by (eapply periodic_single; eauto). assert (ML : marker_list s) by (intros _; eauto).
  assert (VR : exists vals, values_read s w1 vals).
  { unfold get_data in GD. apply bind_ok in GD as (name & _ & GD). apply bind_ok in GD as (vls & GV & _). destruct (values_collected e w1 s vls ML GV) as (? & ? & vals & _ & _ & _ & V). eauto. }
  destruct VR as (vals & VR). destruct VR as [cells vals _ OC CV|en' pairs vals CT' _ _ _]; [|congruence].
  pose proof OC as (en' & EN' & CF). rewrite EN in EN'. injection EN' as <-.
  pose proof (continuous_length _ _ _ BL CV) as L1. pose proof (cells_length _ _ _ _ _ CF) as L2.
  destruct grid as [|a l]; [discriminate|]. cbn [List.length] in LG.
  assert (LV : List.length vals = List.length ks) by lia.
  assert (NV : vals <> []) by (intros ->; destruct ks; discriminate).
  assert (NG : forall k, (k < S (List.length l))%nat -> nth_error (a :: l) k = Some (nth k (a :: l) a)) by (intros k K; apply nth_error_nth'; cbn; lia).
  destruct (c31_placed e w1 s f ms cells vals (fun k => nth k (a :: l) a) ks [(n, vs)]) as (n' & full & E & PL1 & PL2 & PL3); auto; try lia.
  { intros k K. rewrite Forall_forall in RG. apply RG. apply nth_In. cbn. lia. }
  { intros k K. apply consecutive_nth; auto. lia. }
  { intros j k K. destruct (HD j k K) as (d & D & H). exists (VDate d). split; auto. apply nth_error_nth with (d := a) in D. rewrite D. constructor. }
  injection E as <- <-.
  set (b := List.last l a).
  assert (LB : List.last (a :: l) a = b) by (unfold b; destruct l; [auto|cbn; apply last_any]).
  assert (HA : holds s w1 (sp_starts s + sp_ta s) (VDate a)).
  { destruct ks as [|k0 ks]; [discriminate|]. injection HK as ->. destruct (HD 0%nat 0%nat eq_refl) as (d & D & H). injection D as <-. rewrite TA, Z.add_0_r in *. auto. }
  assert (HB : holds s w1 (en + sp_ta s) (VDate b)).
  { assert (NL : nth_error ks (List.length ks - 1) = Some (List.last ks 0%nat)).
    { destruct ks as [|k0 ks] using rev_ind; [discriminate|]. rewrite last_last, app_length. cbn. rewrite nth_error_app2 by lia. replace (List.length ks + 1 - 1 - List.length ks)%nat with 0%nat by lia. reflexivity. }
    destruct (HD _ _ NL) as (d & D & H). rewrite TA, Z.add_0_r. replace en with (sp_starts s + Z.of_nat (List.length ks - 1)) by (destruct ks; [discriminate|cbn [List.length] in *; lia]).
    replace b with d; auto. rewrite NG in D by lia. injection D as <-. rewrite <- LB. replace (List.last ks 0%nat) with (List.length l) by lia. 
    apply nth_length_last. }
  destruct (c37_index e w1 p1 w2 dfs i m s f a b n vs) as (d & Id & IF & RC & IX); auto; [exists en; auto|].
  pose proof (in_frame_length _ _ _ RC IF) as LE. 
  assert (EXA : forall r, period_start f a -> covers f a b r -> pr_dates r = a :: l).
  { intros r PS CVR. destruct (range_exact f a l PF CN RG PS) as (nm & _ & DR). rewrite LB in DR.
    assert (Rab : real_date a /\ real_date b). { rewrite Forall_forall in RG. split; apply RG; [left; auto|apply last_in]. }
    destruct (range_covers f a b _ (proj1 Rab) (proj2 Rab) DR) as (CV' & _). rewrite (covers_one _ _ _ _ _ CVR CV'). auto. }
  assert (IXE : pr_dates (df_index d) = a :: l).
  { destruct IX as [CVR|(-> & r & x & y & CVR & NL & _)].
    - apply EXA; auto. apply (count_start f a l (df_index d)); auto. lia.
    - exfalso. apply NL. rewrite (EXA r) by (auto; exact Logic.I). cbn [List.length]. lia. }
  assert (ROW : forall j k, nth_error ks j = Some k -> exists d x v, nth_error (a :: l) k = Some d /\ nth_error vs k = Some x /\ holds s w1 (sp_starts s + Z.of_nat j) (VDate d) /\ in_series s w1 (sp_starts s + Z.of_nat j) v /\ read_as s v x).
  { intros j k K. destruct (HD j k K) as (d' & D & H). assert (J : (j < List.length ks)%nat) by (apply nth_error_Some; congruence).
    destruct (nth_error vals j) as [x|] eqn:X; [|apply nth_error_None in X; lia]. destruct (nth_error cells j) as [v|] eqn:V; [|apply nth_error_None in V; lia].
    exists d', x, v. split; auto. split; [eapply PL2; eauto|]. split; auto. split; [apply (cells_nth _ _ _ _ _ CF); auto|eapply continuous_nth; eauto]. }
  exists d. split; auto. split; auto. split; auto. split; [cbn [List.length]; lia|]. split.
  - intros k d' x D X. destruct (in_dec Nat.eq_dec k ks) as [I|I].
    + left. apply In_nth_error in I as (j & J). destruct (ROW j k J) as (d2 & x2 & v & D2 & X2 & H & IS & RA). assert (d2 = d') by congruence. assert (x2 = x) by congruence. subst d2 x2.
      exists (sp_starts s + Z.of_nat j), v. split; auto. assert (J' : (j < List.length ks)%nat) by (apply nth_error_Some; congruence). lia.
    + right. assert (KL : (k < List.length vs)%nat) by (apply nth_error_Some; congruence). rewrite (PL3 k KL I) in X. split; [congruence|].
      intros q Q H. destruct (nth_error ks (Z.to_nat (q - sp_starts s))) as [k2|] eqn:K2; [|apply nth_error_None in K2; lia].
      destruct (HD _ _ K2) as (d2 & D2 & H2). replace (sp_starts s + Z.of_nat (Z.to_nat (q - sp_starts s))) with q in H2 by lia. pose proof (holds_one _ _ _ _ _ H H2) as HE. injection HE as ->.
      assert (ND : NoDup (a :: l)) by (apply order_nodup; eapply consecutive_order; eauto).
      assert (k = k2). { eapply NoDup_nth_error; eauto; [apply nth_error_Some; congruence|congruence]. }
      subst k2. apply I. eapply nth_error_In; eauto.
  - intros q Q. destruct (nth_error ks (Z.to_nat (q - sp_starts s))) as [k|] eqn:K; [|apply nth_error_None in K; lia].
    destruct (ROW _ _ K) as (d2 & x2 & v & D2 & X2 & H & IS & RA). replace (sp_starts s + Z.of_nat (Z.to_nat (q - sp_starts s))) with q in * by lia. exists k, d2, x2, v. auto.
Qed.
