(** Cleaning a time index of several frequencies whose cells already hold dates
    (C67). *)
From Coq Require Import Sorted ZifyBool ZifyNat.
From Verif Require Import Base BaseFacts Cal Coord CoordFacts XlMethods Params ParseTime TimeIndex GetData PeriodRange Attempts DataFrame Scrape
  SpecCal CalFacts CalProofs SpecCoord SpecCoordFacts SpecParams BuildFacts BuildInv ParamsFacts ParamsProofs
  TimeFacts SpecTime SpecData DataFacts SpecFrames SpecScrape ScrapeFacts TextProofs FrameProofs FrameProofs2 DataProofs ScrapeProofs2 TimeProofs TimeProofs2 SpecEnd RangeExact TimeEnd
  EndFacts EndProofs EndAttempt IndexWalk IndexTexts SpecCycles.
Local Open Scope Z_scope.

Lemma share_app {A} fr c : forall (l l' : list A) k, share fr c k (l ++ l') = share fr c k l ++ share fr c (k + List.length l) l'.
Proof.
  induction l as [|x l IH]; intros l' k.
  - cbn [app share List.length]. rewrite Nat.add_0_r. reflexivity.
  - cbn [app share List.length]. rewrite (IH l' (S k)). replace (S k + List.length l)%nat with (k + S (List.length l))%nat by lia.
    destruct (cycle_letter fr k) as [d|]; auto. destruct (ascii_dec d c); auto.
Qed.
Lemma share_map {A B} (g : A -> B) fr c : forall l k, share fr c k (map g l) = map g (share fr c k l).
Proof.
  induction l as [|x l IH]; intros k; auto. cbn [map share]. rewrite IH. destruct (cycle_letter fr k) as [d|]; auto. destruct (ascii_dec d c); auto.
Qed.
Lemma share_values fr c : forall vs k, values_of fr c k vs = share fr c k vs.
Proof. induction vs as [|v vs IH]; intros k; cbn [values_of share]; auto. rewrite IH. reflexivity. Qed.
Lemma share_length {A B} fr c : forall (l : list A) (l' : list B) k, List.length l = List.length l' -> List.length (share fr c k l) = List.length (share fr c k l').
Proof.
  induction l as [|x l IH]; intros [|y l'] k E; try discriminate; auto. cbn [share]. injection E as E. pose proof (IH l' (S k) E).
  destruct (cycle_letter fr k) as [d|]; auto. destruct (ascii_dec d c); cbn; auto.
Qed.
Lemma share_in {A} fr c (x : A) : forall l k, In x (share fr c k l) -> In x l.
Proof.
  induction l as [|y l IH]; intros k H; auto. cbn [share] in H. destruct (cycle_letter fr k) as [d|]; [destruct (ascii_dec d c)|]; cbn; eauto.
  destruct H as [->|H]; eauto.
Qed.

(** the date with letter [c] before position [i], if any *)
Definition last_of (fr : text) (c : ascii) (ds : list datetime) (i : nat) : option datetime := hd_error (rev (share fr c 0 (firstn i ds))).
Lemma first_next {A} (l : list A) i x : nth_error l i = Some x -> firstn (S i) l = firstn i l ++ [x] /\ l = firstn i l ++ x :: skipn (S i) l /\ List.length (firstn i l) = i.
Proof.
  revert i. induction l as [|y l IH]; intros [|i] E; try discriminate; [injection E as ->; auto|]. cbn in E. destruct (IH i E) as (A1 & A2 & A3).
  cbn [firstn skipn app List.length]. split; [f_equal; exact A1|]. split; [f_equal; exact A2|]. f_equal. exact A3.
Qed.
Lemma last_next fr c ds i x b : nth_error ds i = Some x -> cycle_letter fr i = Some b ->
  last_of fr c ds (S i) = if ascii_dec b c then Some x else last_of fr c ds i.
Proof.
  intros E C. destruct (first_next _ _ _ E) as (A1 & _ & A3). unfold last_of. rewrite A1, share_app, A3. cbn [Nat.add share]. rewrite C.
  destruct (ascii_dec b c); [|rewrite app_nil_r; auto]. rewrite rev_app_distr. reflexivity.
Qed.
Lemma consecutive_mid f x y l2 : forall l1, consecutive f (l1 ++ x :: y :: l2) -> one_period f x y.
Proof.
  induction l1 as [|a l1 IH]; cbn [app]; intros H.
  - inversion H; auto.
  - apply IH. inversion H as [? E|]; subst; auto. destruct l1; discriminate.
Qed.
Lemma share_step fr c ds i x y : nth_error ds i = Some y -> cycle_letter fr i = Some c -> last_of fr c ds i = Some x ->
  consecutive (letter c) (share fr c 0 ds) -> one_period (letter c) x y.
Proof.
  intros E C L H. destruct (first_next _ _ _ E) as (_ & A2 & A3). rewrite A2, share_app, A3 in H. cbn [Nat.add share] in H. rewrite C in H.
  destruct (ascii_dec c c); [|congruence]. unfold last_of in L. destruct (share fr c 0 (firstn i ds)) as [|z l0] using rev_ind; [discriminate|].
  rewrite rev_app_distr in L. injection L as ->. rewrite <- app_assoc in H. cbn [app] in H. eapply consecutive_mid; eauto.
Qed.

(** cleaning never makes a sheet smaller *)
Definition larger (w w' : worksheet) : Prop := max_row w <= max_row w' /\ max_col w <= max_col w'.
Lemma larger_refl w : larger w w. Proof. split; lia. Qed.
Lemma larger_trans a b c : larger a b -> larger b c -> larger a c. Proof. intros [] []. split; lia. Qed.
Lemma larger_touch r c w : larger w (touch r c w). Proof. split; cbn; lia. Qed.
Lemma larger_time al tl q w : larger w (touch_time al tl q w).
Proof.
  destruct tl as [l|ls]; cbn [touch_time]; [apply larger_touch|]. revert w. induction ls as [|l ls IH]; intros w; cbn [fold_left]; [apply larger_refl|].
  eapply larger_trans; [|apply IH]. apply larger_touch.
Qed.
Lemma loop_larger e p tl wl positions : forall prev st w' r, clean_loop e p tl wl positions prev st = (w', r) -> larger (cs_ws st) w'.
Proof.
  induction positions as [|pos rest IH]; intros prev st w' r H; cbn [clean_loop] in H.
  - destruct prev; inversion H; apply larger_refl.
  - destruct (do c <- _; _) as [[curr next]|x]; [|inversion H; apply larger_refl].
    set (w1 := axis_touch _ wl pos _) in H.
    assert (C1 : larger (cs_ws st) w1).
    { unfold w1, axis_touch. eapply larger_trans; [|apply larger_touch]. eapply larger_trans; apply larger_time. }
    assert (WR : forall v, larger (cs_ws st) (axis_write (sp_al p) wl pos v w1)).
    { intros v. eapply larger_trans; [exact C1|]. split; cbn; lia. }
    destruct (must_be_time _ curr).
    + destruct (process_value _ _ _ _ _) as [sticky [[[d lasts] lf]|x]].
      * apply IH in H. eapply larger_trans; [|exact H]. apply WR.
      * destruct (_ || _).
        -- apply IH in H. eapply larger_trans; [|exact H]. apply WR.
        -- destruct (_ && _); inversion H; subst; auto.
    + destruct (_ && _).
      * apply IH in H. eapply larger_trans; [|exact H]. auto.
      * inversion H; subst. auto.
Qed.
Lemma clean_larger e w p w' r : clean_time_index e w p = (w', r) -> larger w w'.
Proof.
  intros H. destruct (clean_split _ _ _ _ _ H) as [[-> _]|(L & tl & wl & TL & WL & C)]; [apply larger_refl|]. apply loop_larger in C. exact C.
Qed.

Section Cycles.
Variables (e : env) (w : worksheet) (al : align) (f : string) (t : text) (r c z : Z) (ds : list datetime) (s0 : sp).
Let m := z + Z.of_nat (List.length ds) - 1.
Let F := T f.
Hypothesis letters : (2 <= List.length F)%nat.
Hypothesis cons : forall c, In c F -> consecutive (letter c) (share F c 0 ds).
Hypothesis real : Forall real_date ds.
Hypothesis two : (2 <= List.length ds)%nat.
Hypothesis named : cell_named t r c.
Hypothesis low : 1 <= z.
Hypothesis high : al = Horiz -> m < 18278.
Hypothesis O0 : open_series al t F z m s0.
Hypothesis simple : sp_composed s0 = false.
Hypothesis index : forall k d, nth_error ds k = Some d -> holds s0 w (z + Z.of_nat k) (VDate d).
Hypothesis ends : index_ends s0 w m.

Definition before_cycle (q : Z) (k : option strat) (lasts : ascii -> option datetime) (lf : text) : Prop :=
  lf = seen F (Z.to_nat (q - z)) /\ forall c, lasts c = last_of F c ds (Z.to_nat (q - z)).

Lemma cycle_step q st d nv : z <= q <= m -> nth_error ds (Z.to_nat (q - z)) = Some d -> before_cycle q (cs_parser st) (cs_lasts st) (cs_lf st) ->
  exists k lasts lf, process_value e s0 st (VDate d) nv = (k, Ok (d, lasts, lf)) /\ before_cycle (q + 1) k lasts lf.
Proof.
  intros Q N [B1 B2]. pose proof O0 as (O1 & O2 & O3 & O4 & O5 & O6 & O7 & O9). set (i := Z.to_nat (q - z)) in *.
  assert (NF : F <> []) by (intros X; rewrite X in letters; cbn in letters; lia).
  destruct (next_cycle F i NF) as (b & CB & NX).
  unfold process_value. destruct (pool_keeps e (mktp (sp_composed s0) (sp_freq s0)) (cs_parser st) d (cs_last st) nv) as (k & PK); [exact simple|]. rewrite PK. cbn [bind].
  unfold correct_state. rewrite O6. replace (Nat.eqb (List.length F) 1) with false by (symmetry; apply Nat.eqb_neq; lia).
  rewrite B1, NX. cbn [bind fst snd].
  assert (CP : correct_progression (cs_lasts st b) d [b] (sp_missings s0) (sp_mv s0) = Ok d).
  { rewrite B2. destruct (last_of F b ds i) as [x|] eqn:LX; [|reflexivity]. cbn [correct_progression].
    assert (IB : In b F) by (unfold cycle_letter in CB; eapply nth_error_In; eauto).
    pose proof (share_step F b ds i x d N CB LX (cons b IB)) as OP.
    assert (RX : real_date x). { rewrite Forall_forall in real. apply real. unfold last_of in LX. rewrite <- (firstn_skipn i ds). apply in_or_app. left.
      apply (share_in F b x (firstn i ds) 0). apply in_rev. destruct (rev (share F b 0 (firstn i ds))); [discriminate|]. injection LX as ->. left. auto. }
    assert (RD : real_date d). { rewrite Forall_forall in real. apply real. eapply nth_error_In; eauto. }
    change [b] with (T (letter b)). rewrite (period_step _ _ _ RX RD OP). cbn [bind]. rewrite (proj2 (dt_eqb_eq d d) eq_refl). reflexivity. }
  rewrite CP. cbn [bind fst]. rewrite andb_false_r. eexists _, _, _. split; [reflexivity|].
  unfold before_cycle. replace (Z.to_nat (q + 1 - z)) with (S i) by lia. split; auto. intros a. unfold set_last. rewrite (last_next F a ds i d b N CB), B2. 
  destruct (ch_eqb a b) eqn:E; destruct (ascii_dec b a) as [EQ|NE]; auto.
  - apply ch_eqb_eq in E. congruence.
  - subst b. rewrite (proj2 (ch_eqb_eq a a) eq_refl) in E. discriminate.
Qed.

Lemma cycles_cleaned : exists w', clean_time_index e w s0 = (w', Ok m) /\ same_cells w w'.
Proof.
  pose proof O0 as (O1 & O2 & O3 & O4 & O5 & O6 & O7 & O9). assert (ML : z < m) by (unfold m; lia).
  assert (D0 : exists d0, hd_error ds = Some d0) by (destruct ds; [cbn in two; lia|eexists; reflexivity]). destruct D0 as (d0 & D0).
  destruct (walk_index_inv before_cycle e w s0 t r c (fun q => nth (Z.to_nat (q - z)) ds d0) m) as (w' & CT & HD & OUT); auto.
  - rewrite O6. intros X. rewrite X in letters. cbn in letters. lia.
  - rewrite O3. split; [lia|]. rewrite O1. destruct al; auto.
  - rewrite O3. unfold before_cycle. replace (Z.to_nat (z - z)) with 0%nat by lia. split; reflexivity.
  - rewrite O3. intros q Q. assert (LT : (Z.to_nat (q - z) < List.length ds)%nat) by (unfold m in Q; lia).
    pose proof (nth_error_nth' ds d0 LT) as N. exists (VDate (nth (Z.to_nat (q - z)) ds d0)).
    pose proof (index _ _ N) as HQ. replace (z + Z.of_nat (Z.to_nat (q - z))) with q in HQ by lia.
    destruct (line_known s0 t r c O2 named) as [wl WL].
    exists (axis_val (sp_al s0) w wl (q + 1)). split; auto. split; [intros NT; inversion NT|]. split; [apply (holds_iff _ _ _ _ _ WL); auto|].
    intros st _ B. apply cycle_step; auto.
  - rewrite O3. lia.
  - rewrite O3, O5. lia.
  - exists w'. rewrite O5, Z.sub_0_r in CT. split; auto. destruct (clean_larger _ _ _ _ _ CT) as [L1 L2]. split; [|auto].
    intros i j. destruct (line_known s0 t r c O2 named) as [wl WL].
    assert (DEC : (exists q, sp_starts s0 <= q <= m /\ i = axis_row (sp_al s0) wl q /\ j = axis_col (sp_al s0) wl q) \/
      forall q, sp_starts s0 <= q <= m -> ~ (i = axis_row (sp_al s0) wl q /\ j = axis_col (sp_al s0) wl q)).
    { unfold axis_row, axis_col. destruct (sp_al s0).
      - assert (D : (sp_starts s0 <= i <= m /\ j = wl) \/ ~ (sp_starts s0 <= i <= m /\ j = wl)) by lia. destruct D as [D|D]; [left; exists i; intuition|right; intros q Q [X Y]; lia].
      - assert (D : (sp_starts s0 <= j <= m /\ i = wl) \/ ~ (sp_starts s0 <= j <= m /\ i = wl)) by lia. destruct D as [D|D]; [left; exists j; intuition|right; intros q Q [X Y]; lia]. }
    destruct DEC as [(q & Q & -> & ->)|DEC].
    + pose proof (HD q Q) as H1. rewrite O3 in Q. assert (LT : (Z.to_nat (q - z) < List.length ds)%nat) by (unfold m in Q; lia).
      pose proof (index _ _ (nth_error_nth' ds d0 LT)) as H2. replace (z + Z.of_nat (Z.to_nat (q - z))) with q in H2 by lia.
      apply (holds_iff _ _ _ _ _ WL) in H1, H2. unfold axis_val in *. congruence.
    + symmetry. apply OUT. intros q Q IC. apply (index_cell_iff _ _ _ _ _ WL) in IC. inversion IC. apply (DEC q Q). auto.
Qed.
End Cycles.
