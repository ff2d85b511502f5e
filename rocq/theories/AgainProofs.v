(** Proofs for C85: cleaning an index that was cleaned already. *)
From Coq Require Import Sorted ZifyBool ZifyNat.
From Verif Require Import Base BaseFacts Cal Coord CoordFacts XlMethods Params ParseTime TimeIndex TimeFacts TimeProofs SpecFrames.
Local Open Scope Z_scope.

Lemma progress_again last c0 f ms mv d : py_eq mv (str_ "Implicit") = false -> correct_progression last c0 f ms mv = Ok d -> correct_progression last d f ms mv = Ok d.
Proof.
  intros M H. destruct last as [l|]; cbn [correct_progression] in *; [|reflexivity].
  destruct (increment_time l 1 f) as [ex|x]; cbn [bind] in *; [|discriminate].
  destruct (dt_eqb ex c0) eqn:E1; [injection H as <-; rewrite E1; reflexivity|].
  destruct (dt_ltb c0 l) eqn:E2.
  - destruct (time_value_typo c0 ex); [|discriminate]. injection H as <-. rewrite dt_eqb_refl. reflexivity.
  - destruct (dt_ltb l c0 && negb ms) eqn:E3.
    + destruct (time_value_typo c0 ex); [|discriminate]. injection H as <-. rewrite dt_eqb_refl. reflexivity.
    + destruct (increment_time l (max_forth_units f) f) as [mx|x] eqn:E4; cbn [bind] in H; [|discriminate]. rewrite M, andb_false_r in H. injection H as <-.
      rewrite E1, E2, E3. cbn [bind]. rewrite M, andb_false_r. reflexivity.
Qed.

(** a date in a cell is taken as it is, whatever strategy is at hand *)
Lemma parse_date e tp s d last next : parse_time e tp s (VDate d) last next = Ok d.
Proof. destruct s; reflexivity. Qed.
Lemma pool_date e tp k d last next : tp_composed tp = false -> exists k', parse_with_pool e tp k (VDate d) last next = (k', Ok d).
Proof.
  intros C. unfold parse_with_pool. destruct k as [k|].
  - rewrite parse_date. eauto.
  - unfold strategies. cbn [pool_loop accepts]. rewrite C. rewrite parse_date. eauto.
Qed.
Definition rest_of (s : sp) (st : cstate) (d : datetime) : res (datetime * (ascii -> option datetime) * text) :=
  do x <- correct_state s st d; if same_as_last (fst (fst x)) (cs_last st) && Nat.eqb (List.length (sp_freq s)) 1 then Err ESame else Ok x.
Lemma process_given e s st d n : sp_composed s = false -> exists k, process_value e s st (VDate d) n = (k, rest_of s st d).
Proof.
  intros C. unfold process_value. destruct (pool_date e (mktp (sp_composed s) (sp_freq s)) (cs_parser st) d (cs_last st) n C) as (k & ->). exists k. reflexivity.
Qed.
Lemma rest_again s st d x : py_eq (sp_mv s) (str_ "Implicit") = false -> rest_of s st d = Ok x -> rest_of s st (fst (fst x)) = Ok x.
Proof.
  intros M H. unfold rest_of in *. apply bind_ok in H as (y & Y & H).
  destruct (same_as_last (fst (fst y)) (cs_last st) && Nat.eqb (List.length (sp_freq s)) 1) eqn:E; [discriminate|]. injection H as <-.
  assert (Y' : correct_state s st (fst (fst y)) = Ok y).
  { unfold correct_state in *. destruct (Nat.eqb (List.length (sp_freq s)) 1).
    - apply bind_ok in Y as (d0 & D & Y). injection Y as <-. cbn [fst]. rewrite (progress_again _ _ _ _ _ _ M D). reflexivity.
    - apply bind_ok in Y as (cf & CF & Y). apply bind_ok in Y as (d0 & D & Y). injection Y as <-. cbn [fst]. rewrite CF. cbn [bind]. rewrite (progress_again _ _ _ _ _ _ M D). reflexivity. }
  rewrite Y'. cbn [bind]. rewrite E. reflexivity.
Qed.
Lemma process_rest e s st v n k x : process_value e s st v n = (k, Ok x) -> exists d, rest_of s st d = Ok x.
Proof.
  unfold process_value. destruct (parse_with_pool _ _ _ _ _ _) as [k0 r]. intros H. injection H as _ H. apply bind_ok in H as (d & _ & H). exists d. exact H.
Qed.

Lemma read_any al w w' l q v : axis_read al w l q = Ok v -> axis_read al w' l q = Ok (axis_val al w' l q).
Proof. unfold axis_read, read, axis_val. destruct (cell_ok _ _); congruence. Qed.
Lemma read_at w l q : 1 <= l <= max_column -> 1 <= q -> axis_read Vert w l q = Ok (axis_val Vert w l q).
Proof. intros L Q. unfold axis_read, read, axis_val, cell_ok. cbn [axis_row axis_col]. replace (_ && _) with true by lia; reflexivity. Qed.

Definition lastp (prev : option Z) (l : list Z) : option Z := fold_left (fun _ x => Some x) l prev.

Section Again.
Variables (e : env) (s : sp) (wl : Z).
Hypothesis NC : sp_composed s = false.
Hypothesis MV : py_eq (sp_mv s) (str_ "Implicit") = false.
Notation tl := (OneLine wl).
Notation val := (axis_val (sp_al s)).
Notation time := (must_be_time (negb (sp_ta s =? 0))).

Lemma cells_val w w' q : (forall r c, cell w' r c = cell w r c) -> val w' wl q = val w wl q.
Proof. intros C. apply C. Qed.
Definition touched_at (q : Z) (w : worksheet) : worksheet := axis_touch (sp_al s) wl q (touch_time (sp_al s) tl (q + 1) (touch_time (sp_al s) tl q w)).
Lemma touched_cells q w r c : cell (touched_at q w) r c = cell w r c.
Proof. reflexivity. Qed.
Lemma touched_same q w : same_cells w (touched_at q w).
Proof. split; [reflexivity|]. unfold touched_at, axis_touch, touch_time, axis_touch, touch. cbn. lia. Qed.
Lemma write_same q v w : val w wl q = v -> same_cells w (axis_write (sp_al s) wl q v w).
Proof.
  intros V. split; [|unfold axis_write, write; cbn; lia]. intros r c. unfold axis_write, write. cbn [cell]. destruct ((r =? _) && (c =? _)) eqn:E; auto.
  rewrite <- V. unfold axis_val. apply andb_true_iff in E as [E1 E2]. apply Z.eqb_eq in E1, E2. subst. reflexivity.
Qed.
Lemma same_tr a b c : same_cells a b -> same_cells b c -> same_cells a c.
Proof. intros (A1 & A2 & A3) (B1 & B2 & B3). split; [intros; rewrite A1; auto|lia]. Qed.
Lemma estimate_cells w w' q z : (forall r c, cell w' r c = cell w r c) -> estimate_end (sp_al s) w wl q (sp_starts s) z = estimate_end (sp_al s) w' wl q (sp_starts s) z.
Proof.
  intros C. unfold estimate_end. destruct (sp_al s).
  - f_equal. f_equal. generalize (Z.to_nat (q - sp_starts s)). intros n. revert q. induction n as [|n IH]; intros q; cbn [walk_back]; unfold axis_val; rewrite C; auto. rewrite IH. auto.
  - unfold axis_val. rewrite C. reflexivity.
Qed.

(** blank positions after the last one *)
Lemma loop_blank : sp_al s = Vert -> 1 <= wl <= max_column -> 1 <= sp_starts s -> forall m l q st z, l = zrange (q + 1) m -> sp_starts s <= q -> (forall p, q < p -> val (cs_ws st) wl p = VNone) ->
  estimate_end (sp_al s) (cs_ws st) wl q (sp_starts s) (sp_ta s) = Ok z ->
  exists v, clean_loop e s tl wl l (Some q) st = (v, Ok z) /\ same_cells (cs_ws st) v.
Proof.
  intros AL WL ST m l. induction l as [|p l IH]; intros q st z L Q B E; cbn [clean_loop].
  - exists (cs_ws st). rewrite E. split; auto. split; [auto|lia].
  - assert (LM : q + 1 <= m). { assert (I : In p (zrange (q + 1) m)) by (rewrite <- L; left; auto). apply zrange_In in I. lia. }
    rewrite zrange_cons in L by lia. injection L as -> L. cbn [time_value]. pose proof (B (q + 1) ltac:(lia)) as B0. rewrite AL, !read_at by lia. rewrite <- AL. cbn [bind]. rewrite B0.
    assert (E' : forall w, (forall r c, cell w r c = cell (cs_ws st) r c) -> estimate_end (sp_al s) w wl (q + 1) (sp_starts s) (sp_ta s) = Ok z).
    { intros w C. rewrite <- (estimate_cells (cs_ws st) w (q + 1) (sp_ta s) C). rewrite <- E. unfold estimate_end. rewrite AL. f_equal.
      replace (Z.to_nat (q + 1 - sp_starts s)) with (S (Z.to_nat (q - sp_starts s))) by lia. cbn [walk_back]. pose proof (B (q + 1)) as B1. rewrite AL in B1. rewrite B1 by lia. cbn [is_date].
      replace (q + 1 - 1) with q by lia. reflexivity. }
    change (must_be_time (negb (sp_ta s =? 0)) VNone) with false. cbv iota.
    fold (touched_at (q + 1) (cs_ws st)). destruct ((cs_count st <? NO_TIME_VALUE_LIMIT) && (negb (sp_cont s) || sp_blank s)).
    + destruct (IH (q + 1) (mkcs (touched_at (q + 1) (cs_ws st)) (cs_parser st) (cs_last st) (cs_count st + 1) (cs_lasts st) (cs_lf st)) z L) as (v & V1 & V2).
      * lia.
      * intros p0 P0. cbn [cs_ws]. rewrite <- (B p0) by lia. reflexivity.
      * apply E'. reflexivity.
      * exists v. split; auto. eapply same_tr; [apply (touched_same (q + 1))|exact V2].
    + exists (touched_at (q + 1) (cs_ws st)). cbn [cs_ws]. rewrite E' by reflexivity. split; auto. apply touched_same.
Qed.

Lemma loop_again m : forall positions rest prev st w1 z v k, StronglySorted Z.lt positions ->
  clean_loop e s tl wl positions prev st = (w1, Ok z) ->
  (forall q, In q positions -> (exists d, val w1 wl q = VDate d) \/ time (val (cs_ws st) wl q) = false) ->
  (rest = [] \/ (sp_al s = Vert /\ 1 <= wl <= max_column /\ 1 <= sp_starts s /\ forall q, lastp prev positions = Some q -> sp_starts s <= q /\ rest = zrange (q + 1) m /\ forall p, q < p -> val w1 wl p = VNone)) ->
  (forall r c, cell v r c = cell w1 r c) ->
  exists v', clean_loop e s tl wl (positions ++ rest) prev (mkcs v k (cs_last st) (cs_count st) (cs_lasts st) (cs_lf st)) = (v', Ok z) /\ same_cells v v'.
Proof.
  induction positions as [|pos l IH]; intros rest prev st w1 z v k SS H G R C.
  - cbn [app clean_loop] in *. destruct prev as [q|]; [|discriminate]. injection H as <- E.
    rewrite (estimate_cells (cs_ws st) v q (sp_ta s) C) in E. destruct R as [->|(AL & WL & ST & R)].
    + cbn [clean_loop cs_ws]. rewrite E. exists v. split; auto. split; [auto|lia].
    + destruct (R q eq_refl) as (Q & -> & B). apply (loop_blank AL WL ST m _ q (mkcs v k (cs_last st) (cs_count st) (cs_lasts st) (cs_lf st)) z); auto. intros p P. cbn [cs_ws]. rewrite <- (B p) by lia. apply C.
  - pose proof (StronglySorted_inv SS) as [SR F]. rewrite Forall_forall in F. assert (NP : ~ In pos l) by (intros J; specialize (F pos J); lia).
    cbn [app clean_loop] in *. cbn [time_value] in *. cbn [cs_ws cs_parser cs_last cs_count cs_lasts cs_lf].
    destruct (axis_read (sp_al s) (cs_ws st) wl pos) as [c|x] eqn:RC; cbn [bind] in H; [|discriminate].
    destruct (axis_read (sp_al s) (cs_ws st) wl (pos + 1)) as [n|x] eqn:RN; cbn [bind] in H; [|discriminate].
    rewrite (read_any _ _ v _ _ _ RC), (read_any _ _ v _ _ _ RN). cbn [bind].
    pose proof (axis_read_ok _ _ _ _ _ RC) as VC.
    fold (touched_at pos (cs_ws st)) in H. fold (touched_at pos v).
    assert (R' : rest = [] \/ (sp_al s = Vert /\ 1 <= wl <= max_column /\ 1 <= sp_starts s /\ forall q, lastp (Some pos) l = Some q -> sp_starts s <= q /\ rest = zrange (q + 1) m /\ forall p, q < p -> val w1 wl p = VNone)) by exact R.
    assert (GL : forall st', (forall q, In q l -> val (cs_ws st') wl q = val (cs_ws st) wl q) -> forall q, In q l -> (exists d, val w1 wl q = VDate d) \/ time (val (cs_ws st') wl q) = false).
    { intros st' S' q I. rewrite S' by auto. apply G. right. auto. }
    assert (WV : forall x q, In q l -> val (axis_write (sp_al s) wl pos x (touched_at pos (cs_ws st))) wl q = val (cs_ws st) wl q).
    { intros x q I. unfold axis_val, axis_write, write. cbn [cell]. assert (q <> pos) by (intros ->; auto). destruct (sp_al s); cbn [axis_row axis_col]; replace (_ && _) with false by lia; reflexivity. }
    destruct (time c) eqn:TC.
    + destruct (process_value e s _ c n) as [k0 r] eqn:PV. destruct r as [[[d ls] lf]|x].
      * assert (VP : val w1 wl pos = VDate d).
        { rewrite (loop_val e s tl wl _ _ _ _ _ pos H NP). cbn [cs_ws]. unfold axis_val, axis_write, write. cbn [cell]. rewrite !Z.eqb_refl. reflexivity. }
        assert (VV : val v wl pos = VDate d) by (rewrite <- VP; apply C). rewrite VV.
        assert (TD : time (VDate d) = true) by (unfold must_be_time; cbn; rewrite andb_false_r; reflexivity). rewrite TD.
        set (st2 := mkcs (touched_at pos v) k (cs_last st) (cs_count st) (cs_lasts st) (cs_lf st)).
        destruct (process_given e s st2 d (val v wl (pos + 1)) NC) as (k' & ->).
        destruct (process_rest _ _ _ _ _ _ _ PV) as (d0 & D0). apply (rest_again _ _ _ _ MV) in D0. cbn [fst] in D0.
        change (rest_of s st2 d) with (rest_of s (mkcs (touched_at pos (cs_ws st)) (cs_parser st) (cs_last st) (cs_count st) (cs_lasts st) (cs_lf st)) d). rewrite D0.
        assert (W2 : same_cells v (axis_write (sp_al s) wl pos (VDate d) (touched_at pos v))).
        { eapply same_tr; [apply (touched_same pos)|]. apply write_same. exact VV. }
        edestruct (IH rest (Some pos) _ w1 z (axis_write (sp_al s) wl pos (VDate d) (touched_at pos v)) k' SR H) as (v' & V1 & V2).
        -- apply GL. intros q I. cbn [cs_ws]. apply WV. auto.
        -- exact R'.
        -- intros r c0. rewrite <- C. symmetry. apply W2.
        -- exists v'. split; [exact V1|]. eapply same_tr; [exact W2|exact V2].
      * destruct (exn_eqb x EDay || exn_eqb x EMonth) eqn:XE.
        -- exfalso. destruct (G pos (or_introl eq_refl)) as [(d & D)|D]; [|unfold axis_val in D, VC; rewrite <- VC in D; congruence].
           rewrite (loop_val e s tl wl _ _ _ _ _ pos H NP) in D. cbn [cs_ws] in D. unfold axis_val, axis_write, write in D. cbn [cell] in D. rewrite !Z.eqb_refl in D. discriminate.
        -- destruct (ends_index x && _) eqn:EI; [|discriminate]. injection H as <- E.
           destruct (G pos (or_introl eq_refl)) as [(d & D)|D]; [|unfold axis_val in D, VC; rewrite <- VC in D; congruence].
           cbn [cs_ws] in D. assert (CD : c = VDate d) by (rewrite VC; exact D). rewrite CD in PV.
           assert (VV : val v wl pos = VDate d) by (rewrite <- D; apply C). rewrite VV.
           assert (TD : time (VDate d) = true) by (unfold must_be_time; cbn; rewrite andb_false_r; reflexivity). rewrite TD.
           set (st2 := mkcs (touched_at pos v) k (cs_last st) (cs_count st) (cs_lasts st) (cs_lf st)).
           destruct (process_given e s st2 d (val v wl (pos + 1)) NC) as (k' & ->).
           match type of PV with process_value e s ?s0 _ _ = _ => destruct (process_given e s s0 d n NC) as (k1 & P1); rewrite P1 in PV; injection PV as _ PV; change (rest_of s st2 d) with (rest_of s s0 d); rewrite PV end.
           rewrite XE, EI. exists (touched_at pos v). unfold st2. cbn [cs_ws] in *. rewrite (estimate_cells _ (touched_at pos v)) in E by (intros; apply C). rewrite E. split; auto. apply touched_same.
    + assert (CV : forall w', (forall r c0, cell w' r c0 = cell (cs_ws st) r c0) -> (forall r c0, cell w' r c0 = cell w1 r c0) -> val v wl pos = c).
      { intros w' A B. rewrite VC. unfold axis_val. rewrite C, <- B, A. reflexivity. }
      assert (VV : val v wl pos = c).
      { destruct ((cs_count st <? NO_TIME_VALUE_LIMIT) && (negb (sp_cont s) || sp_blank s)).
        - rewrite VC. transitivity (val w1 wl pos); [apply C|]. rewrite (loop_val e s tl wl _ _ _ _ _ pos H NP). reflexivity.
        - injection H as <- _. rewrite VC. apply C. }
      rewrite VV, TC. destruct ((cs_count st <? NO_TIME_VALUE_LIMIT) && (negb (sp_cont s) || sp_blank s)).
      * edestruct (IH rest (Some pos) _ w1 z (touched_at pos v) k SR H) as (v' & V1 & V2).
        -- apply GL. intros q I. reflexivity.
        -- exact R'.
        -- intros r c0. rewrite <- C. reflexivity.
        -- exists v'. split; [exact V1|]. eapply same_tr; [apply (touched_same pos)|exact V2].
      * injection H as <- E. exists (touched_at pos v). cbn [cs_ws] in *. rewrite (estimate_cells _ (touched_at pos v)) in E by (intros; apply C). rewrite E. split; auto. apply touched_same.
Qed.
End Again.
