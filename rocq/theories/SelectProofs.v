(** Proofs for C83: the time index. *)
From Verif Require Import Base BaseFacts Cal Coord XlMethods Params ParseTime TimeIndex GetData PeriodRange DataFrame Scrape SpecParams SpecFrames FrameProofs FrameProofs2 SpecSelect.
Local Open Scope Z_scope.

(** series that may only differ in their headers *)
Definition alike (s s' : sp) : Prop :=
  sp_al s' = sp_al s /\ sp_starts s' = sp_starts s /\ sp_ends s' = sp_ends s /\ sp_cont s' = sp_cont s /\ sp_blank s' = sp_blank s /\
  sp_missings s' = sp_missings s /\ sp_mv s' = sp_mv s /\ sp_ta s' = sp_ta s /\ sp_multi s' = sp_multi s /\ sp_th s' = sp_th s /\
  sp_composed s' = sp_composed s /\ sp_freq s' = sp_freq s.

Lemma clean_loop_alike e s s' tl wl : alike s s' -> forall positions prev st, clean_loop e s' tl wl positions prev st = clean_loop e s tl wl positions prev st.
Proof.
  intros A. destruct A as (A1 & A2 & A3 & A4 & A5 & A6 & A7 & A8 & A9 & A10 & A11 & A12).
  assert (P : forall st c n, process_value e s' st c n = process_value e s st c n).
  { intros st c n. unfold process_value, correct_state. rewrite A11, A12, A6, A7. reflexivity. }
  induction positions as [|pos rest IH]; intros prev st; cbn [clean_loop]; rewrite ?A1, ?A2, ?A3, ?A4, ?A5, ?A8; [reflexivity|].
  destruct (do c <- time_value e (sp_al s) (cs_ws st) tl pos; do n <- time_value e (sp_al s) (cs_ws st) tl (pos + 1); do _ <- axis_read (sp_al s) (cs_ws st) wl pos; Ok (c, n)) as [[c n]|x]; [|reflexivity].
  destruct (must_be_time (negb (sp_ta s =? 0)) c).
  - rewrite P. destruct (process_value e s _ c n) as [k r]. destruct r as [[[d ls] lf]|x]; [apply IH|]. destruct (exn_eqb x EDay || exn_eqb x EMonth); [apply IH|reflexivity].
  - destruct ((cs_count st <? NO_TIME_VALUE_LIMIT) && (negb (sp_cont s) || sp_blank s)); [apply IH|reflexivity].
Qed.
Lemma clean_alike e w s s' : alike s s' -> clean_time_index e w s' = clean_time_index e w s.
Proof.
  intros A. pose proof A as (A1 & A2 & A3 & A4 & A5 & A6 & A7 & A8 & A9 & A10 & A11 & A12).
  assert (C : forall k, combo_accepts k s' = combo_accepts k s).
  { intros k. unfold combo_accepts, accepts_table, accepts_col, accepts_offset. rewrite A3, A4, A5, A8, A9, A12. reflexivity. }
  unfold clean_time_index. replace (find (fun k => combo_accepts k s') combos) with (find (fun k => combo_accepts k s) combos).
  - destruct (find _ combos) as [k|]; [|reflexivity]. destruct (k_multitable k); [reflexivity|]. unfold clean_single_table, last_position. rewrite A1, A2, A3, A9, A10.
    destruct (zrange _ _); [reflexivity|]. destruct (time_lines _ _ _); [|reflexivity]. destruct (write_line _ _); [|reflexivity]. apply clean_loop_alike. auto.
  - generalize combos. induction l as [|k l IH]; cbn [find]; [reflexivity|]. rewrite C, IH. reflexivity.
Qed.

(** ** The parameters of a series *)
Definition ALL : list text := own_params ++ index_params.
Lemma all_names k : In k PARAM_NAMES -> In k ALL.
Proof. intros I. cbn in I. unfold ALL, own_params, index_params. cbn. repeat (destruct I as [<-|I]; [tauto|]). destruct I. Qed.
Definition at_ (p : dict) (i : nat) (k : text) : pyval := match dgetN k p with VList l => nth i l VNone | v => v end.
Definition lists (n : nat) (p : dict) : Prop := forall k, In k ALL -> exists l, dget k p = Some (VList l) /\ List.length l = n.
Lemma dgetN_of k p v : dget k p = Some v -> dgetN k p = v.
Proof. unfold dgetN. intros ->. reflexivity. Qed.
Lemma get_at n p i : lists n p -> (i < n)%nat -> get_series_params p i = Ok (map (fun k => (k, at_ p i k)) PARAM_NAMES).
Proof.
  intros L I. unfold get_series_params.
  assert (G : forall ks acc, (forall k, In k ks -> In k PARAM_NAMES) ->
    foldM (fun acc k => let v := dgetN k p in if is_none v then Ok acc else do x <- py_index v i; Ok (acc ++ [(k, x)])) ks acc = Ok (acc ++ map (fun k => (k, at_ p i k)) ks)).
  { induction ks as [|k ks IH]; intros acc K; cbn [foldM map]; [rewrite app_nil_r; reflexivity|]. destruct (L k) as (l & D & E); [apply all_names, K; left; auto|].
    unfold at_ at 1. cbv zeta. rewrite (dgetN_of _ _ _ D). cbn [is_none py_index]. rewrite (nth_error_nth' l VNone) by lia. cbn [bind]. rewrite IH by (intros; apply K; right; auto).
    rewrite <- app_assoc. reflexivity. }
  rewrite G by auto. reflexivity.
Qed.
Definition body (f : text -> pyval) : res sp := sp_of (map (fun k => (k, f k)) PARAM_NAMES).
Lemma body_shape f f' : (forall k, In k index_params -> f' k = f k) -> (exists t, f n_headers_coord = VStr t) -> (exists t, f' n_headers_coord = VStr t) ->
  match body f with Err x => body f' = Err x | Ok s => exists s', body f' = Ok s' /\ alike s s' end.
Proof.
  intros E (t & H) (t' & H'). unfold body.
  assert (X : forall g, sp_of (map (fun k => (k, g k)) PARAM_NAMES) =
    do al' <- as_align (g n_alignment); do hc' <- as_text (g n_headers_coord); do ds' <- as_int (g n_data_starts);
    do de' <- (if truthy (g n_data_ends) then do z <- as_int (g n_data_ends); Ok (Some z) else Ok None);
    do ta' <- as_int (g n_time_alignment); do th' <- as_theader (g n_time_header); do fr' <- as_text (g n_frequency);
    Ok (mksp al' (g n_series_names) hc' (g n_composed) (g n_context) ds' de' (truthy (g n_continuity)) (truthy (g n_blank_rows)) (truthy (g n_missings)) (g n_missing_value) ta'
        (truthy (g n_time_multicolumn)) th' (truthy (g n_time_composed)) fr')) by (intros g; reflexivity).
  rewrite !X. clear X. rewrite H, H'. cbn [as_text bind].
  rewrite (E n_alignment), (E n_data_starts), (E n_data_ends), (E n_time_alignment), (E n_time_header), (E n_frequency), (E n_continuity), (E n_blank_rows), (E n_missings), (E n_missing_value), (E n_time_multicolumn), (E n_time_composed) by (cbn; tauto).
  destruct (as_align (f n_alignment)); cbn [bind]; [|reflexivity]. destruct (as_int (f n_data_starts)); cbn [bind]; [|reflexivity].
  destruct (if truthy (f n_data_ends) then _ else _); cbn [bind]; [|reflexivity]. destruct (as_int (f n_time_alignment)); cbn [bind]; [|reflexivity].
  destruct (as_theader (f n_time_header)); cbn [bind]; [|reflexivity]. destruct (as_text (f n_frequency)); cbn [bind]; [|reflexivity].
  eexists. split; [reflexivity|]. unfold alike. cbn. repeat (split; [reflexivity|]). reflexivity.
Qed.

(** ** Objects *)
Definition core (n : nat) (p : dict) : Prop :=
  (forall k, In k index_params -> exists v, dget k p = Some (VList (repeat v n))) /\
  (forall k, In k own_params -> exists l, dget k p = Some (VList l) /\ List.length l = n) /\
  (forall l, dget n_headers_coord p = Some (VList l) -> Forall (fun v => exists t, v = VStr t) l).
Lemma core_lists n p : core n p -> lists n p.
Proof.
  intros (A & B & _) k I. unfold ALL in I. apply in_app_or in I as [I|I]; [auto|]. destruct (A k I) as (v & D). eexists. split; [exact D|apply repeat_length].
Qed.
Lemma at_index n p : core n p -> forall k, In k index_params -> exists v, dget k p = Some (VList (repeat v n)) /\ forall i, (i < n)%nat -> at_ p i k = v.
Proof.
  intros (A & _) k I. destruct (A k I) as (v & D). exists v. split; auto. intros i L. unfold at_. rewrite (dgetN_of _ _ _ D). 
  rewrite (nth_indep _ VNone v) by (rewrite repeat_length; auto). apply nth_repeat.
Qed.
Lemma at_header n p i : core n p -> (i < n)%nat -> exists t, at_ p i n_headers_coord = VStr t.
Proof.
  intros (_ & B & C) I. destruct (B n_headers_coord) as (l & D & L); [cbn; tauto|]. specialize (C l D). unfold at_. rewrite (dgetN_of _ _ _ D). rewrite Forall_forall in C.
  apply C. apply nth_In. lia.
Qed.
Lemma sp_at n p i : core n p -> (i < n)%nat -> series_sp p i = body (at_ p i).
Proof. intros C I. unfold series_sp. rewrite (get_at n p i (core_lists n p C) I). reflexivity. Qed.
Lemma sp_shape n p : core n p -> (0 < n)%nat ->
  (exists x, forall i, (i < n)%nat -> series_sp p i = Err x) \/ (exists s0, forall i, (i < n)%nat -> exists s, series_sp p i = Ok s /\ alike s0 s).
Proof.
  intros C N. pose proof (body_shape (at_ p 0)) as B.
  assert (E : forall i, (i < n)%nat -> forall k, In k index_params -> at_ p i k = at_ p 0 k).
  { intros i I k K. destruct (at_index n p C k K) as (v & _ & H). rewrite !H; auto. }
  destruct (body (at_ p 0)) as [s|x].
  - right. exists s. intros i I. rewrite (sp_at n p i C I). apply B; [apply E; auto|apply (at_header n); auto|apply (at_header n); auto].
  - left. exists x. intros i I. rewrite (sp_at n p i C I). apply B; [apply E; auto|apply (at_header n); auto|apply (at_header n); auto].
Qed.
Lemma picked_length {A} js (l l' : list A) : picked js l l' -> List.length l' = List.length js.
Proof. induction 1; cbn; auto. Qed.
Lemma picked_nth {A} js (l l' : list A) : picked js l l' -> forall k j, nth_error js k = Some j -> nth_error l' k = nth_error l j.
Proof. induction 1; intros [|k] i K; cbn in *; try discriminate; [injection K as <-; auto|auto]. Qed.
Lemma picked_repeat {A} js n (v : A) l' : picked js (repeat v n) l' -> l' = repeat v (List.length js).
Proof.
  induction 1 as [|j x js l' H _ IH]; cbn; [auto|]. rewrite IH. f_equal. apply nth_error_In in H. apply repeat_spec in H. auto.
Qed.
Lemma picked_forall {A} (P : A -> Prop) js l l' : picked js l l' -> Forall P l -> Forall P l'.
Proof. intros H F. rewrite Forall_forall in F. induction H; constructor; auto. apply F. eapply nth_error_In; eauto. Qed.
Lemma series_core n p js p' : core n p -> series_at js p p' -> core (List.length js) p'.
Proof.
  intros (A & B & C) S0. split; [|split].
  - intros k I. destruct (A k I) as (v & D). destruct (S0 k) as (l & l' & D1 & D2 & P); [apply in_or_app; auto|]. rewrite D in D1. injection D1 as <-. exists v. rewrite D2.
    rewrite (picked_repeat _ _ _ _ P). reflexivity.
  - intros k I. destruct (S0 k) as (l & l' & D1 & D2 & P); [apply in_or_app; auto|]. exists l'. split; auto. eapply picked_length; eauto.
  - intros l' D. destruct (S0 n_headers_coord) as (l & l2 & D1 & D2 & P); [cbn; tauto|]. rewrite D in D2. injection D2 as <-. eapply picked_forall; eauto.
Qed.
Lemma series_sp_at n p js p' k j : core n p -> series_at js p p' -> nth_error js k = Some j -> series_sp p' k = series_sp p j /\ (j < n)%nat.
Proof.
  intros C S0 K. assert (J : (j < n)%nat).
  { destruct C as (A & _). destruct (A n_frequency) as (v & D); [cbn; tauto|]. destruct (S0 n_frequency) as (l & l' & D1 & D2 & P); [cbn; tauto|]. rewrite D in D1. injection D1 as <-.
    assert (exists x, nth_error l' k = Some x) as (x & X). { destruct (nth_error l' k) eqn:E; eauto. exfalso. apply nth_error_None in E. rewrite (picked_length _ _ _ P) in E. apply nth_error_None in E. congruence. }
    rewrite (picked_nth _ _ _ P k j K) in X. rewrite <- (repeat_length v n). apply nth_error_Some. congruence. }
  split; auto. assert (C' : core (List.length js) p') by (eapply series_core; eauto). rewrite (sp_at n p j C J), (sp_at _ p' k C').
  2:{ apply nth_error_Some. congruence. }
  unfold body. f_equal. apply map_ext_in. intros a I. f_equal. apply all_names in I. destruct (S0 a I) as (l & l' & D1 & D2 & P). unfold at_. rewrite (dgetN_of _ _ _ D1), (dgetN_of _ _ _ D2).
  pose proof (picked_nth _ _ _ P k j K) as E. destruct (nth_error l j) eqn:X.
  - rewrite (nth_error_nth _ _ _ E), (nth_error_nth _ _ _ X). auto.
  - rewrite !nth_overflow; auto; apply nth_error_None; auto.
Qed.
