(** Proofs for C83: cleaning. *)
From Verif Require Import Base BaseFacts Cal Coord XlMethods Params ParseTime TimeIndex GetData PeriodRange DataFrame Scrape SpecParams SpecFrames FrameProofs FrameProofs2 SpecSelect SelectProofs.
Local Open Scope Z_scope.

Lemma set_nth_firstn {A} (x : A) : forall l i, (i < List.length l)%nat -> firstn (S i) (set_nth i x l) = firstn i l ++ [x].
Proof. induction l as [|y l IH]; intros [|i] I; cbn [set_nth firstn List.length] in *; try lia; auto. cbn [app]. f_equal. apply IH. lia. Qed.
Lemma set_nth_later {A} (x : A) : forall l i j, (i < j)%nat -> nth_error (set_nth i x l) j = nth_error l j.
Proof. induction l as [|y l IH]; intros [|i] [|j] I; cbn; auto; try lia. apply IH. lia. Qed.
Lemma set_nth_len {A} (x : A) l i : List.length (set_nth i x l) = List.length l.
Proof. revert i. induction l; intros [|i]; cbn; auto. Qed.

(** the series after the first one *)
Lemma clean_rest e t z v : forall m i w p th l, dgetN n_time_header p = VList th -> (forall j, (i <= j < i + m)%nat -> nth_error th j = Some (VStr t)) ->
  dgetN n_data_ends p = VList l -> List.length l = (i + m)%nat -> (forall j, (i <= j < i + m)%nat -> nth_error l j = Some v) ->
  exists p1, clean_many e m i [(t, z)] w p = (w, p1, Ok tt) /\ (forall k, k <> n_data_ends -> dget k p1 = dget k p) /\
    dgetN n_data_ends p1 = VList (firstn i l ++ repeat (if truthy v then v else VInt z) m).
Proof.
  induction m as [|m IH]; intros i w p th l TH HT DE LL HL; cbn [clean_many].
  - exists p. split; auto. split; auto. rewrite DE. cbn [repeat]. rewrite app_nil_r, firstn_all2 by lia. auto.
  - rewrite TH. cbn [py_index]. rewrite (HT i) by lia. cbn [bind as_text find fst snd]. rewrite text_eqb_refl. rewrite DE. cbn [py_index]. rewrite (HL i) by lia.
    destruct (truthy v) eqn:TV.
    + destruct (IH (S i) w p th l TH) as (p1 & E & K & D); auto; try (intros; auto; (apply HT || apply HL); lia); [lia|]. exists p1. split; auto. split; auto. rewrite D. f_equal. cbn [repeat].
      change (v :: repeat v m) with ([v] ++ repeat v m). rewrite app_assoc. f_equal.
      assert (N : nth_error l i = Some v) by (apply HL; lia). clear - N. revert i N. induction l as [|y l IH]; intros [|i] N; cbn in *; try discriminate; [injection N as ->; auto|]. f_equal. apply IH. auto.
    + unfold set_end. rewrite DE.
      destruct (IH (S i) w (dset n_data_ends (VList (set_nth i (VInt z) l)) p) th (set_nth i (VInt z) l)) as (p1 & E & K & D).
      * unfold dgetN. rewrite dget_dset_other by discriminate. exact TH.
      * intros; apply HT; lia.
      * unfold dgetN. rewrite dget_dset_same. auto.
      * rewrite set_nth_len. lia.
      * intros. rewrite set_nth_later by lia. apply HL. lia.
      * exists p1. split; auto. split; [intros k NK; rewrite K, dget_dset_other by auto; auto|]. rewrite D. rewrite set_nth_firstn by lia. rewrite <- app_assoc. reflexivity.
Qed.

(** the objects with some of the series *)
Definition good (p : dict) (js : list nat) (p' : dict) : Prop := js <> [] /\ series_at js p p' /\ get_num_series p' = Some (List.length js).

Lemma with_ends n p v : core n p -> core n (dset n_data_ends (VList (repeat v n)) p).
Proof.
  intros (A & B & C). split; [|split].
  - intros k I. destruct (text_eqb k n_data_ends) eqn:E; [apply text_eqb_eq in E; subst; exists v; apply dget_dset_same|]. apply text_eqb_neq in E. rewrite dget_dset_other by auto. auto.
  - intros k I. assert (k <> n_data_ends). { intros ->. cbn in I. repeat (destruct I as [I|I]; [discriminate|]). destruct I. } rewrite dget_dset_other by auto. auto.
  - intros l. rewrite dget_dset_other by discriminate. auto.
Qed.
Lemma picked_repeats {A B} js (l : list B) l' n (v : A) : List.length l = n -> picked js l l' -> picked js (repeat v n) (repeat v (List.length js)).
Proof.
  intros L. induction 1 as [|j x js l' H _ IH]; cbn [List.length repeat]; constructor; auto.
  assert (J : (j < n)%nat) by (rewrite <- L; apply nth_error_Some; congruence). rewrite (nth_error_nth' _ v) by (rewrite repeat_length; auto). f_equal. apply nth_repeat.
Qed.
Lemma series_with n p js p' q' v : core n p -> series_at js p p' -> (forall k, k <> n_data_ends -> dget k q' = dget k p') -> dgetN n_data_ends q' = VList (repeat v (List.length js)) ->
  series_at js (dset n_data_ends (VList (repeat v n)) p) q'.
Proof.
  intros C S0 K D k I. destruct (text_eqb k n_data_ends) eqn:E.
  - apply text_eqb_eq in E. subst. exists (repeat v n), (repeat v (List.length js)). rewrite dget_dset_same. split; auto. split.
    + unfold dgetN in D. destruct (dget n_data_ends q'); congruence.
    + destruct C as (A & _). destruct (A n_data_ends) as (u & D1); [cbn; tauto|]. destruct (S0 n_data_ends) as (l & l' & D2 & _ & P); [cbn; tauto|]. rewrite D1 in D2. injection D2 as <-.
      eapply picked_repeats; [|exact P]. apply repeat_length.
  - apply text_eqb_neq in E. rewrite dget_dset_other, K by auto. apply S0. auto.
Qed.

Lemma clean_shape e w n p : core n p -> (0 < n)%nat ->
  (exists x, forall js p', good p js p' -> exists w1 q, clean_data e w p' = (w1, q, Err x)) \/
  (exists w1 v, forall js p', good p js p' -> exists q', clean_data e w p' = (w1, q', Ok tt) /\ series_at js (dset n_data_ends (VList (repeat v n)) p) q').
Proof.
  intros C N. pose proof C as (A & _). destruct (A n_time_multicolumn) as (tm & TM); [cbn; tauto|]. destruct (A n_data_ends) as (de & DE); [cbn; tauto|].
  destruct (A n_time_header) as (th & TH); [cbn; tauto|].
  assert (X : forall js p', good p js p' -> exists m, List.length js = S m /\ dgetN n_time_multicolumn p' = VList (repeat tm (S m)) /\
    dgetN n_data_ends p' = VList (repeat de (S m)) /\ dgetN n_time_header p' = VList (repeat th (S m)) /\ exists j, nth_error js 0 = Some j).
  { intros js p' (NE & S0 & NS). assert (C' := series_core n p js p' C S0). destruct js as [|j js]; [congruence|]. exists (List.length js). split; auto.
    assert (Y : forall k v, In k index_params -> dget k p = Some (VList (repeat v n)) -> dgetN k p' = VList (repeat v (S (List.length js)))).
    { intros k v I D. destruct (S0 k) as (l & l' & D1 & D2 & P); [apply in_or_app; auto|]. rewrite D in D1. injection D1 as <-. rewrite (dgetN_of _ _ _ D2), (picked_repeat _ _ _ _ P). auto. }
    split; [apply Y; [cbn; tauto|auto]|]. split; [apply Y; [cbn; tauto|auto]|]. split; [apply Y; [cbn; tauto|auto]|]. exists j. auto. }
  destruct (truthy tm) eqn:TT.
  - (* several columns *)
    destruct (sp_shape n p C N) as [(x & E)|(s0 & E)].
    { left. exists x. intros js p' G. destruct (X js p' G) as (m & LJ & M1 & M2 & M3 & j & J). destruct G as (NE & S0 & NS). destruct (series_sp_at n p js p' 0 j C S0 J) as [SS JN].
      unfold clean_data. rewrite M1. cbn [py_index repeat nth_error]. rewrite TT, SS, E by auto. eauto. }
    destruct (clean_time_index e w s0) as [w1 r] eqn:CT. destruct r as [z|x].
    + right. exists w1, (if truthy de then de else VInt z). intros js p' G. destruct (X js p' G) as (m & LJ & M1 & M2 & M3 & j & J). destruct G as (NE & S0 & NS). destruct (series_sp_at n p js p' 0 j C S0 J) as [SS JN].
      destruct (E j JN) as (s & SJ & AL). unfold clean_data. rewrite M1. cbn [py_index repeat nth_error]. rewrite TT, SS, SJ, (clean_alike e w s0 s AL), CT, M2. cbn [py_index repeat nth_error].
      destruct (truthy de) eqn:TD.
      * exists p'. split; auto. apply (series_with n p js p'); auto. rewrite M2, LJ. auto.
      * assert (SI : set_item p' n_data_ends (VInt z) = (dset n_data_ends (VList (repeat (VInt z) (S m))) p', Ok tt)).
        { unfold set_item. change (text_eqb n_data_ends n_context) with false. change (text_eqb n_data_ends n_headers_coord) with false. cbn [andb].
          unfold set_general. rewrite NS. cbn [valid_param_list bind]. change (valid_values n_data_ends) with (Ok [VType TyInt; VNone]). cbn [bind].
          assert (V : valid_param_value (VInt z) [VType TyInt; VNone] = true) by reflexivity. rewrite V. cbn [negb].
          unfold apply_to_all. change (text_eqb n_data_ends n_time_header) with false. change (text_eqb n_data_ends n_missing_value) with false. cbn [bind].
          unfold apply_to_all_gen. cbn [is_none andb]. rewrite LJ. reflexivity. }
        rewrite SI. eexists. split; [reflexivity|]. apply (series_with n p js p'); auto; [intros k NK; rewrite dget_dset_other by auto; auto|]. unfold dgetN. rewrite dget_dset_same, LJ. auto.
    + left. exists x. intros js p' G. destruct (X js p' G) as (m & LJ & M1 & M2 & M3 & j & J). destruct G as (NE & S0 & NS). destruct (series_sp_at n p js p' 0 j C S0 J) as [SS JN].
      destruct (E j JN) as (s & SJ & AL). unfold clean_data. rewrite M1. cbn [py_index repeat nth_error]. rewrite TT, SS, SJ, (clean_alike e w s0 s AL), CT. eauto.
  - (* one column *)
    assert (Y : forall js p', good p js p' -> exists m, List.length js = S m /\ clean_data e w p' = clean_many e (S m) 0 [] w p').
    { intros js p' G. destruct (X js p' G) as (m & LJ & M1 & M2 & M3 & _). exists m. split; auto. unfold clean_data. rewrite M1. cbn [py_index repeat nth_error]. rewrite TT, M3. cbn [py_len]. rewrite repeat_length. auto. }
    destruct (as_text th) as [t|x] eqn:TX.
    2:{ left. exists x. intros js p' G. destruct (Y js p' G) as (m & LJ & ->). destruct (X js p' G) as (m' & LJ' & M1 & M2 & M3 & j & J). cbn [clean_many]. rewrite M3. cbn [py_index repeat nth_error bind]. rewrite TX. eauto. }
    assert (TS : th = VStr t) by (destruct th; try discriminate; cbn in TX; congruence). subst th.
    destruct (sp_shape n p C N) as [(x & E)|(s0 & E)].
    { left. exists x. intros js p' G. destruct (Y js p' G) as (m & LJ & ->). destruct (X js p' G) as (m' & LJ' & M1 & M2 & M3 & j & J). destruct G as (NE & S0 & NS). destruct (series_sp_at n p js p' 0 j C S0 J) as [SS JN].
      cbn [clean_many]. rewrite M3. cbn [py_index repeat nth_error bind as_text find]. rewrite SS, E by auto. eauto. }
    destruct (clean_time_index e w s0) as [w1 r] eqn:CT. destruct (do z <- r; do _ <- assert_ (negb (z =? 0)); Ok z) as [z|x] eqn:R.
    + right. exists w1, (if truthy de then de else VInt z). intros js p' G. destruct (Y js p' G) as (m & LJ & ->). destruct (X js p' G) as (m' & LJ' & M1 & M2 & M3 & j & J).
      assert (m' = m) by congruence. subst m'. destruct G as (NE & S0 & NS). destruct (series_sp_at n p js p' 0 j C S0 J) as [SS JN]. destruct (E j JN) as (s & SJ & AL).
      cbn [clean_many]. rewrite M3. cbn [py_index repeat nth_error bind as_text find]. rewrite SS, SJ, (clean_alike e w s0 s AL), CT, R, M2. cbn [py_index repeat nth_error].
      set (p1 := if truthy de then p' else set_end p' 0 (VInt z)).
      destruct (clean_rest e t z de m 1 w1 p1 (repeat (VStr t) (S m)) (set_nth 0 (if truthy de then de else VInt z) (repeat de (S m)))) as (q & Q1 & Q2 & Q3).
      * unfold p1. destruct (truthy de); auto. unfold set_end. rewrite M2. unfold dgetN. rewrite dget_dset_other by discriminate. exact M3.
      * intros i I. rewrite (nth_error_nth' _ (VStr t)) by (rewrite repeat_length; lia). f_equal. apply nth_repeat.
      * unfold p1. destruct (truthy de); [rewrite M2; reflexivity|]. unfold set_end. rewrite M2. unfold dgetN. rewrite dget_dset_same. reflexivity.
      * rewrite set_nth_len, repeat_length. lia.
      * intros i I. rewrite set_nth_later by lia. rewrite (nth_error_nth' _ de) by (rewrite repeat_length; lia). f_equal. apply nth_repeat.
      * exists q. split; [exact Q1|]. apply (series_with n p js p'); auto.
        -- intros k NK. rewrite Q2 by auto. unfold p1. destruct (truthy de); auto. unfold set_end. rewrite M2, dget_dset_other by auto. auto.
        -- rewrite Q3, LJ. reflexivity.
    + left. exists x. intros js p' G. destruct (Y js p' G) as (m & LJ & ->). destruct (X js p' G) as (m' & LJ' & M1 & M2 & M3 & j & J). destruct G as (NE & S0 & NS). destruct (series_sp_at n p js p' 0 j C S0 J) as [SS JN].
      destruct (E j JN) as (s & SJ & AL). cbn [clean_many]. rewrite M3. cbn [py_index repeat nth_error bind as_text find]. rewrite SS, SJ, (clean_alike e w s0 s AL), CT, R. eauto.
Qed.
