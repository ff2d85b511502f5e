(** Putting the columns of a sheet in other places: the parameters (C84). *)
From Coq Require Import ZifyBool ZifyNat.
From Verif Require Import Base BaseFacts Cal Coord CoordFacts XlMethods Params ParamsFacts ParseTime TimeIndex GetData PeriodRange Attempts AttemptsProofs DataFrame Scrape Xlseries Session
  SpecCoord SpecCoordFacts SpecParams SpecScrape SpecMove SpecSwap ScrapeFacts ScrapeProofs ScrapeProofs2 SessionProofs SoundProofs ReachProofs ReachProofs2 ReachProofs3 MoveProofs MoveProofs2 SwapProofs.
Local Open Scope Z_scope.

Section Swap.
Variables (al : align) (d : Z -> Z -> Prop).
Hypothesis D0 : one_to_one d.
Notation moved := (rearranged al d).
Notation mname := (placed_name al d).
Notation mparam := (placed_param al d).
Notation mparams := (placed_params al d).

(** the value of one series *)
Inductive moved_one (k : text) : pyval -> pyval -> Prop :=
| mo_layout : k = n_alignment -> moved_one k (VStr (layout_word al)) (VStr (layout_word al))
| mo_coord v v' : In k coord_params -> placed_entry al d v v' -> moved_one k v v'
| mo_same v : k <> n_alignment -> ~ In k coord_params -> moved_one k v v.
Lemma index_moved_param k v v' i : mparam k v v' -> both (moved_one k) (py_index v i) (py_index v' i).
Proof.
  intros [n K|l l' K F|K|u K1 K2]; cbn [py_index]; try reflexivity.
  - destruct (nth_error (repeat (VStr (layout_word al)) n) i) as [x|] eqn:E; cbn; auto. apply nth_error_In, repeat_spec in E. subst x. apply mo_layout. auto.
  - pose proof (F2_index _ _ _ i F) as H. destruct (nth_error l i), (nth_error l' i); try contradiction; cbn; auto. apply mo_coord; auto.
  - destruct u; cbn [py_index both]; try reflexivity;
      match goal with |- context [nth_error ?l ?j] => destruct (nth_error l j) as [x|] eqn:E; cbn; auto; apply mo_same; auto end.
Qed.
Lemma none_moved k v v' : mparam k v v' -> is_none v' = is_none v.
Proof. intros [n K|l l' K F|K|u K1 K2]; reflexivity. Qed.
Lemma len_moved k v v' : mparam k v v' -> py_len v' = py_len v.
Proof. intros [n K|l l' K F|K|u K1 K2]; cbn [py_len]; auto; rewrite (F2_size _ _ _ F); auto. Qed.

Section Objects.
Variables p p' : dict.
Hypothesis TP : mparams p p'.
Lemma dget_moved k : match dget k p, dget k p' with Some v, Some v' => mparam k v v' | None, None => True | _, _ => False end.
Proof.
  induction TP as [|[a v] [b v'] q q' [E T] F IH]; cbn [dget fst snd] in *; auto. subst b.
  destruct (text_eqb k a) eqn:K; [|apply IH; auto]. apply text_eqb_eq in K. subst. auto.
Qed.
Lemma dgetN_moved k : mparam k (dgetN k p) (dgetN k p') \/ dgetN k p = VNone /\ dgetN k p' = VNone.
Proof. unfold dgetN. pose proof (dget_moved k) as D. destruct (dget k p), (dget k p'); auto; contradiction. Qed.
Lemma dgetN_kept k : k <> n_alignment -> ~ In k coord_params -> dgetN k p' = dgetN k p.
Proof. intros K1 K2. destruct (dgetN_moved k) as [H|[-> ->]]; auto. inversion H; subst; auto; contradiction. Qed.
Lemma index_at k i : both (moved_one k) (py_index (dgetN k p) i) (py_index (dgetN k p') i).
Proof. destruct (dgetN_moved k) as [T|[-> ->]]; [apply index_moved_param; auto|reflexivity]. Qed.
Lemma len_at k : py_len (dgetN k p') = py_len (dgetN k p).
Proof. destruct (dgetN_moved k) as [T|[-> ->]]; [eapply len_moved; eauto|reflexivity]. Qed.
Lemma none_at k : is_none (dgetN k p') = is_none (dgetN k p).
Proof. destruct (dgetN_moved k) as [T|[-> ->]]; [eapply none_moved; eauto|reflexivity]. Qed.
Lemma num_moved : get_num_series p' = get_num_series p.
Proof.
  unfold get_num_series. generalize (@None nat) as acc. induction TP as [|[a v] [b v'] q q' [E T] F IH]; intros acc; cbn [fold_left]; auto.
  rewrite (IH F). f_equal. cbn [fst snd] in *. subst b. destruct T as [n K|l l' K F'|K|u K1 K2]; auto; rewrite (F2_size _ _ _ F'); auto.
Qed.
Lemma dset_moved k v v' : mparam k v v' -> mparams (dset k v p) (dset k v' p').
Proof.
  intros S0. unfold placed_params in *. induction TP as [|[a u] [b u'] q q' [E T] F IH]; cbn [dset].
  - constructor; auto.
  - cbn [fst snd] in *. subst b. destruct (text_eqb k a) eqn:K; constructor; auto. cbn [fst snd]. apply text_eqb_eq in K. subst a. auto.
Qed.
Ltac plain := first [discriminate|cbn; intuition discriminate].
Lemma set_end_moved i z : mparams (set_end p i (VInt z)) (set_end p' i (VInt z)).
Proof.
  unfold set_end. rewrite (dgetN_kept n_data_ends) by plain. destruct (dgetN n_data_ends p); auto. apply dset_moved. apply pp_same; plain.
Qed.
Lemma set_item_moved z : snd (set_item p' n_data_ends (VInt z)) = snd (set_item p n_data_ends (VInt z)) /\ mparams (fst (set_item p n_data_ends (VInt z))) (fst (set_item p' n_data_ends (VInt z))).
Proof.
  unfold set_item. change (text_eqb n_data_ends n_context) with false. change (text_eqb n_data_ends n_headers_coord) with false. cbn [andb].
  unfold set_general. rewrite num_moved. cbn [valid_param_list bind]. change (valid_values n_data_ends) with (Ok [VType TyInt; VNone]). cbn [bind].
  assert (V : forall y, valid_param_value (VInt y) [VType TyInt; VNone] = true) by (intros y; reflexivity). rewrite !V. cbn [negb].
  unfold apply_to_all. change (text_eqb n_data_ends n_time_header) with false. change (text_eqb n_data_ends n_missing_value) with false. cbn [bind fst snd].
  split; auto. apply dset_moved. apply pp_same; plain.
Qed.
(** setting another parameter *)
Lemma other_moved k v : k <> n_alignment -> ~ In k coord_params -> k <> n_context ->
  both mparams (match set_item p k v with (q, Ok _) => Ok q | (_, Err x) => Err x end) (match set_item p' k v with (q, Ok _) => Ok q | (_, Err x) => Err x end).
Proof.
  intros K1 K2 K4. unfold set_item. replace (text_eqb k n_context) with false by (symmetry; apply text_eqb_neq; auto).
  replace (text_eqb k n_headers_coord) with false by (symmetry; apply text_eqb_neq; intros ->; apply K2; cbn; tauto). cbn [andb].
  assert (TH : text_eqb k n_time_header = false) by (apply text_eqb_neq; intros ->; apply K2; cbn; tauto).
  assert (G : both mparams (set_general p k v) (set_general p' k v)).
  { unfold set_general. rewrite num_moved. destruct (valid_param_list k v (get_num_series p)) as [g|x]; cbn [bind]; [|reflexivity].
    assert (M : forall u, mparam k u u) by (intros u; apply pp_same; auto).
    destruct g; [apply dset_moved; auto|]. destruct (valid_values k) as [vv|x]; cbn [bind]; [|reflexivity]. destruct (negb (valid_param_value v vv)); [reflexivity|].
    unfold apply_to_all. rewrite TH. destruct (if text_eqb k n_missing_value then _ else _) as [v'|x]; cbn [bind]; [|reflexivity]. apply dset_moved. auto. }
  destruct (set_general p k v), (set_general p' k v); cbn in *; auto.
Qed.

(** *** the record of a series *)
Lemma series_dict_moved i : both (Forall2 (fun a b => fst a = fst b /\ moved_one (fst a) (snd a) (snd b))) (get_series_params p i) (get_series_params p' i).
Proof.
  unfold get_series_params.
  assert (G : forall ks acc acc', Forall2 (fun a b => fst a = fst b /\ moved_one (fst a) (snd a) (snd b)) acc acc' ->
    both (Forall2 (fun a b => fst a = fst b /\ moved_one (fst a) (snd a) (snd b)))
      (foldM (fun acc k => let v := dgetN k p in if is_none v then Ok acc else do x <- py_index v i; Ok (acc ++ [(k, x)])) ks acc)
      (foldM (fun acc k => let v := dgetN k p' in if is_none v then Ok acc else do x <- py_index v i; Ok (acc ++ [(k, x)])) ks acc')); [|apply G; constructor].
  induction ks as [|k ks IH]; intros acc acc' F; cbn [foldM]; [exact F|]. cbv zeta. rewrite none_at.
  destruct (is_none (dgetN k p)); [cbn [bind]; apply IH; auto|].
  pose proof (index_at k i) as X. destruct (py_index (dgetN k p) i) as [x|x], (py_index (dgetN k p') i) as [x'|x']; try contradiction; cbn [bind]; [|exact X].
  apply IH. apply Forall2_app; auto.
Qed.
Lemma theader_moved v v' : placed_entry al d v v' -> both (moved_th al d) (as_theader v) (as_theader v').
Proof.
  intros [t t' N| |l l' F]; cbn [as_theader]; try reflexivity.
  - constructor. auto.
  - eapply both_bind with (R := Forall2 mname).
    + eapply both_mapM; [exact F|]. intros x y [t t' N| |a b F']; cbn; auto.
    + intros x y H. constructor. auto.
Qed.
Lemma one_same k v v' : moved_one k v v' -> k <> n_alignment -> ~ In k coord_params -> v' = v.
Proof. intros [K|? ? K _|? K1 K2] N1 N2; auto; contradiction. Qed.
Lemma one_coord k v v' : moved_one k v v' -> In k coord_params -> placed_entry al d v v'.
Proof. intros [K|? ? K T|? K1 K2] N; auto; [|contradiction]. subst k. exfalso. revert N. cbn. intuition discriminate. Qed.
Lemma one_align v v' : moved_one n_alignment v v' -> as_align v = Ok al /\ as_align v' = Ok al.
Proof. intros [K|? ? K T|? K1 K2]; [|exfalso; revert K; cbn; intuition discriminate|contradiction (K1 eq_refl)]. destruct al; split; reflexivity. Qed.
Lemma one_text k v v' : moved_one k v v' -> In k coord_params -> both mname (as_text v) (as_text v').
Proof. intros O K. destruct (one_coord _ _ _ O K) as [t t' N| |]; cbn; auto. Qed.

Lemma series_moved i : both (moved_sp al d) (series_sp p i) (series_sp p' i).
Proof.
  unfold series_sp. pose proof (series_dict_moved i) as F. destruct (get_series_params p i) as [q|x] eqn:GP, (get_series_params p' i) as [q'|x']; try contradiction; cbn [bind]; [|exact F].
  cbn [both] in F. assert (G : forall k, both (moved_one k) (dgetE k q) (dgetE k q')).
  { intros k. unfold dgetE. clear - F. induction F as [|[a x] [b x'] q q' [E T] F IH]; cbn [dget fst snd] in *; [reflexivity|]. subst b.
    destruct (text_eqb k a) eqn:K; auto. apply text_eqb_eq in K. subst. exact T. }
  unfold sp_of.
  eapply both_bind; [apply G|]. intros al0 al0' O. destruct (one_align _ _ O) as [-> ->]. cbn [bind]. clear O.
  eapply both_bind; [apply G|]. intros nm nm' O. apply one_same in O; [subst nm'|plain|plain].
  eapply both_bind; [apply G|]. intros hc hc' O. eapply both_bind; [apply (one_text _ _ _ O); cbn; tauto|]. clear O. intros hct hct' HC.
  eapply both_bind; [apply G|]. intros cp cp' O. apply one_coord in O; [|cbn; tauto]. rename O into CP.
  eapply both_bind; [apply G|]. intros cx cx' O. apply one_same in O; [subst cx'|plain|plain].
  eapply both_bind; [apply G|]. intros ds ds' O. apply one_same in O; [subst ds'|plain|plain]. destruct (as_int ds) as [st|x]; cbn [bind]; [|reflexivity].
  eapply both_bind; [apply G|]. intros de de' O. apply one_same in O; [subst de'|plain|plain]. apply (both_bind eq); [apply both_eq|]. intros en ? <-.
  eapply both_bind; [apply G|]. intros ct ct' O. apply one_same in O; [subst ct'|plain|plain].
  eapply both_bind; [apply G|]. intros bl bl' O. apply one_same in O; [subst bl'|plain|plain].
  eapply both_bind; [apply G|]. intros ms ms' O. apply one_same in O; [subst ms'|plain|plain].
  eapply both_bind; [apply G|]. intros mv mv' O. apply one_same in O; [subst mv'|plain|plain].
  eapply both_bind; [apply G|]. intros ta ta' O. apply one_same in O; [subst ta'|plain|plain]. destruct (as_int ta) as [ti|x]; cbn [bind]; [|reflexivity].
  eapply both_bind; [apply G|]. intros tm tm' O. apply one_same in O; [subst tm'|plain|plain].
  eapply both_bind; [apply G|]. intros th th' O. apply one_coord in O; [|cbn; tauto]. eapply both_bind; [apply (theader_moved _ _ O)|]. clear O. intros tt tt' TH.
  eapply both_bind; [apply G|]. intros tc tc' O. apply one_same in O; [subst tc'|plain|plain].
  eapply both_bind; [apply G|]. intros fr fr' O. apply one_same in O; [subst fr'|plain|plain].
  destruct (as_text fr) as [ft|x]; cbn [bind]; [|reflexivity]. cbn [both].
  constructor; cbn [sp_al sp_name sp_hc sp_comp sp_ctx sp_starts sp_ends sp_cont sp_blank sp_missings sp_mv sp_ta sp_multi sp_th sp_composed sp_freq]; auto.
Qed.
End Objects.
End Swap.
