(** Moving a table down a sheet: the parameters and the frames (C82). *)
From Coq Require Import ZifyBool ZifyNat.
From Verif Require Import Base BaseFacts Cal Coord CoordFacts XlMethods Params ParamsFacts ParseTime TimeIndex GetData PeriodRange Attempts AttemptsProofs DataFrame Scrape Xlseries Session
  SpecCoord SpecCoordFacts SpecParams SpecScrape SpecMove ScrapeFacts ScrapeProofs ScrapeProofs2 SessionProofs SoundProofs ReachProofs ReachProofs2 ReachProofs3 MoveProofs.
Local Open Scope Z_scope.

Section Move.
Variables (al : align) (d : Z).
Hypothesis D0 : 0 <= d.
Notation moved := (moved_down d).
Notation mname := (moved_name d).
Notation mparam := (moved_param al d).
Notation mparams := (moved_params al d).

(** the value of one series *)
Inductive moved_one (k : text) : pyval -> pyval -> Prop :=
| mo_layout : k = n_alignment -> moved_one k (VStr (layout_word al)) (VStr (layout_word al))
| mo_coord v v' : In k coord_params -> moved_entry d v v' -> moved_one k v v'
| mo_starts v v' : k = n_data_starts -> al = Vert -> moved_row d 2 v v' -> moved_one k v v'
| mo_ends v v' : k = n_data_ends -> al = Vert -> moved_row d 1 v v' -> moved_one k v v'
| mo_same v : k <> n_alignment -> ~ In k coord_params -> al = Horiz \/ ~ In k row_params -> moved_one k v v.
Lemma F2_index {A B} (R : A -> B -> Prop) l l' i : Forall2 R l l' ->
  match nth_error l i, nth_error l' i with Some x, Some y => R x y | None, None => True | _, _ => False end.
Proof. intros F. revert i. induction F; intros [|i]; cbn; auto. apply IHF. Qed.
Lemma F2_size {A B} (R : A -> B -> Prop) l l' : Forall2 R l l' -> List.length l' = List.length l.
Proof. induction 1; cbn; congruence. Qed.
Lemma index_moved_param k v v' i : mparam k v v' -> both (moved_one k) (py_index v i) (py_index v' i).
Proof.
  intros [n K|l l' K F|l l' K A F|l l' K A F|z K A L|K|u K1 K2 K3]; cbn [py_index]; try reflexivity.
  - destruct (nth_error (repeat (VStr (layout_word al)) n) i) as [x|] eqn:E; cbn; auto. apply nth_error_In, repeat_spec in E. subst x. apply mo_layout. auto.
  - pose proof (F2_index _ _ _ i F) as H. destruct (nth_error l i), (nth_error l' i); try contradiction; cbn; auto. apply mo_coord; auto.
  - pose proof (F2_index _ _ _ i F) as H. destruct (nth_error l i), (nth_error l' i); try contradiction; cbn; auto. apply mo_starts; auto.
  - pose proof (F2_index _ _ _ i F) as H. destruct (nth_error l i), (nth_error l' i); try contradiction; cbn; auto. apply mo_ends; auto.
  - destruct u; cbn [py_index both]; try reflexivity;
      match goal with |- context [nth_error ?l ?j] => destruct (nth_error l j) as [x|] eqn:E; cbn; auto; apply mo_same; auto end.
Qed.
Lemma none_moved k v v' : mparam k v v' -> is_none v' = is_none v.
Proof. intros [n K|l l' K F|l l' K A F|l l' K A F|z K A L|K|u K1 K2 K3]; reflexivity. Qed.
Lemma len_moved k v v' : mparam k v v' -> py_len v' = py_len v.
Proof. intros [n K|l l' K F|l l' K A F|l l' K A F|z K A L|K|u K1 K2 K3]; cbn [py_len]; auto; rewrite (F2_size _ _ _ F); auto. Qed.

Section Objects.
Variables p p' : dict.
Hypothesis TP : mparams p p'.
Lemma dget_moved k : match dget k p, dget k p' with Some v, Some v' => mparam k v v' | None, None => True | _, _ => False end.
Proof.
  induction TP as [|[a v] [b v'] q q' [E T] F IH]; cbn [dget fst snd] in *; auto. subst b.
  destruct (text_eqb k a) eqn:K; [|apply IH; auto]. apply text_eqb_eq in K. subst. auto.
Qed.
Lemma dgetN_moved k : mparam k (dgetN k p) (dgetN k p') \/ dgetN k p = VNone /\ dgetN k p' = VNone.
Proof. unfold dgetN. pose proof (dget_moved k) as D. destruct (dget k p), (dget k p'); auto; contradiction. Qed.
Lemma dgetN_kept k : k <> n_alignment -> ~ In k coord_params -> ~ In k row_params -> dgetN k p' = dgetN k p.
Proof.
  intros K1 K2 K3. destruct (dgetN_moved k) as [H|[-> ->]]; auto. inversion H; subst; auto; try contradiction; exfalso; apply K3; cbn; tauto.
Qed.
Lemma index_at k i : both (moved_one k) (py_index (dgetN k p) i) (py_index (dgetN k p') i).
Proof. destruct (dgetN_moved k) as [T|[-> ->]]; [apply index_moved_param; auto|reflexivity]. Qed.
Lemma len_at k : py_len (dgetN k p') = py_len (dgetN k p).
Proof. destruct (dgetN_moved k) as [T|[-> ->]]; [eapply len_moved; eauto|reflexivity]. Qed.
Lemma none_at k : is_none (dgetN k p') = is_none (dgetN k p).
Proof. destruct (dgetN_moved k) as [T|[-> ->]]; [eapply none_moved; eauto|reflexivity]. Qed.
Lemma num_moved : get_num_series p' = get_num_series p.
Proof.
  unfold get_num_series. generalize (@None nat) as acc. induction TP as [|[a v] [b v'] q q' [E T] F IH]; intros acc; cbn [fold_left]; auto.
  rewrite (IH F). f_equal. cbn [fst snd] in *. subst b. destruct T as [n K|l l' K F'|l l' K A F'|l l' K A F'|z K A L|K|u K1 K2 K3]; auto; rewrite (F2_size _ _ _ F'); auto.
Qed.
Lemma dset_moved k v v' : mparam k v v' -> mparams (dset k v p) (dset k v' p').
Proof.
  intros S0. unfold moved_params in *. induction TP as [|[a u] [b u'] q q' [E T] F IH]; cbn [dset].
  - constructor; auto.
  - cbn [fst snd] in *. subst b. destruct (text_eqb k a) eqn:K; constructor; auto. cbn [fst snd]. apply text_eqb_eq in K. subst a. auto.
Qed.
Lemma set_nth_moved i v v' l l' (R : pyval -> pyval -> Prop) : Forall2 R l l' -> R v v' -> Forall2 R (set_nth i v l) (set_nth i v' l').
Proof. intros F V. revert i. induction F; intros [|i]; cbn; constructor; auto. Qed.
Lemma set_end_moved i z : (al = Vert -> 1 <= z) -> mparams (set_end p i (VInt z)) (set_end p' i (VInt (z + dp d al))).
Proof.
  intros L. unfold set_end. destruct (dgetN_moved n_data_ends) as [H|[E E']]; [|rewrite E, E'; exact TP].
  inversion H as [n K X Y|l l' K F X Y|l l' K A F X Y|l l' K A F X Y|y K A Q X Y|K X Y|u K1 K2 K3 X Y].
  - discriminate K.
  - exfalso. revert K. cbn. intuition discriminate.
  - discriminate K.
  - apply dset_moved. apply mp_ends; auto. apply set_nth_moved; auto. replace (dp d al) with d by (rewrite A; reflexivity). constructor. auto.
  - exact TP.
  - exact TP.
  - destruct K3 as [A|K3]; [|exfalso; apply K3; cbn; tauto]. replace (dp d al) with 0 by (rewrite A; reflexivity). rewrite Z.add_0_r. try rewrite <- Y. try rewrite <- X. match goal with |- moved_params _ _ (match ?v with _ => _ end) _ => destruct v; try exact TP end.
    apply dset_moved. apply mp_same; auto.
Qed.
Lemma set_item_moved z : (al = Vert -> 1 <= z) ->
  snd (set_item p' n_data_ends (VInt (z + dp d al))) = snd (set_item p n_data_ends (VInt z)) /\ mparams (fst (set_item p n_data_ends (VInt z))) (fst (set_item p' n_data_ends (VInt (z + dp d al)))).
Proof.
  intros L. unfold set_item. change (text_eqb n_data_ends n_context) with false. change (text_eqb n_data_ends n_headers_coord) with false. cbn [andb].
  unfold set_general. rewrite num_moved. cbn [valid_param_list bind]. change (valid_values n_data_ends) with (Ok [VType TyInt; VNone]). cbn [bind].
  assert (V : forall y, valid_param_value (VInt y) [VType TyInt; VNone] = true) by (intros y; reflexivity). rewrite !V. cbn [negb].
  unfold apply_to_all. change (text_eqb n_data_ends n_time_header) with false. change (text_eqb n_data_ends n_missing_value) with false. cbn [bind fst snd].
  split; auto. apply dset_moved. unfold apply_to_all_gen. cbn [is_none andb].
  destruct al eqn:A; cbn [dp].
  - destruct (ns_pos (get_num_series p)); [|apply mp_number; auto]. apply mp_ends; auto. induction (ns_nat (get_num_series p)); cbn [repeat]; constructor; auto. constructor. auto.
  - rewrite Z.add_0_r. apply mp_same; auto; [discriminate|]. cbn. intuition discriminate.
Qed.
(** setting another parameter *)
Lemma other_moved k v : k <> n_alignment -> ~ In k coord_params -> ~ In k row_params -> k <> n_context ->
  both mparams (match set_item p k v with (q, Ok _) => Ok q | (_, Err x) => Err x end) (match set_item p' k v with (q, Ok _) => Ok q | (_, Err x) => Err x end).
Proof.
  intros K1 K2 K3 K4. unfold set_item. replace (text_eqb k n_context) with false by (symmetry; apply text_eqb_neq; auto).
  replace (text_eqb k n_headers_coord) with false by (symmetry; apply text_eqb_neq; intros ->; apply K2; cbn; tauto). cbn [andb].
  assert (TH : text_eqb k n_time_header = false) by (apply text_eqb_neq; intros ->; apply K2; cbn; tauto).
  assert (G : both mparams (set_general p k v) (set_general p' k v)).
  { unfold set_general. rewrite num_moved. destruct (valid_param_list k v (get_num_series p)) as [g|x]; cbn [bind]; [|reflexivity].
    assert (M : forall u, mparam k u u) by (intros u; apply mp_same; auto).
    destruct g; [apply dset_moved; auto|]. destruct (valid_values k) as [vv|x]; cbn [bind]; [|reflexivity]. destruct (negb (valid_param_value v vv)); [reflexivity|].
    unfold apply_to_all. rewrite TH. destruct (if text_eqb k n_missing_value then _ else _) as [v'|x]; cbn [bind]; [|reflexivity]. apply dset_moved. auto. }
  destruct (set_general p k v), (set_general p' k v); cbn in *; auto.
Qed.

(** *** the record of a series *)
Lemma series_dict_moved i : both (Forall2 (fun a b => fst a = fst b /\ moved_one (fst a) (snd a) (snd b))) (get_series_params p i) (get_series_params p' i).
Proof.
  unfold get_series_params.
  assert (G : forall ks acc acc', Forall2 (fun a b => fst a = fst b /\ moved_one (fst a) (snd a) (snd b)) acc acc' ->
    both (Forall2 (fun a b => fst a = fst b /\ moved_one (fst a) (snd a) (snd b)))
      (foldM (fun acc k => let v := dgetN k p in if is_none v then Ok acc else do x <- py_index v i; Ok (acc ++ [(k, x)])) ks acc)
      (foldM (fun acc k => let v := dgetN k p' in if is_none v then Ok acc else do x <- py_index v i; Ok (acc ++ [(k, x)])) ks acc')); [|apply G; constructor].
  induction ks as [|k ks IH]; intros acc acc' F; cbn [foldM]; [exact F|]. cbv zeta. rewrite none_at.
  destruct (is_none (dgetN k p)); [cbn [bind]; apply IH; auto|].
  pose proof (index_at k i) as X. destruct (py_index (dgetN k p) i) as [x|x], (py_index (dgetN k p') i) as [x'|x']; try contradiction; cbn [bind]; [|exact X].
  apply IH. apply Forall2_app; auto.
Qed.
Lemma theader_moved v v' : moved_entry d v v' -> both (moved_th d) (as_theader v) (as_theader v').
Proof.
  intros [t t' N| |l l' F]; cbn [as_theader]; try reflexivity.
  - constructor. auto.
  - eapply both_bind with (R := Forall2 mname).
    + eapply both_mapM; [exact F|]. intros x y [t t' N| |a b F']; cbn; auto.
    + intros x y H. constructor. auto.
Qed.
Lemma one_same k v v' : moved_one k v v' -> k <> n_alignment -> ~ In k coord_params -> ~ In k row_params -> v' = v.
Proof. intros [K|? ? K _|? ? K _ _|? ? K _ _|? K1 K2 K3] N1 N2 N3; auto; try contradiction; subst k; exfalso; apply N3; cbn; tauto. Qed.
Lemma one_coord k v v' : moved_one k v v' -> In k coord_params -> moved_entry d v v'.
Proof.
  intros [K|? ? K T|? ? K _ _|? ? K _ _|? K1 K2 K3] N; auto; [| | |contradiction]; subst k; exfalso; revert N; cbn; intuition discriminate.
Qed.
Lemma one_align v v' : moved_one n_alignment v v' -> as_align v = Ok al /\ as_align v' = Ok al.
Proof.
  intros [K|? ? K T|? ? K _ _|? ? K _ _|? K1 K2 K3]; try discriminate K; [|exfalso; revert K; cbn; intuition discriminate|contradiction (K1 eq_refl)].
  destruct al; split; reflexivity.
Qed.
Lemma one_starts v v' : moved_one n_data_starts v v' -> both (fun z z' => z' = z + dp d al /\ (al = Vert -> 2 <= z)) (as_int v) (as_int v').
Proof.
  intros [K|? ? K T|? ? K A R|? ? K _ _|? K1 K2 K3]; try discriminate K.
  - exfalso. revert K. cbn. intuition discriminate.
  - rewrite A. destruct R as [z Z|]; cbn; auto.
  - destruct K3 as [A|K3]; [|exfalso; apply K3; cbn; tauto]. rewrite A. cbn [dp]. destruct (as_int v0); cbn; auto. split; [lia|discriminate].
Qed.
Lemma one_ends v v' : moved_one n_data_ends v v' -> truthy v' = truthy v /\ both (fun z z' => z' = z + dp d al) (as_int v) (as_int v') /\ (al = Vert -> forall z, as_int v = Ok z -> 1 <= z).
Proof.
  intros [K|? ? K T|? ? K A R|? ? K A R|? K1 K2 K3]; try discriminate K.
  - exfalso. revert K. cbn. intuition discriminate.
  - rewrite A. destruct R as [z Z|]; cbn; (split; [|split]); auto; try lia; try discriminate. intros _ y Y. injection Y as <-. auto.
  - destruct K3 as [A|K3]; [|exfalso; apply K3; cbn; tauto]. rewrite A. cbn [dp]. split; auto. split; [|discriminate]. destruct (as_int v0); cbn; auto. lia.
Qed.
Lemma one_text k v v' : moved_one k v v' -> In k coord_params -> both mname (as_text v) (as_text v').
Proof. intros O K. destruct (one_coord _ _ _ O K) as [t t' N| |]; cbn; auto. Qed.

Ltac plain := first [discriminate|cbn; intuition discriminate].
Lemma series_moved i : near p -> both (fun s s' => moved_sp d s s' /\ sp_al s = al) (series_sp p i) (series_sp p' i).
Proof.
  intros N. unfold series_sp. pose proof (series_dict_moved i) as F. destruct (get_series_params p i) as [q|x] eqn:GP, (get_series_params p' i) as [q'|x']; try contradiction; cbn [bind]; [|exact F].
  cbn [both] in F. assert (G : forall k, both (moved_one k) (dgetE k q) (dgetE k q')).
  { intros k. unfold dgetE. clear - F. induction F as [|[a x] [b x'] q q' [E T] F IH]; cbn [dget fst snd] in *; [reflexivity|]. subst b.
    destruct (text_eqb k a) eqn:K; auto. apply text_eqb_eq in K. subst. exact T. }
  assert (NT : forall v z, dgetE n_time_alignment q = Ok v -> as_int v = Ok z -> -1 <= z <= 1).
  { intros v z V Z. apply dgetE_ok in V. apply (series_inv _ _ _ _ _ GP) in V as [_ V]. eapply N; eauto. }
  unfold sp_of.
  eapply both_bind; [apply G|]. intros al0 al0' O. destruct (one_align _ _ O) as [-> ->]. cbn [bind]. clear O.
  eapply both_bind; [apply G|]. intros nm nm' O. apply one_same in O; [subst nm'|plain|plain|plain].
  eapply both_bind; [apply G|]. intros hc hc' O. eapply both_bind; [apply (one_text _ _ _ O); cbn; tauto|]. clear O. intros hct hct' HC.
  eapply both_bind; [apply G|]. intros cp cp' O. apply one_coord in O; [|cbn; tauto]. rename O into CP.
  eapply both_bind; [apply G|]. intros cx cx' O. apply one_same in O; [subst cx'|plain|plain|plain].
  eapply both_bind; [apply G|]. intros ds ds' O. eapply both_bind; [apply (one_starts _ _ O)|]. clear O. intros st st' [-> LO].
  eapply both_bind; [apply G|]. intros de de' O. destruct (one_ends _ _ O) as (TE & AE & _). clear O.
  apply (both_bind (fun z z' => z' = option_map (far d al) z)).
  { rewrite TE. destruct (truthy de); [|reflexivity]. eapply both_bind; [exact AE|]. intros z z' ->. reflexivity. }
  intros en en' ->.
  eapply both_bind; [apply G|]. intros ct ct' O. apply one_same in O; [subst ct'|plain|plain|plain].
  eapply both_bind; [apply G|]. intros bl bl' O. apply one_same in O; [subst bl'|plain|plain|plain].
  eapply both_bind; [apply G|]. intros ms ms' O. apply one_same in O; [subst ms'|plain|plain|plain].
  eapply both_bind; [apply G|]. intros mv mv' O. apply one_same in O; [subst mv'|plain|plain|plain].
  pose proof (G n_time_alignment) as GT. destruct (dgetE n_time_alignment q) as [ta|x] eqn:TA, (dgetE n_time_alignment q') as [ta'|x']; try contradiction; cbn [bind]; [|exact GT].
  cbn [both] in GT. apply one_same in GT; [subst ta'|plain|plain|plain]. destruct (as_int ta) as [ti|x] eqn:TI; cbn [bind]; [|reflexivity]. pose proof (NT _ _ eq_refl TI) as NR.
  eapply both_bind; [apply G|]. intros tm tm' O. apply one_same in O; [subst tm'|plain|plain|plain].
  eapply both_bind; [apply G|]. intros th th' O. apply one_coord in O; [|cbn; tauto]. eapply both_bind; [apply (theader_moved _ _ O)|]. clear O. intros tt tt' TH.
  eapply both_bind; [apply G|]. intros tc tc' O. apply one_same in O; [subst tc'|plain|plain|plain].
  eapply both_bind; [apply G|]. intros fr fr' O. apply one_same in O; [subst fr'|plain|plain|plain].
  destruct (as_text fr) as [ft|x]; cbn [bind]; [|reflexivity]. cbn [both]. split; [|reflexivity].
  constructor; cbn [sp_al sp_name sp_hc sp_comp sp_ctx sp_starts sp_ends sp_cont sp_blank sp_missings sp_mv sp_ta sp_multi sp_th sp_composed sp_freq]; auto.
Qed.
End Objects.
End Move.
