(** Two sheets that agree where it counts: one attempt (C81). *)
From Coq Require Import ZifyBool ZifyNat.
From Verif Require Import Base BaseFacts Cal Coord CoordFacts XlMethods Params ParseTime TimeIndex GetData PeriodRange Attempts DataFrame Scrape.
Local Open Scope Z_scope.

Lemma mapM_ext {A B} (f g : A -> res B) l : (forall a, In a l -> f a = g a) -> mapM f l = mapM g l.
Proof.
  induction l as [|a l IH]; intros H; cbn [mapM]; auto. rewrite (H a) by (left; auto). destruct (g a); cbn [bind]; auto. rewrite IH; auto. intros b I. apply H. right. auto.
Qed.
Lemma foldM_ext {A S} (f g : S -> A -> res S) l : (forall s a, In a l -> f s a = g s a) -> forall s, foldM f l s = foldM g l s.
Proof.
  induction l as [|a l IH]; intros H s; cbn [foldM]; auto. rewrite (H s a) by (left; auto). destruct (g s a); cbn [bind]; auto. apply IH. intros s' b I. apply H. right. auto.
Qed.
Lemma zrange_in a b q : In q (zrange a b) -> a <= q <= b.
Proof. intros I. apply zrange_In in I. lia. Qed.

Definition th_texts (th : theader) : list text := match th with ThStr t => [t] | ThList l => l end.
Definition tl_lines (tl : tlines) : list Z := match tl with OneLine l => [l] | ManyLines ls => ls end.

Section Agree.
Variable P : Z -> Z -> Prop.
Variable SZ : Prop.
Definition agree (w w' : worksheet) : Prop := (SZ -> max_row w' = max_row w /\ max_col w' = max_col w) /\ forall r c, P r c -> cell w' r c = cell w r c.
Definition AP (al : align) (line pos : Z) : Prop := P (axis_row al line pos) (axis_col al line pos).

Lemma touch_agree w w' r c : agree w w' -> agree (touch r c w) (touch r c w').
Proof. intros [A B]. split; cbn; auto. intros S0. destruct (A S0) as [-> ->]. auto. Qed.
Lemma write_agree w w' r c v : agree w w' -> agree (write r c v w) (write r c v w').
Proof. intros [A B]. split; cbn; [intros S0; destruct (A S0) as [-> ->]; auto|]. intros r0 c0 H. rewrite B; auto. Qed.
Lemma axis_touch_agree al w w' l q : agree w w' -> agree (axis_touch al l q w) (axis_touch al l q w').
Proof. apply touch_agree. Qed.
Lemma axis_write_agree al w w' l q v : agree w w' -> agree (axis_write al l q v w) (axis_write al l q v w').
Proof. apply write_agree. Qed.
Lemma touch_time_agree al tl q : forall w w', agree w w' -> agree (touch_time al tl q w) (touch_time al tl q w').
Proof.
  destruct tl as [l|ls]; cbn [touch_time]; intros w w' W; [apply axis_touch_agree; auto|].
  revert w w' W. induction ls as [|l ls IH]; cbn [fold_left]; intros w w' W; auto. apply IH. apply axis_touch_agree. auto.
Qed.
Lemma touch_prs_agree w w' f st l en ta al : agree w w' -> agree (touch_prs w f st l en ta al) (touch_prs w' f st l en ta al).
Proof. intros W. unfold touch_prs. destruct (accepts_freq false f); auto. apply axis_touch_agree, axis_touch_agree. auto. Qed.
Lemma touch_data_agree w w' s : agree w w' -> agree (touch_data w s) (touch_data w' s).
Proof.
  intros W. unfold touch_data. destruct (sp_ends s); auto. destruct (coord_line _ _); auto. cbv zeta. destruct (sp_cont s); [apply axis_touch_agree; auto|].
  destruct (time_line _ _ _); [apply axis_touch_agree|]; apply axis_touch_agree; auto.
Qed.

Lemma read_agree w w' al l q : agree w w' -> AP al l q -> axis_read al w' l q = axis_read al w l q.
Proof. intros [_ B] H. unfold axis_read, read. rewrite B by exact H. auto. Qed.
Lemma val_agree w w' al l q : agree w w' -> AP al l q -> axis_val al w' l q = axis_val al w l q.
Proof. intros [_ B] H. apply B. exact H. Qed.
Lemma coord_agree w w' t : agree w w' -> (forall r c, parse_coord t = Ok (r, c) -> P r c) -> read_coord w' t = read_coord w t.
Proof.
  intros [_ B] H. unfold read_coord. destruct (parse_coord t) as [[r c]|]; auto. cbn [bind fst snd]. unfold read. rewrite B by auto. auto.
Qed.

(** ** The time index *)
Lemma value_agree e al w w' tl q : agree w w' -> (forall l, In l (tl_lines tl) -> AP al l q) -> time_value e al w' tl q = time_value e al w tl q.
Proof.
  intros W H. destruct tl as [l|ls]; cbn [time_value].
  - apply read_agree; auto. apply H. left. auto.
  - unfold many_value. erewrite foldM_ext; [reflexivity|]. intros s a I. cbv beta. rewrite (read_agree w w') by auto. auto.
Qed.
Lemma walk_agree w w' l : agree w w' -> forall n q, (forall k, q - Z.of_nat n <= k <= q -> AP Vert l k) -> walk_back w' l q n = walk_back w l q n.
Proof.
  intros W. induction n as [|n IH]; intros q H; cbn [walk_back]; rewrite (val_agree w w') by (auto; apply H; lia); auto.
  rewrite IH; auto. intros k K. apply H. lia.
Qed.
Lemma estimate_agree al w w' l q st ta : agree w w' -> st <= q -> (forall k, st <= k <= q -> AP al l k) -> estimate_end al w' l q st ta = estimate_end al w l q st ta.
Proof.
  intros W L H. unfold estimate_end. destruct al.
  - rewrite (walk_agree w w'); auto. intros k K. apply H. lia.
  - rewrite (val_agree w w') by (auto; apply H; lia). auto.
Qed.
Lemma process_same e s w w' a b c d f v n : process_value e s (mkcs w' a b c d f) v n = process_value e s (mkcs w a b c d f) v n.
Proof. reflexivity. Qed.
Section Index.
Variables (e : env) (s : sp) (tl : tlines) (wl last : Z).
Hypothesis TL : forall l q, In l (tl_lines tl) -> sp_starts s <= q <= last + 1 -> AP (sp_al s) l q.
Hypothesis WL : forall q, sp_starts s <= q <= last + 1 -> AP (sp_al s) wl q.
Lemma loop_agree : forall positions prev w w' a b c d f, agree w w' ->
  Forall (fun q => sp_starts s <= q <= last) positions -> (forall q, prev = Some q -> sp_starts s <= q <= last) ->
  snd (clean_loop e s tl wl positions prev (mkcs w' a b c d f)) = snd (clean_loop e s tl wl positions prev (mkcs w a b c d f)) /\
  agree (fst (clean_loop e s tl wl positions prev (mkcs w a b c d f))) (fst (clean_loop e s tl wl positions prev (mkcs w' a b c d f))).
Proof.
  assert (FIN : forall w w' q, agree w w' -> sp_starts s <= q <= last ->
    estimate_end (sp_al s) w' wl q (sp_starts s) (sp_ta s) = estimate_end (sp_al s) w wl q (sp_starts s) (sp_ta s)).
  { intros w w' q W Q. apply estimate_agree; auto; try lia. intros k K. apply WL. lia. }
  induction positions as [|q qs IH]; intros prev w w' a b c d f W F PV; cbn [clean_loop].
  - destruct prev as [q|]; cbn [cs_ws fst snd]; auto.
  - cbn [cs_ws cs_parser cs_last cs_count cs_lasts cs_lf]. inversion F as [|? ? Q F']; subst.
    rewrite (value_agree e _ w w' tl q) by (auto; intros l I; apply TL; auto; lia).
    rewrite (value_agree e _ w w' tl (q + 1)) by (auto; intros l I; apply TL; auto; lia).
    rewrite (read_agree w w' _ wl q) by (auto; apply WL; lia).
    match goal with |- context [match ?r with Ok _ => _ | Err _ => _ end] => destruct r as [[v n]|x]; [|cbn [fst snd]; auto] end.
    set (w2 := axis_touch (sp_al s) wl q (touch_time (sp_al s) tl (q + 1) (touch_time (sp_al s) tl q w))).
    set (w2' := axis_touch (sp_al s) wl q (touch_time (sp_al s) tl (q + 1) (touch_time (sp_al s) tl q w'))).
    assert (W2 : agree w2 w2') by (apply axis_touch_agree, touch_time_agree, touch_time_agree; auto).
    assert (PV' : forall k, Some q = Some k -> sp_starts s <= k <= last) by (intros k E; injection E as <-; auto).
    destruct (must_be_time (negb (sp_ta s =? 0)) v).
    + rewrite (process_same e s w2 w2'). destruct (process_value e s (mkcs w2 a b c d f) v n) as [sticky [[[dd lasts] lf]|x]].
      * apply IH; auto. apply axis_write_agree. auto.
      * destruct (exn_eqb x EDay || exn_eqb x EMonth).
        -- apply IH; auto. apply axis_write_agree. auto.
        -- destruct (ends_index x && _); cbn [fst snd cs_ws]; auto.
    + destruct ((c <? NO_TIME_VALUE_LIMIT) && (negb (sp_cont s) || sp_blank s)).
      * apply IH; auto.
      * cbn [fst snd cs_ws]. auto.
Qed.
End Index.

(** what a series may read counts *)
Record covers (s : sp) : Prop := {
  cov_ends : sp_ends s = None -> SZ;
  cov_freq : List.length (sp_freq s) <> 1%nat -> SZ;
  cov_head : forall r c, parse_coord (sp_hc s) = Ok (r, c) -> P r c;
  cov_comp : forall cs t r c, sp_comp s = VList cs -> In (VStr t) cs -> parse_coord t = Ok (r, c) -> P r c;
  cov_values : forall line pos, coord_line (sp_al s) (sp_hc s) = Ok line -> sp_starts s <= pos -> (forall en, sp_ends s = Some en -> pos <= en) -> AP (sp_al s) line pos;
  cov_times : forall t line pos, In t (th_texts (sp_th s)) -> coord_line (sp_al s) t = Ok line ->
    (List.length (sp_freq s) = 1%nat -> sp_starts s + Z.min 0 (sp_ta s) <= pos /\ forall en, sp_ends s = Some en -> pos <= en + Z.max 1 (sp_ta s)) -> AP (sp_al s) line pos
}.
Lemma lines_from al ts ls l : mapM (coord_line al) ts = Ok ls -> In l ls -> exists t, In t ts /\ coord_line al t = Ok l.
Proof.
  revert ls. induction ts as [|t ts IH]; intros ls H I; cbn [mapM] in H; [injection H as <-; destruct I|].
  apply bind_ok in H as (k & K & H). apply bind_ok in H as (ks & KS & H). injection H as <-. destruct I as [<-|I].
  - exists t. split; [left; auto|auto].
  - destruct (IH _ KS I) as (u & U & V). exists u. split; [right; auto|auto].
Qed.
Lemma index_lines al th m tl l : time_lines al th m = Ok tl -> In l (tl_lines tl) -> exists t, In t (th_texts th) /\ coord_line al t = Ok l.
Proof.
  destruct th as [t|ts], m; cbn [time_lines]; try discriminate; intros H I; apply bind_ok in H as (x & X & H); injection H as <-.
  - destruct I as [<-|[]]. exists t. split; [left; auto|auto].
  - eapply lines_from; eauto.
Qed.
Lemma write_from al th l : write_line al th = Ok l -> exists t, In t (th_texts th) /\ coord_line al t = Ok l.
Proof. destruct th as [t|[|t ts]]; cbn [write_line]; intros H; try discriminate; exists t; split; auto; left; auto. Qed.
Lemma line_from al m th l : time_line al m th = Ok l -> exists t, In t (th_texts th) /\ coord_line al t = Ok l.
Proof.
  destruct m, th as [t|[|t ts]]; cbn [time_line]; intros H; try discriminate.
  - destruct t as [|c t]; [discriminate|]. exfalso. unfold coord_line, parse_coord in H. cbn [take_while drop_while] in H. destruct (is_letter c) eqn:L; cbn in H; try discriminate.
    rewrite andb_true_r in H. destruct (is_digit c); discriminate.
  - exists t. split; [left; auto|auto].
  - exists t. split; [left; auto|auto].
Qed.
Lemma single_from m th t : th_single m th = Ok t -> In t (th_texts th).
Proof. destruct th as [u|[|u ts]], m; cbn; intros H; try discriminate; injection H as <-; left; auto. Qed.

Lemma index_agree e s w w' : covers s -> agree w w' ->
  snd (clean_time_index e w' s) = snd (clean_time_index e w s) /\ agree (fst (clean_time_index e w s)) (fst (clean_time_index e w' s)).
Proof.
  intros C W. unfold clean_time_index. destruct (find (fun k => combo_accepts k s) combos) as [k|]; [|auto]. destruct (k_multitable k); [auto|].
  unfold clean_single_table.
  assert (LP : last_position s w' = last_position s w).
  { unfold last_position. destruct (sp_ends s) eqn:EN; auto. destruct (proj1 W (cov_ends _ C EN)) as [A B]. unfold axis_max. destruct (sp_al s); auto. }
  rewrite LP. pose proof (zrange_in (sp_starts s) (last_position s w)) as ZR. destruct (zrange (sp_starts s) (last_position s w)) as [|q qs]; [auto|].
  destruct (time_lines (sp_al s) (sp_th s) (sp_multi s)) as [tl|x] eqn:TL; [|auto].
  destruct (write_line (sp_al s) (sp_th s)) as [wl|x] eqn:WL; [|auto].
  assert (UP : forall p, sp_starts s <= p <= last_position s w + 1 -> sp_starts s + Z.min 0 (sp_ta s) <= p /\ forall en, sp_ends s = Some en -> p <= en + Z.max 1 (sp_ta s)).
  { intros p H. split; [lia|]. intros en EN. unfold last_position in H. rewrite EN in H. lia. }
  apply (loop_agree e s tl wl (last_position s w)).
  - intros l p I H. destruct (index_lines _ _ _ _ _ TL I) as (t & T1 & T2). apply (cov_times _ C t); auto.
  - intros p H. destruct (write_from _ _ _ WL) as (t & T1 & T2). apply (cov_times _ C t); auto.
  - auto.
  - apply Forall_forall. auto.
  - discriminate.
Qed.

(** ** Names and values *)
Lemma name_agree e w w' s : covers s -> agree w w' -> get_name e w' s = get_name e w s.
Proof.
  intros C W. unfold get_name. destruct (truthy (sp_name s)); auto. rewrite (coord_agree w w') by (auto; apply (cov_head _ C)).
  destruct (read_coord w (sp_hc s)) as [v|]; cbn [bind]; auto. destruct (py_str e v) as [t|]; cbn [bind]; auto. cbv zeta.
  assert (E : forall cs, sp_comp s = VList cs ->
    mapM (fun c => do ct <- as_text c; do cv <- read_coord w' ct; do s <- as_text cv; Ok (strip s)) cs =
    mapM (fun c => do ct <- as_text c; do cv <- read_coord w ct; do s <- as_text cv; Ok (strip s)) cs).
  { intros cs CS. apply mapM_ext. intros c I. destruct c; cbn [as_text bind]; auto. rewrite (coord_agree w w'); auto. intros r c. apply (cov_comp _ C cs); auto. }
  destruct (truthy (sp_comp s)); [|auto]. destruct (sp_comp s); auto. rewrite E by auto. auto.
Qed.
Lemma added_agree w w' s q nv : covers s -> agree w w' -> sp_starts s <= q -> (forall en, sp_ends s = Some en -> q <= en) -> to_be_added w' s q nv = to_be_added w s q nv.
Proof.
  intros C W Q1 Q2. unfold to_be_added. destruct (sp_cont s); auto. destruct (time_line (sp_al s) (sp_multi s) (sp_th s)) as [l|] eqn:L; cbn [bind]; auto.
  destruct (line_from _ _ _ _ L) as (t & T1 & T2). rewrite (read_agree w w'); auto. apply (cov_times _ C t); auto. intros _. split; [lia|]. intros en EN. specialize (Q2 en EN). lia.
Qed.
Lemma collect_agree w w' s l : covers s -> agree w w' -> coord_line (sp_al s) (sp_hc s) = Ok l -> forall qs,
  Forall (fun q => sp_starts s <= q /\ forall en, sp_ends s = Some en -> q <= en) qs -> collect w' s l qs = collect w s l qs.
Proof.
  intros C W L. induction qs as [|q qs IH]; intros F; cbn [collect]; auto. inversion F as [|? ? [Q1 Q2] F']; subst.
  rewrite (read_agree w w') by (auto; apply (cov_values _ C); auto). destruct (axis_read (sp_al s) w l q); cbn [bind]; auto.
  match goal with |- bind ?r _ = bind ?r _ => destruct r as [nv|]; cbn [bind]; auto end. rewrite (added_agree w w') by auto. rewrite IH by auto. auto.
Qed.
Lemma values_agree e w w' s : covers s -> agree w w' -> get_values e w' s = get_values e w s.
Proof.
  intros C W. unfold get_values. destruct (sp_ends s) as [en|] eqn:EN; auto. destruct (coord_line (sp_al s) (sp_hc s)) as [l|] eqn:L; cbn [bind]; auto. cbv zeta.
  assert (F : Forall (fun q => sp_starts s <= q /\ forall en, sp_ends s = Some en -> q <= en) (zrange (sp_starts s) en)).
  { apply Forall_forall. intros q I. apply zrange_in in I. split; [lia|]. intros z Z. rewrite EN in Z. injection Z as <-. lia. }
  rewrite (collect_agree w w') by auto. destruct (collect w s l _) as [vs|]; cbn [bind]; auto.
  match goal with |- bind ?r _ = bind ?r _ => destruct r as [g|]; cbn [bind]; auto end.
  match goal with |- bind ?r _ = bind ?r _ => destruct r as [i|]; cbn [bind]; auto end.
  destruct (i && _); auto. destruct g; auto. destruct (write_line (sp_al s) (sp_th s)) as [tl|] eqn:TL; cbn [bind]; auto.
  destruct (write_from _ _ _ TL) as (t & T1 & T2).
  rewrite (mapM_ext (axis_read (sp_al s) w' tl) (axis_read (sp_al s) w tl)); auto. intros q I. apply read_agree; auto. apply (cov_times _ C t); auto. intros _.
  rewrite Forall_forall in F. destruct (F q I) as [F1 F2]. split; [lia|]. intros z Z. specialize (F2 z Z). lia.
Qed.
Lemma data_agree e w w' s : covers s -> agree w w' -> get_data e w' s = get_data e w s.
Proof. intros C W. unfold get_data. rewrite (name_agree e w w'), (values_agree e w w') by auto. auto. Qed.
Lemma data_some e w s nvs en : get_data e w s = Ok nvs -> nvs <> [] -> sp_ends s = Some en -> sp_starts s <= en.
Proof.
  unfold get_data. intros H N E. apply bind_ok in H as (nm & _ & H). apply bind_ok in H as (vls & V & H). injection H as <-.
  unfold get_values in V. rewrite E in V. destruct (Z.leb_spec (sp_starts s) en) as [|GT]; auto. exfalso. apply N.
  assert (Z0 : zrange (sp_starts s) en = []).
  { destruct (zrange (sp_starts s) en) as [|q qs] eqn:ZR; auto. pose proof (zrange_in (sp_starts s) en q). rewrite ZR in H. specialize (H (or_introl eq_refl)). lia. }
  apply bind_ok in V as (l & _ & V). cbv zeta in V. rewrite Z0 in V. cbn [collect bind] in V.
  destruct (Nat.eqb (List.length (sp_freq s)) 1); cbn [group bind map] in V; apply bind_ok in V as (i & _ & V); destruct (i && _) eqn:?; try discriminate; injection V as <-; auto.
Qed.

(** ** Ranges *)
Lemma prs_agree e w w' f st l en ta al : agree w w' -> (List.length f <> 1%nat -> SZ /\ forall q, AP al l q) -> (List.length f = 1%nat -> AP al l (st + ta) /\ AP al l (en + ta)) ->
  series_prs e w' f st l en ta al = series_prs e w f st l en ta al.
Proof.
  intros W M S0. unfold series_prs. unfold accepts_freq. destruct (Nat.ltb 1 (List.length f)) eqn:A.
  - destruct M as [SZ0 AL]; [intros E; rewrite E in A; discriminate|]. destruct (proj1 W SZ0) as [R1 R2].
    assert (SL : forall a b, slice_cells al w' l a b = slice_cells al w l a b).
    { intros a b. unfold slice_cells. replace (axis_max al w') with (axis_max al w) by (destruct al; auto). replace (other_max al w') with (other_max al w) by (destruct al; auto).
      destruct (py_slice _ a b) as [|x xs]; auto. destruct (l <=? _); auto. f_equal. apply map_ext. intros q. symmetry. rewrite (val_agree w w'); auto. }
    unfold multi_prs. cbv zeta. rewrite SL. destruct (slice_cells al w l (st - 1) _); cbn [bind]; auto. destruct al; rewrite SL; auto.
  - destruct (Nat.eqb (List.length f) 1) eqn:B; auto. apply Nat.eqb_eq in B. destruct (S0 B) as [X Y]. unfold single_prs. rewrite !(read_agree w w') by auto. auto.
Qed.
Lemma into_agree e w w' s fs : covers s -> agree w w' ->
  snd (series_into e w' s fs) = snd (series_into e w s fs) /\ agree (fst (series_into e w s fs)) (fst (series_into e w' s fs)).
Proof.
  intros C W. unfold series_into. destruct (find (fun k => dcombo_accepts k s) dcombos) as [k|]; [|auto].
  rewrite (data_agree e w w') by auto. destruct (get_data e w s) as [nvs|x] eqn:G; [|auto]. destruct nvs as [|nv nvs]; [auto|]. cbv zeta.
  pose proof (touch_data_agree w w' s W) as W1.
  destruct (th_single (sp_multi s) (sp_th s)) as [t|x] eqn:TS; cbn [bind]; [|auto].
  destruct (coord_line (sp_al s) t) as [l|x] eqn:L; cbn [bind]; [|auto]. destruct (sp_ends s) as [en|] eqn:EN; [|auto].
  apply single_from in TS. assert (LE : sp_starts s <= en) by (eapply data_some; eauto; discriminate).
  rewrite (prs_agree e (touch_data w s) (touch_data w' s)); auto.
  - destruct (series_prs _ _ _ _ _ _ _ _) as [prs|x]; cbn [bind]; cbn [fst snd]; auto. split; auto. apply touch_prs_agree. auto.
  - intros N. split; [apply (cov_freq _ C); auto|]. intros q. apply (cov_times _ C t); auto. intros O. contradiction.
  - intros O. split; apply (cov_times _ C t); auto; intros _; split; try lia; intros z Z; rewrite EN in Z; injection Z as <-; lia.
Qed.
End Agree.
