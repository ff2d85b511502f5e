(** Turning a sheet and its parameters (C39). *)
From Coq Require Import ZifyBool ZifyNat.
From Verif Require Import Base BaseFacts Cal Coord CoordFacts XlMethods Params ParseTime TimeIndex GetData PeriodRange Attempts DataFrame Scrape Xlseries
  SpecCoord SpecCoordFacts SpecParams SpecTurn.
Local Open Scope Z_scope.

(** ** Cells *)
Lemma touch_turned w w' r c : turned w w' -> turned (touch r c w) (touch c r w').
Proof. intros (A & B & C). unfold touch. repeat split; cbn; auto; rewrite ?A, ?B; auto. Qed.
Lemma write_turned w w' r c v : turned w w' -> turned (write r c v w) (write c r v w').
Proof.
  intros (A & B & C). unfold write. repeat split; cbn; rewrite ?A, ?B; auto. intros a b. rewrite C, andb_comm. reflexivity.
Qed.
Lemma copy_turned w w' : turned w w' -> turned (make_ws_copy w) (make_ws_copy w').
Proof.
  intros (A & B & C). unfold make_ws_copy. repeat split; cbn; auto. intros r c. rewrite A, B, C.
  destruct (1 <=? r), (r <=? max_row w), (1 <=? c), (c <=? max_col w); reflexivity.
Qed.
Lemma read_turned w w' l q v : turned w w' -> l <= max_column -> axis_read Horiz w l q = Ok v -> axis_read Vert w' l q = Ok v.
Proof.
  intros (A & B & C) L. unfold axis_read, read, axis_row, axis_col, cell_ok. rewrite C. intros H.
  destruct ((1 <=? l) && (1 <=? q) && (q <=? max_column)) eqn:E; [|discriminate].
  replace ((1 <=? q) && (1 <=? l) && (l <=? max_column)) with true by lia. auto.
Qed.
Lemma axis_touch_turned w w' l q : turned w w' -> turned (axis_touch Horiz l q w) (axis_touch Vert l q w').
Proof. apply touch_turned. Qed.
Lemma axis_write_turned w w' l q v : turned w w' -> turned (axis_write Horiz l q v w) (axis_write Vert l q v w').
Proof. apply write_turned. Qed.

Lemma turned_at t t' : turned_name t t' -> exists r c, parse_coord t = Ok (r, c) /\ parse_coord t' = Ok (c, r) /\ 1 <= r <= max_column /\ 1 <= c <= max_column.
Proof.
  intros (r & c & A & _ & B & _). apply cell_named_iff in A, B. exists r, c. split; auto. split; auto.
  pose proof (parse_range _ _ _ A). pose proof (parse_range _ _ _ B). unfold max_column. lia.
Qed.
Lemma coord_turned w w' t t' v : turned w w' -> turned_name t t' -> read_coord w t = Ok v -> read_coord w' t' = Ok v.
Proof.
  intros (_ & _ & C) N. destruct (turned_at _ _ N) as (r & c & A & B & R1 & R2). unfold read_coord. rewrite A, B. cbn [bind fst snd].
  unfold read, cell_ok. rewrite C. replace ((1 <=? r) && (1 <=? c) && (c <=? max_column)) with true by lia.
  replace ((1 <=? c) && (1 <=? r) && (r <=? max_column)) with true by lia. auto.
Qed.
Lemma line_turned t t' : turned_name t t' -> exists l, coord_line Horiz t = Ok l /\ coord_line Vert t' = Ok l /\ l <= max_column.
Proof.
  intros N. destruct (turned_at _ _ N) as (r & c & A & B & R1 & R2). exists r. unfold coord_line. rewrite A, B. cbn [bind fst snd]. split; auto. split; auto. lia.
Qed.
Lemma turned_same t t' u u' : turned_name t t' -> turned_name u u' -> text_eqb t' u' = text_eqb t u.
Proof.
  intros (r & c & A & B & C & D) (r2 & c2 & A2 & B2 & C2 & D2).
  pose proof (canonical_coord _ _ _ B A) as E1. pose proof (canonical_coord _ _ _ D C) as E2. pose proof (canonical_coord _ _ _ B2 A2) as E3. pose proof (canonical_coord _ _ _ D2 C2) as E4.
  apply cell_named_iff in A, C, A2, C2. apply eq_iff_eq_true. rewrite !text_eqb_eq. split; intros E.
  - rewrite E in C. rewrite C in C2. inversion C2. congruence.
  - rewrite E in A. rewrite A in A2. inversion A2. congruence.
Qed.

(** ** Series *)
Inductive turned_th : theader -> theader -> Prop :=
| tt_str t t' : turned_name t t' -> turned_th (ThStr t) (ThStr t')
| tt_list l l' : Forall2 turned_name l l' -> turned_th (ThList l) (ThList l').
Record turned_sp (s s' : sp) : Prop := {
  ts_al : sp_al s = Horiz /\ sp_al s' = Vert;
  ts_name : sp_name s' = sp_name s;
  ts_hc : turned_name (sp_hc s) (sp_hc s');
  ts_comp : turned_entry (sp_comp s) (sp_comp s');
  ts_ctx : sp_ctx s' = sp_ctx s;
  ts_starts : sp_starts s' = sp_starts s;
  ts_ends : sp_ends s' = sp_ends s;
  ts_cont : sp_cont s' = sp_cont s;
  ts_blank : sp_blank s' = sp_blank s;
  ts_missings : sp_missings s' = sp_missings s;
  ts_mv : sp_mv s' = sp_mv s;
  ts_ta : sp_ta s' = sp_ta s;
  ts_multi : sp_multi s' = sp_multi s;
  ts_th : turned_th (sp_th s) (sp_th s');
  ts_composed : sp_composed s' = sp_composed s;
  ts_freq : sp_freq s' = sp_freq s
}.

(** ** The time index *)
Definition small (tl : tlines) : Prop := match tl with OneLine l => l <= max_column | ManyLines ls => Forall (fun l => l <= max_column) ls end.
Lemma lines_turned ts ts' ls : Forall2 turned_name ts ts' -> mapM (coord_line Horiz) ts = Ok ls ->
  mapM (coord_line Vert) ts' = Ok ls /\ Forall (fun l => l <= max_column) ls.
Proof.
  intros F. revert ls. induction F as [|t t' ts ts' N F IH]; intros ls H; cbn [mapM] in *.
  - inversion H; subst. split; auto.
  - destruct (line_turned _ _ N) as (l & A & B & L). rewrite A in H. rewrite B. cbn [bind] in *.
    apply bind_ok in H as (ls' & H & E). inversion E; subst. destruct (IH _ H) as [I1 I2]. rewrite I1. cbn [bind]. split; auto.
Qed.
Lemma time_lines_turned th th' m tl : turned_th th th' -> time_lines Horiz th m = Ok tl -> time_lines Vert th' m = Ok tl /\ small tl.
Proof.
  intros [t t' N|l l' F] H; destruct m; cbn [time_lines] in *; try discriminate.
  - destruct (line_turned _ _ N) as (l & A & B & L). rewrite A in H. rewrite B. cbn [bind] in *. inversion H; subst. split; auto.
  - apply bind_ok in H as (ls & H & E). inversion E; subst. destruct (lines_turned _ _ _ F H) as [I1 I2]. rewrite I1. split; auto.
Qed.
Lemma write_line_turned th th' wl : turned_th th th' -> write_line Horiz th = Ok wl -> write_line Vert th' = Ok wl /\ wl <= max_column.
Proof.
  intros [t t' N|l l' F] H; cbn [write_line] in *.
  - destruct (line_turned _ _ N) as (l & A & B & L). rewrite A in H. inversion H; subst. auto.
  - destruct F as [|t t' l l' N F]; [discriminate|]. destruct (line_turned _ _ N) as (k & A & B & L). rewrite A in H. inversion H; subst. auto.
Qed.
Lemma foldM_ok {A S} (f g : S -> A -> res S) (P : A -> Prop) l : Forall P l -> (forall s a r, P a -> f s a = Ok r -> g s a = Ok r) ->
  forall s r, foldM f l s = Ok r -> foldM g l s = Ok r.
Proof.
  intros F H. induction F as [|a l PA F IH]; intros s r E; cbn [foldM] in *; auto.
  apply bind_ok in E as (s' & E1 & E2). rewrite (H _ _ _ PA E1). cbn [bind]. auto.
Qed.
Lemma value_turned e w w' tl q v : turned w w' -> small tl -> time_value e Horiz w tl q = Ok v -> time_value e Vert w' tl q = Ok v.
Proof.
  intros W S0. destruct tl as [l|ls]; cbn [time_value].
  - apply read_turned; auto.
  - unfold many_value. intros H. apply bind_ok in H as (ts & H & E). rewrite <- E. clear E.
    rewrite (foldM_ok _ (fun acc l => do v <- axis_read Vert w' l q; do _ <- assert_ (negb (is_date v));
             if truthy v && negb (py_eq v (str_ "None")) then do t <- safe_str e v; Ok (acc ++ [t]) else Ok acc) _ ls S0) with (2 := H); [reflexivity|].
    intros acc l r L R. apply bind_ok in R as (x & X & R). rewrite (read_turned _ _ _ _ _ W L X). exact R.
Qed.
Lemma touch_time_turned tl q : forall w w', turned w w' -> turned (touch_time Horiz tl q w) (touch_time Vert tl q w').
Proof.
  destruct tl as [l|ls]; cbn [touch_time]; intros w w' W; [apply axis_touch_turned; auto|].
  revert w w' W. induction ls as [|l ls IH]; cbn [fold_left]; intros w w' W; auto. apply IH. apply axis_touch_turned. auto.
Qed.
Lemma process_turned e s s' w w' a b c d f v n : turned_sp s s' -> process_value e s' (mkcs w' a b c d f) v n = process_value e s (mkcs w a b c d f) v n.
Proof.
  intros T. unfold process_value, correct_state. rewrite (ts_composed _ _ T), (ts_freq _ _ T), (ts_missings _ _ T), (ts_mv _ _ T). reflexivity.
Qed.
Lemma estimate_turned w w' l q st ta z : turned w w' -> estimate_end Horiz w l q st ta = Ok z -> estimate_end Vert w' l q st ta = Ok z.
Proof.
  intros (_ & _ & C) H. unfold estimate_end in *. destruct (is_date (axis_val Horiz w l q)) eqn:D; [|discriminate]. cbn [bind] in H.
  assert (E : axis_val Vert w' l q = axis_val Horiz w l q) by (unfold axis_val, axis_row, axis_col; apply C).
  replace (walk_back w' l q (Z.to_nat (q - st))) with q; [exact H|]. destruct (Z.to_nat (q - st)); cbn [walk_back]; rewrite E, D; reflexivity.
Qed.
Section Index.
Variables (e : env) (s s' : sp) (tl : tlines) (wl : Z).
Hypothesis T : turned_sp s s'.
Hypothesis SM : small tl.
Hypothesis WL : wl <= max_column.
Lemma finish_turned w w' q w1 z : turned w w' -> (w, estimate_end (sp_al s) w wl q (sp_starts s) (sp_ta s)) = (w1, Ok z) ->
  exists w1', (w', estimate_end (sp_al s') w' wl q (sp_starts s') (sp_ta s')) = (w1', Ok z) /\ turned w1 w1'.
Proof.
  intros W H. inversion H; subst. exists w'. split; auto. destruct (ts_al _ _ T) as [A1 A2]. rewrite A2, (ts_starts _ _ T), (ts_ta _ _ T).
  rewrite A1 in H2. rewrite A1. f_equal. rewrite H2. eapply estimate_turned; eauto.
Qed.
Lemma loop_turned : forall positions prev w w' a b c d f w1 z, turned w w' ->
  clean_loop e s tl wl positions prev (mkcs w a b c d f) = (w1, Ok z) ->
  exists w1', clean_loop e s' tl wl positions prev (mkcs w' a b c d f) = (w1', Ok z) /\ turned w1 w1'.
Proof.
  destruct (ts_al _ _ T) as [A1 A2].
  induction positions as [|q qs IH]; intros prev w w' a b c d f w1 z W H; cbn [clean_loop] in *.
  - destruct prev; [|discriminate]. cbn [cs_ws] in *. eapply finish_turned; eauto.
  - cbn [cs_ws cs_parser cs_last cs_count cs_lasts cs_lf] in *.
    match type of H with match ?r with _ => _ end = _ => destruct r as [[v n]|x] eqn:R; [|discriminate] end.
    apply bind_ok in R as (v0 & R1 & R). apply bind_ok in R as (n0 & R2 & R). apply bind_ok in R as (u & R3 & R). inversion R; subst v0 n0. clear R.
    rewrite A1 in R1, R2, R3. rewrite A2.
    rewrite (value_turned _ _ _ _ _ _ W SM R1). cbn [bind]. rewrite (value_turned _ _ _ _ _ _ W SM R2). cbn [bind].
    rewrite (read_turned _ _ _ _ _ W WL R3). cbn [bind]. rewrite A1 in H.
    set (w2 := axis_touch Horiz wl q (touch_time Horiz tl (q + 1) (touch_time Horiz tl q w))) in *.
    set (w2' := axis_touch Vert wl q (touch_time Vert tl (q + 1) (touch_time Vert tl q w'))) in *.
    assert (W2 : turned w2 w2') by (apply axis_touch_turned, touch_time_turned, touch_time_turned; auto).
    rewrite (ts_ta _ _ T), (ts_cont _ _ T), (ts_blank _ _ T), (ts_ends _ _ T).
    destruct (must_be_time (negb (sp_ta s =? 0)) v).
    + rewrite (process_turned e s s' w2 w2' a b c d f v n T). destruct (process_value e s (mkcs w2 a b c d f) v n) as [sticky [[[dd lasts] lf]|x]].
      * eapply IH; [|exact H]. apply axis_write_turned. auto.
      * destruct (exn_eqb x EDay || exn_eqb x EMonth).
        -- eapply IH; [|exact H]. apply axis_write_turned. auto.
        -- destruct (ends_index x && _); [|discriminate]. rewrite <- A1 in H. rewrite <- A2, <- (ts_ta _ _ T). eapply finish_turned; eauto.
    + destruct ((c <? NO_TIME_VALUE_LIMIT) && (negb (sp_cont s) || sp_blank s)).
      * eapply IH; [|exact H]. auto.
      * rewrite <- A1 in H. rewrite <- A2, <- (ts_ta _ _ T). eapply finish_turned; eauto.
Qed.
End Index.
Lemma index_turned e s s' w w' w1 z : turned_sp s s' -> turned w w' -> clean_time_index e w s = (w1, Ok z) ->
  exists w1', clean_time_index e w' s' = (w1', Ok z) /\ turned w1 w1'.
Proof.
  intros T W. unfold clean_time_index.
  assert (E : find (fun k => combo_accepts k s') combos = find (fun k => combo_accepts k s) combos).
  { unfold combo_accepts, accepts_table, accepts_col, accepts_offset.
    rewrite (ts_blank _ _ T), (ts_cont _ _ T), (ts_ends _ _ T), (ts_multi _ _ T), (ts_ta _ _ T), (ts_freq _ _ T). reflexivity. }
  rewrite E. intros H. clear E. destruct (find (fun k => combo_accepts k s) combos) as [k|]; [|discriminate H]. destruct (k_multitable k); [discriminate H|]. revert H.
  unfold clean_single_table. destruct (ts_al _ _ T) as [A1 A2].
  assert (LP : last_position s' w' = last_position s w).
  { unfold last_position. rewrite (ts_ends _ _ T), A1, A2. cbn [axis_max]. destruct W as (-> & _). reflexivity. }
  rewrite LP, (ts_starts _ _ T). destruct (zrange (sp_starts s) (last_position s w)) as [|q qs]; [intros H; discriminate|].
  intros H. destruct (time_lines (sp_al s) (sp_th s) (sp_multi s)) as [tl|x] eqn:TL; [|discriminate].
  destruct (write_line (sp_al s) (sp_th s)) as [wl|x] eqn:WL; [|discriminate].
  rewrite A1 in TL, WL. destruct (time_lines_turned _ _ _ _ (ts_th _ _ T) TL) as [TL' SM]. destruct (write_line_turned _ _ _ (ts_th _ _ T) WL) as [WL' WS].
  rewrite A2, (ts_multi _ _ T), TL', WL'. eapply loop_turned; eauto.
Qed.

(** ** Names and values *)
Lemma name_turned e w w' s s' t : turned_sp s s' -> turned w w' -> get_name e w s = Ok t -> get_name e w' s' = Ok t.
Proof.
  intros T W. unfold get_name. rewrite (ts_name _ _ T), (ts_ctx _ _ T). destruct (truthy (sp_name s)); auto.
  intros H. apply bind_ok in H as (v & V & H). rewrite (coord_turned _ _ _ _ _ W (ts_hc _ _ T) V). cbn [bind].
  apply bind_ok in H as (u & U & H). rewrite U. cbn [bind]. cbv zeta in *. apply bind_ok in H as (n & N & H).
  match goal with |- (do x <- ?r; _) = _ => assert (G : r = Ok n); [|rewrite G; exact H] end. clear H.
  destruct (ts_comp _ _ T) as [a b X| |l l' F]; auto.
  - destruct X as (r & c & X1 & _ & X2 & _). assert (NE : forall q q1 q2, cell_named q q1 q2 -> q <> []).
    { intros q q1 q2 Q ->. apply cell_named_iff in Q. discriminate. }
    apply NE in X1, X2. cbn [truthy] in *. destruct a; [congruence|]. destruct b; [congruence|]. exact N.
  - cbn [truthy] in *. assert (L : List.length l' = List.length l) by (clear - F; induction F; cbn; congruence).
    destruct F as [|x x' l l' X F]; auto. cbn [List.length] in *. cbn [Nat.eqb negb] in *.
    apply bind_ok in N as (parts & P & N).
    match goal with |- (do x <- ?r; _) = _ => assert (G : r = Ok parts); [|rewrite G; exact N] end. clear N L.
    assert (G : forall l l', Forall2 turned_entry l l' -> forall ps,
      mapM (fun c => do ct <- as_text c; do cv <- read_coord w ct; do s <- as_text cv; Ok (strip s)) l = Ok ps ->
      mapM (fun c => do ct <- as_text c; do cv <- read_coord w' ct; do s <- as_text cv; Ok (strip s)) l' = Ok ps).
    { clear - W. induction 1 as [|x x' l l' X F IH]; intros ps P; cbn [mapM] in *; auto.
      apply bind_ok in P as (p0 & P0 & P). apply bind_ok in P as (ps' & P1 & P). rewrite (IH _ P1).
      destruct X; cbn [as_text bind] in *; try discriminate. apply bind_ok in P0 as (cv & C & P0). rewrite (coord_turned _ _ _ _ _ W H C). cbn [bind].
      rewrite P0. cbn [bind]. auto. }
    apply (G (x :: l) (x' :: l')); auto.
Qed.
Lemma time_line_turned m th th' l : turned_th th th' -> time_line Horiz m th = Ok l -> time_line Vert m th' = Ok l /\ l <= max_column.
Proof.
  intros [t t' N|ts ts' F] H; destruct m; cbn [time_line] in *; try discriminate.
  - destruct t as [|c t]; [discriminate|]. exfalso. unfold coord_line, parse_coord in H. cbn [take_while drop_while] in H. destruct (is_letter c) eqn:L; cbn in H; try discriminate.
    rewrite andb_true_r in H. destruct (is_digit c); discriminate.
  - destruct (line_turned _ _ N) as (k & A & B & L). rewrite A in H. inversion H; subst. auto.
  - destruct F as [|t t' ts ts' N F]; [discriminate|]. destruct (line_turned _ _ N) as (k & A & B & L). rewrite A in H. inversion H; subst. auto.
Qed.
Lemma added_turned w w' s s' q nv b : turned_sp s s' -> turned w w' -> to_be_added w s q nv = Ok b -> to_be_added w' s' q nv = Ok b.
Proof.
  intros T W. unfold to_be_added. destruct (ts_al _ _ T) as [A1 A2]. rewrite (ts_cont _ _ T), (ts_ta _ _ T), (ts_multi _ _ T), A1, A2. destruct (sp_cont s); auto.
  intros H. apply bind_ok in H as (l & L & H). destruct (time_line_turned _ _ _ _ (ts_th _ _ T) L) as [L' LM]. rewrite L'. cbn [bind].
  apply bind_ok in H as (v & V & H). rewrite (read_turned _ _ _ _ _ W LM V). exact H.
Qed.
Lemma collect_turned w w' s s' l : turned_sp s s' -> turned w w' -> l <= max_column -> forall qs vs,
  collect w s l qs = Ok vs -> collect w' s' l qs = Ok vs.
Proof.
  intros T W L. destruct (ts_al _ _ T) as [A1 A2]. induction qs as [|q qs IH]; intros vs H; cbn [collect] in *; auto.
  rewrite A1 in H. rewrite A2. apply bind_ok in H as (v & V & H). rewrite (read_turned _ _ _ _ _ W L V). cbn [bind].
  rewrite (ts_cont _ _ T), (ts_missings _ _ T), (ts_blank _ _ T), (ts_mv _ _ T).
  apply bind_ok in H as (nv & N & H). rewrite N. cbn [bind]. apply bind_ok in H as (b & B & H). rewrite (added_turned _ _ _ _ _ _ _ T W B). cbn [bind].
  apply bind_ok in H as (vs' & C & H). rewrite (IH _ C). exact H.
Qed.
Lemma values_turned e w w' s s' vls : turned_sp s s' -> turned w w' -> get_values e w s = Ok vls -> get_values e w' s' = Ok vls.
Proof.
  intros T W. unfold get_values. destruct (ts_al _ _ T) as [A1 A2]. rewrite (ts_ends _ _ T), (ts_starts _ _ T), (ts_freq _ _ T), (ts_missings _ _ T), (ts_mv _ _ T), A1, A2.
  destruct (sp_ends s) as [en|]; [|auto]. intros H. destruct (line_turned _ _ (ts_hc _ _ T)) as (l & L1 & L2 & LM). rewrite L1 in H. rewrite L2. cbn [bind] in *.
  cbv zeta in *. apply bind_ok in H as (vs & V & H). rewrite (collect_turned _ _ _ _ _ T W LM _ _ V). cbn [bind].
  apply bind_ok in H as (g & G & H). rewrite G. cbn [bind]. apply bind_ok in H as (i & I & H). rewrite I. cbn [bind].
  destruct (i && _); auto. destruct g; auto. apply bind_ok in H as (tl & TL & H). destruct (write_line_turned _ _ _ (ts_th _ _ T) TL) as [TL' TM]. rewrite TL'. cbn [bind].
  apply bind_ok in H as (tvs & TV & H).
  match goal with |- (do x <- ?r; _) = _ => assert (X : r = Ok tvs); [|rewrite X; exact H] end. clear H V.
  revert tvs TV. generalize (zrange (sp_starts s) en) as qs. induction qs as [|q qs IH]; intros tvs H; cbn [mapM] in *; auto.
  apply bind_ok in H as (x & X & H). rewrite (read_turned _ _ _ _ _ W TM X). cbn [bind]. apply bind_ok in H as (xs & XS & H). rewrite (IH _ XS). auto.
Qed.
Lemma data_turned e w w' s s' nvs : turned_sp s s' -> turned w w' -> get_data e w s = Ok nvs -> get_data e w' s' = Ok nvs.
Proof.
  intros T W. unfold get_data. intros H. apply bind_ok in H as (n & N & H). rewrite (name_turned _ _ _ _ _ _ T W N). cbn [bind].
  apply bind_ok in H as (v & V & H). rewrite (values_turned _ _ _ _ _ _ T W V). auto.
Qed.
