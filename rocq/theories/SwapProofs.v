(** Putting the columns of a sheet in other places: one series (C84). *)
From Coq Require Import ZifyBool ZifyNat.
From Verif Require Import Base BaseFacts Cal Coord CoordFacts XlMethods Params ParseTime TimeIndex GetData PeriodRange Attempts DataFrame Scrape Xlseries
  SpecCoord SpecCoordFacts SpecParams SpecMove SpecSwap MoveProofs.
Local Open Scope Z_scope.

Section Swap.
Variables (al : align) (u : Z -> Z -> Prop).
Hypothesis U : one_to_one u.
Notation moved := (rearranged al u).
Notation mname := (placed_name al u).
(** two lines that go together and have names *)
Definition named_line (l : Z) : Prop := 1 <= l /\ (al = Vert -> l <= max_column).
Definition lined (l l' : Z) : Prop := u l l' /\ named_line l /\ named_line l'.

Lemma val_at w l q : axis_val al w l q = at_line al w l q.
Proof. destruct al; reflexivity. Qed.
Lemma touch_length w l q : length_of al (axis_touch al l q w) = Z.max (length_of al w) q.
Proof. destruct al; reflexivity. Qed.
Lemma touch_lines w l q : lines_of al (axis_touch al l q w) = Z.max (lines_of al w) l.
Proof. destruct al; reflexivity. Qed.
Lemma touch_cells w l q k z : at_line al (axis_touch al l q w) k z = at_line al w k z.
Proof. destruct al; reflexivity. Qed.
Lemma write_length w l q v : length_of al (axis_write al l q v w) = Z.max (length_of al w) q.
Proof. destruct al; reflexivity. Qed.
Lemma write_lines w l q v : lines_of al (axis_write al l q v w) = Z.max (lines_of al w) l.
Proof. destruct al; reflexivity. Qed.
Lemma write_cells w l q v k z : at_line al (axis_write al l q v w) k z = if (z =? q) && (k =? l) then v else at_line al w k z.
Proof. destruct al; cbn; [reflexivity|]. rewrite andb_comm. reflexivity. Qed.
Lemma axis_touch_moved w w' l l' q : moved w w' -> moved (axis_touch al l q w) (axis_touch al l' q w').
Proof.
  intros [A B C]. constructor; intros; rewrite ?touch_length, ?touch_lines, ?touch_cells; [lia| |auto]. specialize (B _ _ H). lia.
Qed.
Lemma axis_write_moved w w' l l' q v : u l l' -> moved w w' -> moved (axis_write al l q v w) (axis_write al l' q v w').
Proof.
  intros UL [A B C]. constructor; intros; rewrite ?write_length, ?write_lines, ?write_cells; [lia|specialize (B _ _ H); lia|].
  rewrite (C _ _ _ H). replace (l'0 =? l') with (l0 =? l); auto. pose proof (U _ _ _ _ H UL). lia.
Qed.
Lemma copy_moved w w' : moved w w' -> moved (make_ws_copy w) (make_ws_copy w').
Proof.
  intros [A B C]. constructor; intros.
  - destruct al; exact A.
  - specialize (B _ _ H). destruct al; exact B.
  - specialize (B _ _ H). specialize (C _ _ q H). unfold make_ws_copy. destruct al; cbn [at_line length_of lines_of cell max_row max_col] in *; rewrite A, C.
    + replace (1 <=? l') with true by lia. replace (l' <=? max_col w') with true by lia. replace (1 <=? l) with true by lia. replace (l <=? max_col w) with true by lia. reflexivity.
    + replace (1 <=? l') with true by lia. replace (l' <=? max_row w') with true by lia. replace (1 <=? l) with true by lia. replace (l <=? max_row w) with true by lia. reflexivity.
Qed.
Lemma val_moved w w' l l' q : moved w w' -> u l l' -> axis_val al w' l' q = axis_val al w l q.
Proof. intros W H. rewrite !val_at. apply (re_cells _ _ _ _ W). auto. Qed.
Lemma read_moved w w' l l' q : moved w w' -> lined l l' -> axis_read al w' l' q = axis_read al w l q.
Proof.
  intros W (H & [A1 A2] & B1 & B2). pose proof (val_moved w w' l l' q W H) as V. unfold axis_read, read. unfold axis_val in V. rewrite V.
  replace (cell_ok (axis_row al l' q) (axis_col al l' q)) with (cell_ok (axis_row al l q) (axis_col al l q)); auto. unfold cell_ok. destruct al; cbn [axis_row axis_col]; [specialize (A2 eq_refl); specialize (B2 eq_refl)|]; lia.
Qed.

(** ** Names *)
Lemma line_moved t t' : mname t t' -> exists l l', coord_line al t = Ok l /\ coord_line al t' = Ok l' /\ lined l l'.
Proof.
  intros (r & c & r' & c' & A & _ & B & _ & P). apply cell_named_iff in A, B. pose proof (parse_range _ _ _ A) as RA. pose proof (parse_range _ _ _ B) as RB. unfold coord_line. rewrite A, B. cbn [bind fst snd].
  unfold lined, named_line, max_column. destruct al; destruct P as [-> P]; eexists _, _; (split; [reflexivity|]); (split; [reflexivity|]); (split; [exact P|]); (split; split; [lia| |lia|]); first [discriminate|intros _; lia].
Qed.
Lemma coord_moved w w' t t' : moved w w' -> mname t t' -> read_coord w' t' = read_coord w t.
Proof.
  intros W (r & c & r' & c' & A & _ & B & _ & P). apply cell_named_iff in A, B. pose proof (parse_range _ _ _ A) as RA. pose proof (parse_range _ _ _ B) as RB. unfold read_coord. rewrite A, B. cbn [bind fst snd].
  pose proof (re_cells _ _ _ _ W) as RC. destruct al; destruct P as [-> P].
  - specialize (RC _ _ r P). cbn in RC. unfold read, cell_ok, max_column. rewrite RC. replace ((1 <=? r) && (1 <=? c') && (c' <=? 18278)) with ((1 <=? r) && (1 <=? c) && (c <=? 18278)) by lia. reflexivity.
  - specialize (RC _ _ c P). cbn in RC. unfold read, cell_ok, max_column. rewrite RC. replace ((1 <=? r') && (1 <=? c) && (c <=? 18278)) with ((1 <=? r) && (1 <=? c) && (c <=? 18278)) by lia. reflexivity.
Qed.
Lemma moved_same t t' v v' : mname t t' -> mname v v' -> text_eqb t' v' = text_eqb t v.
Proof.
  intros (r & c & r' & c' & A & B & C & D & P) (r2 & c2 & r2' & c2' & A2 & B2 & C2 & D2 & P2).
  pose proof (canonical_coord _ _ _ B A) as E1. pose proof (canonical_coord _ _ _ D C) as E2. pose proof (canonical_coord _ _ _ B2 A2) as E3. pose proof (canonical_coord _ _ _ D2 C2) as E4.
  apply cell_named_iff in A, C, A2, C2. apply eq_iff_eq_true. rewrite !text_eqb_eq. split; intros E.
  - rewrite E in C. rewrite C in C2. injection C2 as X Y. assert (r = r2 /\ c = c2) as [-> ->]; [|congruence]. destruct al; destruct P as [Q P], P2 as [Q2 P2]; pose proof (U _ _ _ _ P P2); lia.
  - rewrite E in A. rewrite A in A2. injection A2 as X Y. assert (r' = r2' /\ c' = c2') as [-> ->]; [|congruence]. destruct al; destruct P as [Q P], P2 as [Q2 P2]; pose proof (U _ _ _ _ P P2); lia.
Qed.
Lemma name_head t t' al0 : mname t t' -> match t, t' with a :: _, b :: _ => coord_line al0 [a] = Err EAttr /\ coord_line al0 [b] = Err EAttr | _, _ => False end.
Proof.
  intros (r & c & r' & c' & A & _ & B & _ & _). apply cell_named_iff in A, B.
  assert (G : forall v x, parse_coord v = Ok x -> match v with a :: _ => coord_line al0 [a] = Err EAttr | _ => False end).
  { clear. intros v x. destruct v as [|a v]; [discriminate|]. unfold coord_line, parse_coord. cbn [take_while drop_while]. destruct (is_letter a) eqn:L; cbn; auto.
    destruct (is_digit a); cbn; auto. discriminate. }
  apply G in A, B. destruct t, t'; try contradiction. auto.
Qed.

(** ** Series *)
Inductive moved_th : theader -> theader -> Prop :=
| mt_str t t' : mname t t' -> moved_th (ThStr t) (ThStr t')
| mt_list l l' : Forall2 mname l l' -> moved_th (ThList l) (ThList l').
Record moved_sp (s s' : sp) : Prop := {
  ms_here : sp_al s = al;
  ms_al : sp_al s' = al;
  ms_name : sp_name s' = sp_name s;
  ms_hc : mname (sp_hc s) (sp_hc s');
  ms_comp : placed_entry al u (sp_comp s) (sp_comp s');
  ms_ctx : sp_ctx s' = sp_ctx s;
  ms_starts : sp_starts s' = sp_starts s;
  ms_ends : sp_ends s' = sp_ends s;
  ms_cont : sp_cont s' = sp_cont s;
  ms_blank : sp_blank s' = sp_blank s;
  ms_missings : sp_missings s' = sp_missings s;
  ms_mv : sp_mv s' = sp_mv s;
  ms_ta : sp_ta s' = sp_ta s;
  ms_multi : sp_multi s' = sp_multi s;
  ms_th : moved_th (sp_th s) (sp_th s');
  ms_composed : sp_composed s' = sp_composed s;
  ms_freq : sp_freq s' = sp_freq s
}.

(** ** The time index *)
Definition moved_tl (tl tl' : tlines) : Prop :=
  match tl, tl' with
  | OneLine l, OneLine l' => lined l l'
  | ManyLines ls, ManyLines ls' => Forall2 lined ls ls'
  | _, _ => False
  end.
Lemma time_lines_moved th th' m : moved_th th th' -> both moved_tl (time_lines al th m) (time_lines al th' m).
Proof.
  intros [t t' N|l l' F]; destruct m; cbn [time_lines]; try (cbn; auto).
  - destruct (line_moved _ _ N) as (l & l' & -> & -> & O). exact O.
  - eapply (both_bind (Forall2 lined)); [eapply both_mapM; [exact F|]|intros x y H; exact H]. intros t t' N. destruct (line_moved _ _ N) as (k & k' & -> & -> & O). exact O.
Qed.
Lemma write_line_moved th th' : moved_th th th' -> both lined (write_line al th) (write_line al th').
Proof.
  intros [t t' N|l l' F]; cbn [write_line].
  - destruct (line_moved _ _ N) as (l & l' & -> & -> & O). exact O.
  - destruct F as [|t t' l l' N F]; [reflexivity|]. destruct (line_moved _ _ N) as (k & k' & -> & -> & O). exact O.
Qed.
Lemma value_moved e w w' tl tl' q : moved w w' -> moved_tl tl tl' -> time_value e al w' tl' q = time_value e al w tl q.
Proof.
  intros W T. destruct tl as [l|ls], tl' as [l'|ls']; try contradiction; cbn [time_value].
  - apply read_moved; auto.
  - cbn in T. unfold many_value. match goal with |- bind (foldM ?f _ _) _ = bind (foldM ?g _ _) _ => assert (E : forall acc, foldM f ls' acc = foldM g ls acc) end; [|rewrite E; reflexivity].
    induction T as [|l l' ls ls' O F IH]; intros acc; cbn [foldM]; auto. rewrite (read_moved w w' l l') by auto.
    match goal with |- bind ?r _ = bind ?r _ => destruct r; cbn [bind]; auto end.
Qed.
Lemma touch_time_moved tl tl' q : moved_tl tl tl' -> forall w w', moved w w' -> moved (touch_time al tl q w) (touch_time al tl' q w').
Proof.
  intros T. destruct tl as [l|ls], tl' as [l'|ls']; try contradiction; cbn [touch_time]; intros w w' W.
  - apply axis_touch_moved; auto.
  - cbn in T. revert w w' W. induction T as [|l l' ls ls' O F IH]; cbn [fold_left]; intros w w' W; auto. apply IH. apply axis_touch_moved. auto.
Qed.
Lemma process_moved e s s' w w' a b c x f v n : moved_sp s s' -> process_value e s' (mkcs w' a b c x f) v n = process_value e s (mkcs w a b c x f) v n.
Proof.
  intros T. unfold process_value, correct_state. rewrite (ms_composed _ _ T), (ms_freq _ _ T), (ms_missings _ _ T), (ms_mv _ _ T). reflexivity.
Qed.
Lemma walk_moved w w' l l' : (forall q, axis_val Vert w' l' q = axis_val Vert w l q) -> forall n q, walk_back w' l' q n = walk_back w l q n.
Proof. intros V. induction n as [|n IH]; intros q; cbn [walk_back]; rewrite V; destruct (is_date (axis_val Vert w l q)); auto. Qed.
Lemma estimate_moved w w' l l' q st ta : moved w w' -> u l l' -> estimate_end al w' l' q st ta = estimate_end al w l q st ta.
Proof.
  intros W O. pose proof (fun q => val_moved w w' l l' q W O) as V. unfold estimate_end. destruct al.
  - rewrite (walk_moved w w' l l' V). reflexivity.
  - rewrite V. reflexivity.
Qed.
Section Index.
Variables (e : env) (s s' : sp) (tl tl' : tlines) (wl wl' : Z).
Hypothesis T : moved_sp s s'.
Hypothesis TL : moved_tl tl tl'.
Hypothesis WL : lined wl wl'.
Lemma loop_moved : forall positions prev w w' a b c x f, moved w w' ->
  let r := clean_loop e s tl wl positions prev (mkcs w a b c x f) in
  let r' := clean_loop e s' tl' wl' positions prev (mkcs w' a b c x f) in
  snd r' = snd r /\ moved (fst r) (fst r').
Proof.
  assert (UW : u wl wl') by apply WL.
  assert (FIN : forall w w' q, moved w w' -> estimate_end (sp_al s') w' wl' q (sp_starts s') (sp_ta s') = estimate_end (sp_al s) w wl q (sp_starts s) (sp_ta s)).
  { intros w w' q W. rewrite (ms_al _ _ T), (ms_here _ _ T), (ms_starts _ _ T), (ms_ta _ _ T). apply estimate_moved; auto. }
  induction positions as [|q qs IH]; intros prev w w' a b c x f W; cbn [clean_loop].
  - destruct prev as [q|]; cbn [cs_ws fst snd]; [|auto]. split; auto.
  - cbn [cs_ws cs_parser cs_last cs_count cs_lasts cs_lf]. rewrite (ms_al _ _ T), (ms_here _ _ T).
    rewrite (value_moved e w w' tl tl' q) by auto. rewrite (value_moved e w w' tl tl' (q + 1)) by auto.
    rewrite (read_moved w w' wl wl' q) by auto.
    match goal with |- context [match ?r with Ok _ => _ | Err _ => _ end] => destruct r as [[v n]|y]; [|cbn [fst snd]; split; [auto|auto]] end.
    set (w2 := axis_touch al wl q (touch_time al tl (q + 1) (touch_time al tl q w))).
    set (w2' := axis_touch al wl' q (touch_time al tl' (q + 1) (touch_time al tl' q w'))).
    assert (W2 : moved w2 w2') by (apply axis_touch_moved, touch_time_moved, touch_time_moved; auto).
    assert (FIN2 := fun w w' W => FIN w w' q W). rewrite (ms_al _ _ T), (ms_here _ _ T), (ms_ta _ _ T) in FIN2.
    rewrite (ms_ta _ _ T), (ms_cont _ _ T), (ms_blank _ _ T).
    destruct (must_be_time (negb (sp_ta s =? 0)) v).
    + rewrite (process_moved e s s' w2 w2' a b c x f v n T). destruct (process_value e s (mkcs w2 a b c x f) v n) as [sticky [[[dd lasts] lf]|y]].
      * apply IH; auto. apply axis_write_moved; auto.
      * destruct (exn_eqb y EDay || exn_eqb y EMonth).
        -- apply IH; auto. apply axis_write_moved; auto.
        -- rewrite (ms_ends _ _ T). destruct (ends_index y && _); cbn [fst snd cs_ws]; [split; auto|split; [auto|auto]].
    + destruct ((c <? NO_TIME_VALUE_LIMIT) && (negb (sp_cont s) || sp_blank s)).
      * apply IH; auto.
      * cbn [fst snd cs_ws]. split; auto.
Qed.
End Index.
Lemma last_moved s s' w w' : moved_sp s s' -> moved w w' -> last_position s' w' = last_position s w.
Proof.
  intros T [A _ _]. unfold last_position. rewrite (ms_ends _ _ T), (ms_al _ _ T), (ms_here _ _ T). destruct (sp_ends s); [reflexivity|]. destruct al; exact A.
Qed.
Lemma index_moved e s s' w w' : moved_sp s s' -> moved w w' ->
  let r := clean_time_index e w s in let r' := clean_time_index e w' s' in snd r' = snd r /\ moved (fst r) (fst r').
Proof.
  intros T W. cbv zeta. unfold clean_time_index.
  assert (E : find (fun k => combo_accepts k s') combos = find (fun k => combo_accepts k s) combos).
  { unfold combo_accepts, accepts_table, accepts_col, accepts_offset.
    rewrite (ms_blank _ _ T), (ms_cont _ _ T), (ms_ends _ _ T), (ms_multi _ _ T), (ms_ta _ _ T), (ms_freq _ _ T). destruct (sp_ends s); reflexivity. }
  rewrite E. clear E. destruct (find (fun k => combo_accepts k s) combos) as [k|]; [|split; [cbn; auto|auto]]. destruct (k_multitable k); [split; [cbn; auto|auto]|].
  unfold clean_single_table. rewrite (last_moved _ _ _ _ T W), (ms_starts _ _ T), (ms_al _ _ T), (ms_here _ _ T), (ms_multi _ _ T).
  pose proof (time_lines_moved _ _ (sp_multi s) (ms_th _ _ T)) as TL. pose proof (write_line_moved _ _ (ms_th _ _ T)) as WL.
  destruct (zrange (sp_starts s) (last_position s w)) as [|q qs]; [split; [cbn; auto|auto]|].
  destruct (time_lines al (sp_th s) (sp_multi s)) as [tl|x], (time_lines al (sp_th s') (sp_multi s)) as [tl'|x']; try contradiction; [|cbn in TL; subst; split; auto].
  destruct (write_line al (sp_th s)) as [wl|x], (write_line al (sp_th s')) as [wl'|x']; try contradiction; [|cbn in WL; subst; split; auto].
  apply (loop_moved e s s' tl tl' wl wl' T TL WL (q :: qs) None); auto.
Qed.
(** ** Names and values *)
Lemma entry_truthy v v' : placed_entry al u v v' -> truthy v' = truthy v.
Proof.
  intros [t t' N| |l l' F]; auto.
  - pose proof (name_head _ _ Vert N) as H. destruct t, t'; try contradiction. reflexivity.
  - cbn [truthy]. assert (L : List.length l' = List.length l) by (clear - F; induction F; cbn; congruence). rewrite L. reflexivity.
Qed.
Lemma gname_moved e w w' s s' : moved_sp s s' -> moved w w' -> get_name e w' s' = get_name e w s.
Proof.
  intros T W. unfold get_name. rewrite (ms_name _ _ T), (ms_ctx _ _ T). destruct (truthy (sp_name s)); auto. rewrite (coord_moved w w' _ _ W (ms_hc _ _ T)).
  destruct (read_coord w (sp_hc s)) as [v|]; cbn [bind]; auto. destruct (py_str e v) as [t|]; cbn [bind]; auto. cbv zeta.
  rewrite (entry_truthy _ _ (ms_comp _ _ T)). destruct (truthy (sp_comp s)); [|auto]. destruct (ms_comp _ _ T) as [a b N| |l l' F]; auto.
  assert (G : mapM (fun c => do ct <- as_text c; do cv <- read_coord w' ct; do s <- as_text cv; Ok (strip s)) l' =
    mapM (fun c => do ct <- as_text c; do cv <- read_coord w ct; do s <- as_text cv; Ok (strip s)) l).
  { induction F as [|x x' l l' X F IH]; cbn [mapM]; auto. rewrite IH. destruct X as [a b N| |]; cbn [as_text bind]; auto. rewrite (coord_moved w w' _ _ W N). auto. }
  rewrite G. auto.
Qed.
Lemma time_line_moved m th th' : moved_th th th' -> both lined (time_line al m th) (time_line al m th').
Proof.
  intros [t t' N|ts ts' F]; destruct m; cbn [time_line]; try reflexivity.
  - pose proof (name_head _ _ al N) as H. destruct t, t'; try contradiction. destruct H as [-> ->]. reflexivity.
  - destruct (line_moved _ _ N) as (k & k' & -> & -> & O). exact O.
  - destruct F as [|t t' ts ts' N F]; [reflexivity|]. destruct (line_moved _ _ N) as (k & k' & -> & -> & O). exact O.
Qed.
Lemma added_moved w w' s s' q nv : moved_sp s s' -> moved w w' -> to_be_added w' s' q nv = to_be_added w s q nv.
Proof.
  intros T W. unfold to_be_added. rewrite (ms_cont _ _ T), (ms_ta _ _ T), (ms_multi _ _ T), (ms_al _ _ T), (ms_here _ _ T). destruct (sp_cont s); auto.
  pose proof (time_line_moved (sp_multi s) _ _ (ms_th _ _ T)) as TL.
  destruct (time_line al (sp_multi s) (sp_th s)) as [l|x], (time_line al (sp_multi s) (sp_th s')) as [l'|x']; try contradiction; cbn [bind]; [|cbn in TL; congruence].
  rewrite (read_moved w w' l l'); auto.
Qed.
Lemma collect_moved w w' s s' l l' : moved_sp s s' -> moved w w' -> lined l l' -> forall qs, collect w' s' l' qs = collect w s l qs.
Proof.
  intros T W O. induction qs as [|q qs IH]; cbn [collect]; auto.
  rewrite (ms_al _ _ T), (ms_here _ _ T), (ms_cont _ _ T), (ms_missings _ _ T), (ms_blank _ _ T), (ms_mv _ _ T).
  rewrite (read_moved w w' l l') by auto. rewrite IH. destruct (axis_read al w l q); cbn [bind]; auto.
  match goal with |- bind ?r _ = bind ?r _ => destruct r as [nv|]; cbn [bind]; auto end. rewrite (added_moved w w' s s') by auto. reflexivity.
Qed.
Lemma values_moved e w w' s s' : moved_sp s s' -> moved w w' -> get_values e w' s' = get_values e w s.
Proof.
  intros T W. unfold get_values. rewrite (ms_al _ _ T), (ms_here _ _ T), (ms_ends _ _ T), (ms_starts _ _ T), (ms_freq _ _ T), (ms_missings _ _ T), (ms_mv _ _ T).
  destruct (sp_ends s) as [en|]; auto. destruct (line_moved _ _ (ms_hc _ _ T)) as (l & l' & -> & -> & O). cbn [bind]. cbv zeta.
  rewrite (collect_moved w w' s s' l l') by auto. destruct (collect w s l _) as [vs|]; cbn [bind]; auto.
  match goal with |- bind ?r _ = bind ?r _ => destruct r as [g|]; cbn [bind]; auto end.
  match goal with |- bind ?r _ = bind ?r _ => destruct r as [i|]; cbn [bind]; auto end.
  destruct (i && _); auto. destruct g; auto.
  pose proof (write_line_moved _ _ (ms_th _ _ T)) as WL.
  destruct (write_line al (sp_th s)) as [wl|x], (write_line al (sp_th s')) as [wl'|x']; try contradiction; cbn [bind]; [|cbn in WL; congruence].
  rewrite (mapM_ext (axis_read al w' wl') (axis_read al w wl)); auto. intros q _. apply read_moved; auto.
Qed.
Lemma data_moved e w w' s s' : moved_sp s s' -> moved w w' -> get_data e w' s' = get_data e w s.
Proof. intros T W. unfold get_data. rewrite (gname_moved e w w' s s'), (values_moved e w w' s s') by auto. auto. Qed.
Lemma touch_data_moved w w' s s' : moved_sp s s' -> moved w w' -> moved (touch_data w s) (touch_data w' s').
Proof.
  intros T W. unfold touch_data. rewrite (ms_al _ _ T), (ms_here _ _ T), (ms_ends _ _ T), (ms_cont _ _ T), (ms_multi _ _ T), (ms_ta _ _ T).
  destruct (sp_ends s) as [en|]; auto. destruct (line_moved _ _ (ms_hc _ _ T)) as (l & l' & -> & -> & O). cbv zeta.
  destruct (sp_cont s); [apply axis_touch_moved; auto|].
  pose proof (time_line_moved (sp_multi s) _ _ (ms_th _ _ T)) as TL.
  destruct (time_line al (sp_multi s) (sp_th s)) as [k|x], (time_line al (sp_multi s) (sp_th s')) as [k'|x']; try contradiction; [|apply axis_touch_moved; auto].
  apply axis_touch_moved, axis_touch_moved. auto.
Qed.

(** ** Ranges *)
Lemma cells_moved w w' l l' a b : moved w w' -> u l l' -> slice_cells al w' l' a b = slice_cells al w l a b.
Proof.
  intros W O. unfold slice_cells. pose proof (fun q => val_moved w w' l l' q W O) as V. destruct W as [A B _]. specialize (B _ _ O).
  assert (M : axis_max al w' = axis_max al w) by (destruct al; exact A). rewrite M. cbv zeta. destruct (py_slice (zrange 1 (axis_max al w)) a b) as [|x xs]; auto.
  assert (L1 : (l <=? other_max al w) = true) by (destruct al; cbn in B |- *; lia). assert (L2 : (l' <=? other_max al w') = true) by (destruct al; cbn in B |- *; lia).
  rewrite L1, L2. f_equal. apply map_ext. auto.
Qed.
Lemma prs_moved e w w' f st l l' en ta : moved w w' -> lined l l' -> series_prs e w' f st l' en ta al = series_prs e w f st l en ta al.
Proof.
  intros W O. unfold series_prs. destruct (accepts_freq true f) eqn:A.
  - unfold multi_prs. cbv zeta. pose proof O as [UO _]. rewrite !(cells_moved w w' l l') by auto. reflexivity.
  - destruct (accepts_freq false f); auto. unfold single_prs. rewrite !(read_moved w w' l l') by auto. reflexivity.
Qed.
Lemma touch_prs_moved w w' f st l l' en ta : moved w w' -> moved (touch_prs w f st l en ta al) (touch_prs w' f st l' en ta al).
Proof. intros W. unfold touch_prs. destruct (accepts_freq false f); auto. apply axis_touch_moved, axis_touch_moved. auto. Qed.
Lemma single_moved m th th' : moved_th th th' -> both mname (th_single m th) (th_single m th').
Proof. intros [t t' N|l l' F]; cbn [th_single]; [exact N|]. destruct F as [|a b l l' N F]; destruct m; cbn; auto. Qed.
Lemma into_moved e w w' s s' fs : moved_sp s s' -> moved w w' ->
  snd (series_into e w' s' fs) = snd (series_into e w s fs) /\ moved (fst (series_into e w s fs)) (fst (series_into e w' s' fs)).
Proof.
  intros T W. unfold series_into.
  assert (E : find (fun k => dcombo_accepts k s') dcombos = find (fun k => dcombo_accepts k s) dcombos).
  { unfold dcombo_accepts. rewrite (ms_cont _ _ T), (ms_freq _ _ T). reflexivity. }
  rewrite E. clear E. destruct (find (fun k => dcombo_accepts k s) dcombos) as [k|]; [|auto].
  rewrite (data_moved e w w' s s') by auto. destruct (get_data e w s) as [nvs|x] eqn:G; [|auto]. destruct nvs as [|nv nvs]; [auto|]. cbv zeta.
  pose proof (touch_data_moved w w' s s' T W) as W1. rewrite (ms_multi _ _ T), (ms_al _ _ T), (ms_here _ _ T), (ms_ends _ _ T), (ms_freq _ _ T), (ms_starts _ _ T), (ms_ta _ _ T).
  pose proof (single_moved (sp_multi s) _ _ (ms_th _ _ T)) as TS.
  destruct (th_single (sp_multi s) (sp_th s)) as [t|x], (th_single (sp_multi s) (sp_th s')) as [t'|x']; try contradiction; cbn [bind]; [|cbn in TS; subst; auto].
  destruct (line_moved _ _ TS) as (l & l' & -> & -> & O). cbn [bind]. destruct (sp_ends s) as [en|] eqn:EN; [|auto].
  rewrite (prs_moved e (touch_data w s) (touch_data w' s') _ _ l l'); auto.
  destruct (series_prs _ _ _ _ _ _ _ _) as [prs|x]; cbn [bind fst snd]; auto. split; auto. apply touch_prs_moved. auto.
Qed.
End Swap.
