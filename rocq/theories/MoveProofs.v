(** Moving a table down a sheet: one series (C82). *)
From Coq Require Import ZifyBool ZifyNat.
From Verif Require Import Base BaseFacts Cal Coord CoordFacts XlMethods Params ParseTime TimeIndex GetData PeriodRange Attempts DataFrame Scrape Xlseries
  SpecCoord SpecCoordFacts SpecParams SpecMove ReachProofs ReachProofs2.
Local Open Scope Z_scope.

(** ** Two results that go together *)
Definition both {A B} (R : A -> B -> Prop) (a : res A) (b : res B) : Prop :=
  match a, b with Ok x, Ok y => R x y | Err x, Err y => x = y | _, _ => False end.
Lemma both_bind {A B C D} (R : A -> B -> Prop) (S : C -> D -> Prop) a b f g :
  both R a b -> (forall x y, R x y -> both S (f x) (g y)) -> both S (bind a f) (bind b g).
Proof. destruct a, b; cbn; intros H F; try contradiction; auto. Qed.
Lemma both_eq {A} (a : res A) : both eq a a.
Proof. destruct a; cbn; auto. Qed.
Lemma eq_both {A} (a b : res A) : both eq a b -> b = a.
Proof. destruct a, b; cbn; intros H; try contradiction; congruence. Qed.
Lemma both_mapM {A B C D} (P : A -> B -> Prop) (R : C -> D -> Prop) f g l l' : Forall2 P l l' -> (forall x y, P x y -> both R (f x) (g y)) -> both (Forall2 R) (mapM f l) (mapM g l').
Proof.
  induction 1 as [|x y l l' X F IH]; intros H; cbn [mapM]; [constructor|]. apply (both_bind R); [auto|]. intros a b AB. apply (both_bind (Forall2 R)); [auto|]. intros u v UV. constructor; auto.
Qed.

Section Move.
Variable d : Z.
Hypothesis D0 : 0 <= d.
Notation moved := (moved_down d).
Notation mname := (moved_name d).
(** how far lines and positions go *)
Definition dl (al : align) : Z := match al with Vert => 0 | Horiz => d end.
Definition dp (al : align) : Z := match al with Vert => d | Horiz => 0 end.
(** lines and positions that are on the sheet *)
Definition onrow (al : align) (l q : Z) : Prop := 1 <= axis_row al l q.

Lemma touch_moved w w' r c : moved w w' -> moved (touch r c w) (touch (r + d) c w').
Proof. intros (A & B & C & E). unfold touch. split; [cbn; lia|]. split; [cbn; lia|]. split; [cbn; rewrite C; auto|]. cbn. auto. Qed.
Lemma write_moved w w' r c v : moved w w' -> moved (write r c v w) (write (r + d) c v w').
Proof.
  intros (A & B & C & E). unfold write. split; [cbn; lia|]. split; [cbn; lia|]. split; [cbn; rewrite C; auto|]. cbn. intros a b H. rewrite E by auto.
  replace (a + d =? r + d) with (a =? r) by lia. reflexivity.
Qed.
Lemma copy_moved w w' : moved w w' -> moved (make_ws_copy w) (make_ws_copy w').
Proof.
  intros (A & B & C & E). unfold make_ws_copy. split; [cbn; lia|]. split; [cbn; lia|]. split; [cbn; auto|]. cbn. intros r c H. rewrite E, B, C by auto.
  replace (1 <=? r + d) with (1 <=? r) by lia. replace (r + d <=? max_row w + d) with (r <=? max_row w) by lia. reflexivity.
Qed.
Lemma rowcol al l q : axis_row al (l + dl al) (q + dp al) = axis_row al l q + d /\ axis_col al (l + dl al) (q + dp al) = axis_col al l q.
Proof. destruct al; cbn; lia. Qed.
Lemma axis_touch_moved al w w' l q : moved w w' -> moved (axis_touch al l q w) (axis_touch al (l + dl al) (q + dp al) w').
Proof. intros W. unfold axis_touch. destruct (rowcol al l q) as [-> ->]. apply touch_moved. auto. Qed.
Lemma axis_write_moved al w w' l q v : moved w w' -> moved (axis_write al l q v w) (axis_write al (l + dl al) (q + dp al) v w').
Proof. intros W. unfold axis_write. destruct (rowcol al l q) as [-> ->]. apply write_moved. auto. Qed.
Lemma val_moved al w w' l q : moved w w' -> onrow al l q -> axis_val al w' (l + dl al) (q + dp al) = axis_val al w l q.
Proof. intros (_ & _ & _ & E) H. unfold axis_val. destruct (rowcol al l q) as [-> ->]. apply E. exact H. Qed.
Lemma rd_moved w w' r c : moved w w' -> 1 <= r -> read w' (r + d) c = read w r c.
Proof. intros (_ & _ & _ & E) H. unfold read, cell_ok. rewrite E by auto. replace (1 <=? r + d) with (1 <=? r) by lia. reflexivity. Qed.
Lemma read_moved al w w' l q : moved w w' -> onrow al l q -> axis_read al w' (l + dl al) (q + dp al) = axis_read al w l q.
Proof. intros W H. unfold axis_read. destruct (rowcol al l q) as [-> ->]. apply rd_moved; auto. Qed.

(** ** Names *)
Lemma moved_at t t' : mname t t' -> exists r c, parse_coord t = Ok (r, c) /\ parse_coord t' = Ok (r + d, c) /\ 1 <= r.
Proof. intros (r & c & A & _ & B & _). apply cell_named_iff in A, B. exists r, c. split; auto. split; auto. apply (parse_range _ _ _ A). Qed.
Lemma coord_moved w w' t t' : moved w w' -> mname t t' -> read_coord w' t' = read_coord w t.
Proof. intros W N. destruct (moved_at _ _ N) as (r & c & A & B & R). unfold read_coord. rewrite A, B. cbn [bind fst snd]. apply rd_moved; auto. Qed.
Definition online (al : align) (l : Z) : Prop := al = Horiz -> 1 <= l.
Lemma line_moved al t t' : mname t t' -> exists l, coord_line al t = Ok l /\ coord_line al t' = Ok (l + dl al) /\ online al l.
Proof.
  intros N. destruct (moved_at _ _ N) as (r & c & A & B & R). unfold coord_line. rewrite A, B. cbn [bind fst snd].
  destruct al; cbn [dl]; eexists; (split; [reflexivity|]); (split; [f_equal; lia|]); intros H; [discriminate|exact R].
Qed.
Lemma moved_same t t' u u' : mname t t' -> mname u u' -> text_eqb t' u' = text_eqb t u.
Proof.
  intros (r & c & A & B & C & D) (r2 & c2 & A2 & B2 & C2 & D2).
  pose proof (canonical_coord _ _ _ B A) as E1. pose proof (canonical_coord _ _ _ D C) as E2. pose proof (canonical_coord _ _ _ B2 A2) as E3. pose proof (canonical_coord _ _ _ D2 C2) as E4.
  apply cell_named_iff in A, C, A2, C2. apply eq_iff_eq_true. rewrite !text_eqb_eq. split; intros E.
  - rewrite E in C. rewrite C in C2. injection C2 as X Y. assert (r = r2) by lia. congruence.
  - rewrite E in A. rewrite A in A2. injection A2 as X Y. congruence.
Qed.
Lemma name_head t t' al : mname t t' -> match t, t' with a :: _, b :: _ => coord_line al [a] = Err EAttr /\ coord_line al [b] = Err EAttr | _, _ => False end.
Proof.
  intros N. destruct (moved_at _ _ N) as (r & c & A & B & _).
  assert (G : forall u x, parse_coord u = Ok x -> match u with a :: _ => coord_line al [a] = Err EAttr | _ => False end).
  { clear. intros u x. destruct u as [|a u]; [discriminate|]. unfold coord_line, parse_coord. cbn [take_while drop_while]. destruct (is_letter a) eqn:L; cbn; auto.
    destruct (is_digit a); cbn; auto. discriminate. }
  apply G in A, B. destruct t, t'; try contradiction. auto.
Qed.

(** ** Series *)
Inductive moved_th : theader -> theader -> Prop :=
| mt_str t t' : mname t t' -> moved_th (ThStr t) (ThStr t')
| mt_list l l' : Forall2 mname l l' -> moved_th (ThList l) (ThList l').
Definition far (al : align) (z : Z) : Z := z + dp al.
Record moved_sp (s s' : sp) : Prop := {
  ms_al : sp_al s' = sp_al s;
  ms_name : sp_name s' = sp_name s;
  ms_hc : mname (sp_hc s) (sp_hc s');
  ms_comp : moved_entry d (sp_comp s) (sp_comp s');
  ms_ctx : sp_ctx s' = sp_ctx s;
  ms_starts : sp_starts s' = sp_starts s + dp (sp_al s);
  ms_low : sp_al s = Vert -> 2 <= sp_starts s;
  ms_ends : sp_ends s' = option_map (far (sp_al s)) (sp_ends s);
  ms_cont : sp_cont s' = sp_cont s;
  ms_blank : sp_blank s' = sp_blank s;
  ms_missings : sp_missings s' = sp_missings s;
  ms_mv : sp_mv s' = sp_mv s;
  ms_ta : sp_ta s' = sp_ta s;
  ms_near : -1 <= sp_ta s <= 1;
  ms_multi : sp_multi s' = sp_multi s;
  ms_th : moved_th (sp_th s) (sp_th s');
  ms_composed : sp_composed s' = sp_composed s;
  ms_freq : sp_freq s' = sp_freq s
}.

(** ** The time index *)
Definition moved_tl (al : align) (tl tl' : tlines) : Prop :=
  match tl, tl' with
  | OneLine l, OneLine l' => l' = l + dl al /\ online al l
  | ManyLines ls, ManyLines ls' => Forall2 (fun l l' => l' = l + dl al /\ online al l) ls ls'
  | _, _ => False
  end.
Definition lined (al : align) (l l' : Z) : Prop := l' = l + dl al /\ online al l.
Lemma lines_moved al ts ts' : Forall2 mname ts ts' -> both (Forall2 (lined al)) (mapM (coord_line al) ts) (mapM (coord_line al) ts').
Proof. intros F. eapply both_mapM; [exact F|]. intros t t' N. destruct (line_moved al _ _ N) as (l & -> & -> & O). split; auto. Qed.
Lemma time_lines_moved al th th' m : moved_th th th' -> both (moved_tl al) (time_lines al th m) (time_lines al th' m).
Proof.
  intros [t t' N|l l' F]; destruct m; cbn [time_lines]; try (cbn; auto).
  - destruct (line_moved al _ _ N) as (l & -> & -> & O). cbn. auto.
  - eapply both_bind; [apply lines_moved; exact F|]. intros x y H. exact H.
Qed.
Lemma write_line_moved al th th' : moved_th th th' -> both (lined al) (write_line al th) (write_line al th').
Proof.
  intros [t t' N|l l' F]; cbn [write_line].
  - destruct (line_moved al _ _ N) as (l & -> & -> & O). split; auto.
  - destruct F as [|t t' l l' N F]; [reflexivity|]. destruct (line_moved al _ _ N) as (k & -> & -> & O). split; auto.
Qed.
Lemma on_line al l q : online al l -> (al = Vert -> 1 <= q) -> onrow al l q.
Proof. intros A B. unfold onrow. destruct al; cbn; auto. Qed.
Lemma value_moved e al w w' tl tl' q : moved w w' -> moved_tl al tl tl' -> (al = Vert -> 1 <= q) -> time_value e al w' tl' (q + dp al) = time_value e al w tl q.
Proof.
  intros W T Q. destruct tl as [l|ls], tl' as [l'|ls']; try contradiction; cbn [time_value].
  - destruct T as [-> O]. apply read_moved; auto. apply on_line; auto.
  - cbn in T. unfold many_value. match goal with |- bind (foldM ?f _ _) _ = bind (foldM ?g _ _) _ => assert (E : forall acc, foldM f ls' acc = foldM g ls acc) end; [|rewrite E; reflexivity].
    induction T as [|l l' ls ls' [-> O] F IH]; intros acc; cbn [foldM]; auto. rewrite (read_moved al w w') by (auto; apply on_line; auto).
    match goal with |- bind ?r _ = bind ?r _ => destruct r; cbn [bind]; auto end.
Qed.
Lemma touch_time_moved al tl tl' q : moved_tl al tl tl' -> forall w w', moved w w' -> moved (touch_time al tl q w) (touch_time al tl' (q + dp al) w').
Proof.
  intros T. destruct tl as [l|ls], tl' as [l'|ls']; try contradiction; cbn [touch_time]; intros w w' W.
  - destruct T as [-> _]. apply axis_touch_moved; auto.
  - cbn in T. revert w w' W. induction T as [|l l' ls ls' [-> O] F IH]; cbn [fold_left]; intros w w' W; auto. apply IH. apply axis_touch_moved. auto.
Qed.
Lemma process_moved e s s' w w' a b c x f v n : moved_sp s s' -> process_value e s' (mkcs w' a b c x f) v n = process_value e s (mkcs w a b c x f) v n.
Proof.
  intros T. unfold process_value, correct_state. rewrite (ms_composed _ _ T), (ms_freq _ _ T), (ms_missings _ _ T), (ms_mv _ _ T). reflexivity.
Qed.
Lemma walk_moved w w' l : moved w w' -> forall n q, 1 <= q - Z.of_nat n -> walk_back w' l (q + d) n = walk_back w l q n + d.
Proof.
  intros W. pose proof (fun q => val_moved Vert w w' l q W) as V. cbn [dl dp] in V. rewrite Z.add_0_r in V.
  induction n as [|n IH]; intros q H; cbn [walk_back]; rewrite V by (unfold onrow; cbn; lia); destruct (is_date (axis_val Vert w l q)); auto.
  replace (q + d - 1) with (q - 1 + d) by lia. apply IH. lia.
Qed.
Lemma walk_low w l : forall n q, q - Z.of_nat n <= walk_back w l q n.
Proof. induction n as [|n IH]; intros q; cbn [walk_back]; destruct (is_date _); try lia. specialize (IH (q - 1)). lia. Qed.
Definition ended (al : align) (z z' : Z) : Prop := z' = z + dp al.
Lemma estimate_moved al w w' l q st ta : moved w w' -> online al l -> (al = Vert -> 2 <= st) -> st <= q ->
  both (fun z z' => z' = z + dp al /\ st < z) (estimate_end al w l q st ta) (estimate_end al w' (l + dl al) (q + dp al) (st + dp al) ta).
Proof.
  intros W O L Q. unfold estimate_end. destruct al; cbn [dl dp] in *.
  - rewrite Z.add_0_r. replace (q + d - (st + d)) with (q - st) by lia. rewrite (walk_moved w w') by (auto; specialize (L eq_refl); lia).
    specialize (L eq_refl). cbn [bind]. cbv zeta. set (z := walk_back w l q (Z.to_nat (q - st))).
    replace (negb (z + d - ta =? 0) && (st + d <? z + d - ta)) with (negb (z - ta =? 0) && (st <? z - ta)) by lia.
    unfold assert_. destruct (negb (z - ta =? 0) && (st <? z - ta)) eqn:E; cbn; auto. lia.
  - rewrite !Z.add_0_r. pose proof (val_moved Horiz w w' l q W) as V. cbn [dl dp] in V. rewrite Z.add_0_r in V. rewrite V by (apply on_line; auto; discriminate).
    destruct (is_date (axis_val Horiz w l q)); cbn; auto. unfold assert_. destruct (negb (q - ta =? 0) && (st <? q - ta)) eqn:E; cbn; auto. lia.
Qed.
Section Index.
Variables (e : env) (s s' : sp) (tl tl' : tlines) (wl : Z).
Hypothesis T : moved_sp s s'.
Hypothesis TL : moved_tl (sp_al s) tl tl'.
Hypothesis WL : online (sp_al s) wl.
Notation al := (sp_al s).
Notation good := (both (fun z z' => z' = z + dp al /\ sp_starts s < z)).
Lemma loop_moved : forall positions prev w w' a b c x f, moved w w' ->
  Forall (fun q => sp_starts s <= q) positions -> (forall q, prev = Some q -> sp_starts s <= q) ->
  let r := clean_loop e s tl wl positions prev (mkcs w a b c x f) in
  let r' := clean_loop e s' tl' (wl + dl al) (map (far al) positions) (option_map (far al) prev) (mkcs w' a b c x f) in
  good (snd r) (snd r') /\ moved (fst r) (fst r').
Proof.
  assert (FIN : forall w w' q, moved w w' -> sp_starts s <= q -> good (estimate_end al w wl q (sp_starts s) (sp_ta s)) (estimate_end (sp_al s') w' (wl + dl al) (q + dp al) (sp_starts s') (sp_ta s'))).
  { intros w w' q W Q. rewrite (ms_al _ _ T), (ms_starts _ _ T), (ms_ta _ _ T). apply estimate_moved; auto. apply (ms_low _ _ T). }
  assert (LOW : forall q, sp_starts s <= q -> al = Vert -> 1 <= q) by (intros q Q V; pose proof (ms_low _ _ T V); lia).
  induction positions as [|q qs IH]; intros prev w w' a b c x f W F PV; cbn [clean_loop map].
  - destruct prev as [q|]; cbn [cs_ws fst snd option_map]; [|cbn; auto]. split; auto. apply FIN; auto.
  - cbn [cs_ws cs_parser cs_last cs_count cs_lasts cs_lf]. inversion F as [|? ? Q F']; subst. change (far al q) with (q + dp al). rewrite (ms_al _ _ T).
    replace (q + dp al + 1) with (q + 1 + dp al) by lia.
    rewrite (value_moved e al w w' tl tl' q) by auto. rewrite (value_moved e al w w' tl tl' (q + 1)) by (auto; apply LOW; lia).
    rewrite (read_moved al w w' wl q) by (auto; apply on_line; auto).
    match goal with |- context [match ?r with Ok _ => _ | Err _ => _ end] => destruct r as [[v n]|y]; [|cbn [fst snd]; split; [cbn; auto|auto]] end.
    set (w2 := axis_touch al wl q (touch_time al tl (q + 1) (touch_time al tl q w))).
    set (w2' := axis_touch al (wl + dl al) (q + dp al) (touch_time al tl' (q + 1 + dp al) (touch_time al tl' (q + dp al) w'))).
    assert (W2 : moved w2 w2') by (apply axis_touch_moved, touch_time_moved, touch_time_moved; auto).
    assert (PV' : forall k, Some q = Some k -> sp_starts s <= k) by (intros k E; injection E as <-; auto).
    rewrite (ms_ta _ _ T), (ms_cont _ _ T), (ms_blank _ _ T). change (Some (q + dp al)) with (option_map (far al) (Some q)).
    assert (FIN2 := fun w w' W => FIN w w' q W Q). rewrite (ms_al _ _ T), (ms_ta _ _ T) in FIN2.
    destruct (must_be_time (negb (sp_ta s =? 0)) v).
    + rewrite (process_moved e s s' w2 w2' a b c x f v n T). destruct (process_value e s (mkcs w2 a b c x f) v n) as [sticky [[[dd lasts] lf]|y]].
      * apply IH; auto. apply axis_write_moved. auto.
      * destruct (exn_eqb y EDay || exn_eqb y EMonth).
        -- apply IH; auto. apply axis_write_moved. auto.
        -- rewrite (ms_ends _ _ T). replace (match option_map (far al) (sp_ends s) with Some _ => false | None => true end) with (match sp_ends s with Some _ => false | None => true end) by (destruct (sp_ends s); auto).
           destruct (ends_index y && _); cbn [fst snd cs_ws]; [split; auto|split; [cbn; auto|auto]].
    + destruct ((c <? NO_TIME_VALUE_LIMIT) && (negb (sp_cont s) || sp_blank s)).
      * apply IH; auto.
      * cbn [fst snd cs_ws]. split; auto.
Qed.
End Index.
Lemma zrange_moved k a b : zrange (a + k) (b + k) = map (fun z => z + k) (zrange a b).
Proof.
  unfold zrange. replace (b + k + 1 - (a + k)) with (b + 1 - a) by lia. rewrite map_map. apply map_ext. intros i. lia.
Qed.
Lemma last_moved s s' w w' : moved_sp s s' -> moved w w' -> last_position s' w' = last_position s w + dp (sp_al s).
Proof.
  intros T (_ & B & C & _). unfold last_position. rewrite (ms_ends _ _ T), (ms_al _ _ T). destruct (sp_ends s); cbn [option_map]; auto. destruct (sp_al s); cbn; lia.
Qed.
Lemma index_moved e s s' w w' : moved_sp s s' -> moved w w' ->
  let r := clean_time_index e w s in let r' := clean_time_index e w' s' in
  both (fun z z' => z' = z + dp (sp_al s) /\ sp_starts s < z) (snd r) (snd r') /\ moved (fst r) (fst r').
Proof.
  intros T W. cbv zeta. unfold clean_time_index.
  assert (E : find (fun k => combo_accepts k s') combos = find (fun k => combo_accepts k s) combos).
  { unfold combo_accepts, accepts_table, accepts_col, accepts_offset.
    rewrite (ms_blank _ _ T), (ms_cont _ _ T), (ms_ends _ _ T), (ms_multi _ _ T), (ms_ta _ _ T), (ms_freq _ _ T). destruct (sp_ends s); reflexivity. }
  rewrite E. clear E. destruct (find (fun k => combo_accepts k s) combos) as [k|]; [|split; [cbn; auto|auto]]. destruct (k_multitable k); [split; [cbn; auto|auto]|].
  unfold clean_single_table. rewrite (last_moved _ _ _ _ T W), (ms_starts _ _ T), zrange_moved, (ms_al _ _ T), (ms_multi _ _ T).
  assert (F : Forall (fun q => sp_starts s <= q) (zrange (sp_starts s) (last_position s w))) by (apply Forall_forall; intros q H; apply zrange_in in H; lia).
  pose proof (time_lines_moved (sp_al s) _ _ (sp_multi s) (ms_th _ _ T)) as TL. pose proof (write_line_moved (sp_al s) _ _ (ms_th _ _ T)) as WL.
  destruct (zrange (sp_starts s) (last_position s w)) as [|q qs]; [split; [cbn; auto|auto]|]. cbn [map].
  destruct (time_lines (sp_al s) (sp_th s) (sp_multi s)) as [tl|x], (time_lines (sp_al s) (sp_th s') (sp_multi s)) as [tl'|x']; try contradiction; [|split; [exact TL|auto]].
  destruct (write_line (sp_al s) (sp_th s)) as [wl|x], (write_line (sp_al s) (sp_th s')) as [wl'|x']; try contradiction; [|split; [exact WL|auto]].
  destruct WL as [-> WL]. apply (loop_moved e s s' tl tl' wl T TL WL (q :: qs) None); auto. discriminate.
Qed.

(** ** Names and values *)
Lemma entry_truthy v v' : moved_entry d v v' -> truthy v' = truthy v.
Proof.
  intros [t t' N| |l l' F]; auto.
  - pose proof (name_head _ _ Vert N) as H. destruct t, t'; try contradiction. reflexivity.
  - cbn [truthy]. assert (L : List.length l' = List.length l) by (clear - F; induction F; cbn; congruence). rewrite L. reflexivity.
Qed.
Lemma gname_moved e w w' s s' : moved_sp s s' -> moved w w' -> get_name e w' s' = get_name e w s.
Proof.
  intros T W. unfold get_name. rewrite (ms_name _ _ T), (ms_ctx _ _ T). destruct (truthy (sp_name s)); auto. rewrite (coord_moved w w' _ _ W (ms_hc _ _ T)).
  destruct (read_coord w (sp_hc s)) as [v|]; cbn [bind]; auto. destruct (py_str e v) as [t|]; cbn [bind]; auto. cbv zeta.
  rewrite (entry_truthy _ _ (ms_comp _ _ T)). destruct (truthy (sp_comp s)); [|auto]. destruct (ms_comp _ _ T) as [a b N| |l l' F]; auto.
  assert (G : mapM (fun c => do ct <- as_text c; do cv <- read_coord w' ct; do s <- as_text cv; Ok (strip s)) l' =
    mapM (fun c => do ct <- as_text c; do cv <- read_coord w ct; do s <- as_text cv; Ok (strip s)) l).
  { induction F as [|x x' l l' X F IH]; cbn [mapM]; auto. rewrite IH. destruct X as [a b N| |]; cbn [as_text bind]; auto. rewrite (coord_moved w w' _ _ W N). auto. }
  rewrite G. auto.
Qed.
Lemma time_line_moved al m th th' : moved_th th th' -> both (lined al) (time_line al m th) (time_line al m th').
Proof.
  intros [t t' N|ts ts' F]; destruct m; cbn [time_line]; try reflexivity.
  - pose proof (name_head _ _ al N) as H. destruct t, t'; try contradiction. destruct H as [-> ->]. reflexivity.
  - destruct (line_moved al _ _ N) as (k & -> & -> & O). split; auto.
  - destruct F as [|t t' ts ts' N F]; [reflexivity|]. destruct (line_moved al _ _ N) as (k & -> & -> & O). split; auto.
Qed.
Lemma added_moved w w' s s' q nv : moved_sp s s' -> moved w w' -> sp_starts s <= q -> to_be_added w' s' (q + dp (sp_al s)) nv = to_be_added w s q nv.
Proof.
  intros T W Q. unfold to_be_added. rewrite (ms_cont _ _ T), (ms_ta _ _ T), (ms_multi _ _ T), (ms_al _ _ T). destruct (sp_cont s); auto.
  pose proof (time_line_moved (sp_al s) (sp_multi s) _ _ (ms_th _ _ T)) as TL.
  destruct (time_line (sp_al s) (sp_multi s) (sp_th s)) as [l|x], (time_line (sp_al s) (sp_multi s) (sp_th s')) as [l'|x']; try contradiction; cbn [bind]; [|cbn in TL; congruence].
  destruct TL as [-> O]. replace (q + dp (sp_al s) + sp_ta s) with (q + sp_ta s + dp (sp_al s)) by lia. rewrite (read_moved _ w w'); auto.
  apply on_line; auto. intros V. pose proof (ms_low _ _ T V). pose proof (ms_near _ _ T). lia.
Qed.
Lemma collect_moved w w' s s' l : moved_sp s s' -> moved w w' -> online (sp_al s) l -> forall qs, Forall (fun q => sp_starts s <= q) qs ->
  collect w' s' (l + dl (sp_al s)) (map (fun z => z + dp (sp_al s)) qs) = collect w s l qs.
Proof.
  intros T W O. induction qs as [|q qs IH]; intros F; cbn [collect map]; auto. inversion F as [|? ? Q F']; subst.
  rewrite (ms_al _ _ T), (ms_cont _ _ T), (ms_missings _ _ T), (ms_blank _ _ T), (ms_mv _ _ T).
  rewrite (read_moved _ w w') by (auto; apply on_line; auto; intros V; pose proof (ms_low _ _ T V); lia).
  rewrite (IH F'). destruct (axis_read (sp_al s) w l q); cbn [bind]; auto.
  match goal with |- bind ?r _ = bind ?r _ => destruct r as [nv|]; cbn [bind]; auto end. rewrite (added_moved w w' s s') by auto. reflexivity.
Qed.
Lemma values_moved e w w' s s' : moved_sp s s' -> moved w w' -> get_values e w' s' = get_values e w s.
Proof.
  intros T W. unfold get_values. rewrite (ms_al _ _ T), (ms_ends _ _ T), (ms_starts _ _ T), (ms_freq _ _ T), (ms_missings _ _ T), (ms_mv _ _ T).
  destruct (sp_ends s) as [en|]; cbn [option_map]; auto. destruct (line_moved (sp_al s) _ _ (ms_hc _ _ T)) as (l & -> & -> & O). cbn [bind]. cbv zeta. unfold far. rewrite zrange_moved.
  assert (F : Forall (fun q => sp_starts s <= q) (zrange (sp_starts s) en)) by (apply Forall_forall; intros q H; apply zrange_in in H; lia).
  rewrite (collect_moved w w' s s' l) by auto. destruct (collect w s l _) as [vs|]; cbn [bind]; auto.
  match goal with |- bind ?r _ = bind ?r _ => destruct r as [g|]; cbn [bind]; auto end.
  match goal with |- bind ?r _ = bind ?r _ => destruct r as [i|]; cbn [bind]; auto end.
  destruct (i && _); auto. destruct g; auto.
  pose proof (write_line_moved (sp_al s) _ _ (ms_th _ _ T)) as WL.
  destruct (write_line (sp_al s) (sp_th s)) as [wl|x], (write_line (sp_al s) (sp_th s')) as [wl'|x']; try contradiction; cbn [bind]; [|cbn in WL; congruence].
  destruct WL as [-> OW].
  assert (M : mapM (axis_read (sp_al s) w' (wl + dl (sp_al s))) (map (fun z => z + dp (sp_al s)) (zrange (sp_starts s) en)) = mapM (axis_read (sp_al s) w wl) (zrange (sp_starts s) en)).
  { induction F as [|q qs Q F IH]; cbn [mapM map]; auto. rewrite IH. rewrite (read_moved _ w w'); auto. apply on_line; auto. intros V. pose proof (ms_low _ _ T V). lia. }
  rewrite M. auto.
Qed.
Lemma data_moved e w w' s s' : moved_sp s s' -> moved w w' -> get_data e w' s' = get_data e w s.
Proof. intros T W. unfold get_data. rewrite (gname_moved e w w' s s'), (values_moved e w w' s s') by auto. auto. Qed.
Lemma touch_data_moved w w' s s' : moved_sp s s' -> moved w w' -> moved (touch_data w s) (touch_data w' s').
Proof.
  intros T W. unfold touch_data. rewrite (ms_al _ _ T), (ms_ends _ _ T), (ms_cont _ _ T), (ms_multi _ _ T), (ms_ta _ _ T).
  destruct (sp_ends s) as [en|]; cbn [option_map]; auto. destruct (line_moved (sp_al s) _ _ (ms_hc _ _ T)) as (l & -> & -> & O). cbv zeta. unfold far.
  destruct (sp_cont s); [apply axis_touch_moved; auto|].
  pose proof (time_line_moved (sp_al s) (sp_multi s) _ _ (ms_th _ _ T)) as TL.
  destruct (time_line (sp_al s) (sp_multi s) (sp_th s)) as [k|x], (time_line (sp_al s) (sp_multi s) (sp_th s')) as [k'|x']; try contradiction; [|apply axis_touch_moved; auto].
  destruct TL as [-> _]. replace (en + dp (sp_al s) + sp_ta s) with (en + sp_ta s + dp (sp_al s)) by lia. apply axis_touch_moved, axis_touch_moved. auto.
Qed.

(** ** Ranges *)
Lemma slice_moved m a b : 0 <= m -> 0 <= a -> 0 <= b -> py_slice (zrange 1 (m + d)) (a + d) (b + d) = map (fun z => z + d) (py_slice (zrange 1 m) a b).
Proof.
  intros M A B. rewrite (zrange_app 1 d (m + d)) by lia. replace (d + 1) with (1 + d) by lia. rewrite zrange_moved.
  unfold py_slice. cbv zeta. rewrite app_length, map_length, !zrange_length. unfold slice_bound.
  replace (a + d <? 0) with false by lia. replace (b + d <? 0) with false by lia. replace (a <? 0) with false by lia. replace (b <? 0) with false by lia.
  set (n := Z.of_nat (Z.to_nat (m + 1 - 1))). set (n' := Z.of_nat (Z.to_nat (d + 1 - 1) + Z.to_nat (m + 1 - 1))).
  replace (Z.min (b + d) n' - Z.min (a + d) n') with (Z.min b n - Z.min a n) by lia.
  replace (Z.to_nat (Z.min (a + d) n')) with (Z.to_nat (d + 1 - 1) + Z.to_nat (Z.min a n))%nat by lia.
  rewrite skipn_app, zrange_length. rewrite (skipn_all2 (zrange 1 d)) by (rewrite zrange_length; lia). cbn [app].
  replace (Z.to_nat (d + 1 - 1) + Z.to_nat (Z.min a n) - Z.to_nat (d + 1 - 1))%nat with (Z.to_nat (Z.min a n)) by lia.
  rewrite skipn_map, firstn_map. reflexivity.
Qed.
Lemma slice_in {A} (l : list A) a b x : In x (py_slice l a b) -> In x l.
Proof.
  unfold py_slice. cbv zeta. intros H. apply (in_or_app (firstn (Z.to_nat (slice_bound (Z.of_nat (List.length l)) a)) l) (skipn (Z.to_nat (slice_bound (Z.of_nat (List.length l)) a)) l)) || idtac.
  set (k := Z.to_nat _) in H at 2. rewrite <- (firstn_skipn k l). apply in_or_app. right.
  rewrite <- (firstn_skipn (Z.to_nat (slice_bound (Z.of_nat (List.length l)) b - slice_bound (Z.of_nat (List.length l)) a)) (skipn k l)). apply in_or_app. left. exact H.
Qed.
Lemma cells_moved al w w' l a b : moved w w' -> online al l -> (al = Vert -> 0 <= a /\ 0 <= b) -> slice_cells al w' (l + dl al) (a + dp al) (b + dp al) = slice_cells al w l a b.
Proof.
  intros W O L. unfold slice_cells. pose proof (fun q => val_moved al w w' l q W) as V. destruct W as (W0 & W1 & W2 & _). destruct al; cbn [dl dp axis_max other_max] in *.
  - rewrite W1, W2, slice_moved by tauto. pose proof (slice_in (zrange 1 (max_row w)) a b) as IN. destruct (py_slice (zrange 1 (max_row w)) a b) as [|x xs]; auto. cbn [map]. rewrite Z.add_0_r in *.
    destruct (l <=? max_col w); auto. f_equal. change (map (axis_val Vert w' l) (map (fun z => z + d) (x :: xs)) = map (axis_val Vert w l) (x :: xs)). rewrite map_map. apply map_ext_in. intros q Q. apply V. apply IN in Q. apply zrange_in in Q. unfold onrow. cbn. lia.
  - rewrite W1, W2, !Z.add_0_r. destruct (py_slice (zrange 1 (max_col w)) a b) as [|x xs]; auto. replace (l + d <=? max_row w + d) with (l <=? max_row w) by lia.
    destruct (l <=? max_row w); auto. f_equal. apply map_ext. intros q. specialize (V q). rewrite Z.add_0_r in V. apply V. apply on_line; auto. discriminate.
Qed.
Lemma prs_moved e w w' f st l en ta al : moved w w' -> online al l -> (al = Vert -> 2 <= st) -> -1 <= ta -> st <= en ->
  series_prs e w' f (st + dp al) (l + dl al) (en + dp al) ta al = series_prs e w f st l en ta al.
Proof.
  intros W O L TA LE. unfold series_prs. destruct (accepts_freq true f) eqn:A.
  - unfold multi_prs. cbv zeta. set (n := Z.of_nat (List.length f)). assert (N : 1 < n) by (unfold accepts_freq in A; lia).
    replace (en + dp al - (st + dp al) + 1) with (en - st + 1) by lia. set (m := (en - st + 1) mod n). set (fe := if m =? 0 then n else m).
    assert (FE : 1 <= fe /\ fe <= en - st + 1).
    { pose proof (Z.mod_pos_bound (en - st + 1) n). pose proof (Z.div_mod (en - st + 1) n). unfold fe. destruct (m =? 0) eqn:Z0; fold m in H, H0.
      - assert (0 < (en - st + 1) / n) by nia. nia.
      - assert (0 <= (en - st + 1) / n) by (apply Z.div_pos; lia). nia. }
    replace (st + dp al - 1) with (st - 1 + dp al) by lia. replace (st + dp al + n - 1) with (st + n - 1 + dp al) by lia.
    rewrite (cells_moved al w w') by (auto; intros V; specialize (L V); lia). destruct (slice_cells al w l (st - 1) _); cbn [bind]; auto.
    match goal with |- bind ?a _ = bind ?b _ => assert (E : a = b) end.
    { replace (en + dp al - fe) with (en - fe + dp al) by lia. replace (en + dp al - n) with (en - n + dp al) by lia.
      destruct al; rewrite (cells_moved _ w w'); auto; [intros V; specialize (L V); lia|discriminate]. }
    rewrite E. reflexivity.
  - destruct (accepts_freq false f); auto. unfold single_prs. replace (st + dp al + ta) with (st + ta + dp al) by lia. replace (en + dp al + ta) with (en + ta + dp al) by lia.
    rewrite !(read_moved al w w'); auto; apply on_line; auto; intros V; specialize (L V); lia.
Qed.
Lemma touch_prs_moved w w' f st l en ta al : moved w w' -> moved (touch_prs w f st l en ta al) (touch_prs w' f (st + dp al) (l + dl al) (en + dp al) ta al).
Proof.
  intros W. unfold touch_prs. destruct (accepts_freq false f); auto. replace (st + dp al + ta) with (st + ta + dp al) by lia. replace (en + dp al + ta) with (en + ta + dp al) by lia.
  apply axis_touch_moved, axis_touch_moved. auto.
Qed.
Lemma single_moved m th th' : moved_th th th' -> both mname (th_single m th) (th_single m th').
Proof. intros [t t' N|l l' F]; cbn [th_single]; [exact N|]. destruct F as [|a b l l' N F]; destruct m; cbn; auto. Qed.
Lemma into_moved e w w' s s' fs : moved_sp s s' -> moved w w' ->
  snd (series_into e w' s' fs) = snd (series_into e w s fs) /\ moved (fst (series_into e w s fs)) (fst (series_into e w' s' fs)).
Proof.
  intros T W. unfold series_into.
  assert (E : find (fun k => dcombo_accepts k s') dcombos = find (fun k => dcombo_accepts k s) dcombos).
  { unfold dcombo_accepts. rewrite (ms_cont _ _ T), (ms_freq _ _ T). reflexivity. }
  rewrite E. clear E. destruct (find (fun k => dcombo_accepts k s) dcombos) as [k|]; [|auto].
  rewrite (data_moved e w w' s s') by auto. destruct (get_data e w s) as [nvs|x] eqn:G; [|auto]. destruct nvs as [|nv nvs]; [auto|]. cbv zeta.
  pose proof (touch_data_moved w w' s s' T W) as W1. rewrite (ms_multi _ _ T), (ms_al _ _ T), (ms_ends _ _ T), (ms_freq _ _ T), (ms_starts _ _ T), (ms_ta _ _ T).
  pose proof (single_moved (sp_multi s) _ _ (ms_th _ _ T)) as TS.
  destruct (th_single (sp_multi s) (sp_th s)) as [t|x], (th_single (sp_multi s) (sp_th s')) as [t'|x']; try contradiction; cbn [bind]; [|cbn in TS; subst; auto].
  destruct (line_moved (sp_al s) _ _ TS) as (l & -> & -> & O). cbn [bind]. destruct (sp_ends s) as [en|] eqn:EN; cbn [option_map]; [|auto]. unfold far.
  assert (LE : sp_starts s <= en) by (apply (data_some (fun _ _ => True) e w s (nv :: nvs) en G); [discriminate|exact EN]).
  rewrite (prs_moved e (touch_data w s) (touch_data w' s')); auto; [|apply (ms_low _ _ T)|pose proof (ms_near _ _ T); lia].
  destruct (series_prs _ _ _ _ _ _ _ _) as [prs|x]; cbn [bind fst snd]; auto. split; auto. apply touch_prs_moved. auto.
Qed.
End Move.
