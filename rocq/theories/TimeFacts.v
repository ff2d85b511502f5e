(** Facts about the loop that cleans a time index. *)
From Coq Require Import Sorted.
From Verif Require Import Base BaseFacts Cal Coord Params ParseTime TimeIndex SpecCal CalFacts.
Local Open Scope Z_scope.

(** ** cells along the axis *)
Lemma axis_val_touch al w l q l' q' : axis_val al (axis_touch al l q w) l' q' = axis_val al w l' q'.
Proof. reflexivity. Qed.
Lemma cell_touch r c w : cell (touch r c w) = cell w.
Proof. reflexivity. Qed.
Lemma axis_val_write al w l q v q' : axis_val al (axis_write al l q v w) l q' = if q' =? q then v else axis_val al w l q'.
Proof.
  unfold axis_val, axis_write, write, axis_row, axis_col. destruct al; cbn [cell]; rewrite ?Z.eqb_refl, ?andb_true_r; auto.
Qed.
Lemma cell_axis_write al l q v w r c : (r, c) <> (axis_row al l q, axis_col al l q) -> cell (axis_write al l q v w) r c = cell w r c.
Proof.
  intros H. unfold axis_write, write. cbn [cell]. destruct ((r =? _) && (c =? _)) eqn:E; auto.
  exfalso. apply H. f_equal; lia.
Qed.
Lemma cell_touch_time al tl q w r c : cell (touch_time al tl q w) r c = cell w r c.
Proof.
  destruct tl; cbn [touch_time]; auto. revert w. induction ls as [|l ls IH]; intros w; cbn [fold_left]; auto. rewrite IH. reflexivity.
Qed.
Lemma axis_read_ok al w l q v : axis_read al w l q = Ok v -> v = axis_val al w l q.
Proof. unfold axis_read, read, axis_val. destruct (cell_ok _ _); [congruence|discriminate]. Qed.

(** ** realness of dates *)
Definition real_sheet (w : worksheet) : Prop := forall r c d, cell w r c = VDate d -> real_date d.
Lemma make_date_real y m d t : make_date y m d = Ok t -> real_date t.
Proof.
  unfold make_date. destruct (valid_ymd y m d) eqn:V; [|discriminate]. intros H. inversion H; subst.
  apply valid_real. unfold valid_dt. cbn [dt_y dt_m dt_d dt_s]. rewrite V. reflexivity.
Qed.
Lemma pick_real sense l t : (forall d, In (Ok d) l -> real_date d) -> pick sense l = Ok t -> real_date t.
Proof.
  intros A. induction l as [|[d|x] l IH]; cbn [pick]; intros H; try discriminate.
  - apply bind_ok in H as [b [_ H]]. destruct b; [inversion H; subst; apply A; left; auto|apply IH; auto; intros; apply A; right; auto].
  - apply IH; auto. intros; apply A; right; auto.
Qed.
Lemma arrow_get_real e k a b c t : arrow_get e k a b c = Ok t -> real_date t.
Proof. unfold arrow_get. intros H. repeat (apply bind_ok in H as [? [_ H]]). eapply make_date_real; eauto. Qed.
Lemma simple_real e sense t d : simple_parse_text e sense t = Ok d -> real_date d.
Proof.
  unfold simple_parse_text, simple_candidates. intros H. apply bind_ok in H as [l [E H]].
  destruct (split_ch _ _) as [|a [|b [|c [|]]]]; try discriminate. inversion E; subst. eapply pick_real; [|exact H].
  intros x [I|[I|[I|[]]]]; eapply arrow_get_real; eauto.
Qed.
Lemma peg_real e s t l d : peg_parse e s t l = Ok d -> real_date d.
Proof.
  unfold peg_parse. intros H. apply bind_ok in H as [r [_ H]]. destruct (fill_holes s r l) as [y m]. destruct (_ && _); [|discriminate].
  eapply make_date_real; eauto.
Qed.
Lemma parse_value_real e pt v d : (forall t x, pt t = Ok x -> real_date x) -> (forall x, v = VDate x -> real_date x) ->
  parse_value e pt v = Ok d -> real_date d.
Proof.
  intros A B H. destruct v; cbn [parse_value] in H; try discriminate; eauto.
  - apply bind_ok in H as [t [_ H]]. eauto.
  - apply bind_ok in H as [t [_ H]]. eauto.
  - destruct (do z <- trunc_float f; pt (Z_text z)) eqn:E; [|eauto]. inversion H; subst. apply bind_ok in E as [z [_ E]]. eauto.
  - inversion H; subst. apply B. auto.
Qed.
Lemma parse_time_real e tp s v l n d : (forall x, v = VDate x -> real_date x) -> parse_time e tp s v l n = Ok d -> real_date d.
Proof.
  intros B H. unfold parse_time in H. destruct s; (eapply parse_value_real in H; [exact H| |exact B]); intros ? ? Q; first [eapply simple_real; exact Q|eapply peg_real; exact Q].
Qed.
Lemma pool_loop_real e tp pool st v l n k d : (forall x, v = VDate x -> real_date x) ->
  pool_loop e tp pool st v l n = (k, Ok d) -> real_date d.
Proof.
  intros B. induction pool as [|s pool IH]; cbn [pool_loop]; [discriminate|].
  destruct (accepts e tp s v) as [[]|]; try discriminate; auto. intros H. inversion H. eapply parse_time_real; eauto.
Qed.
Lemma pool_real e tp st v l n k d : (forall x, v = VDate x -> real_date x) ->
  parse_with_pool e tp st v l n = (k, Ok d) -> real_date d.
Proof.
  intros B. unfold parse_with_pool. destruct st as [s|]; [|apply pool_loop_real; auto].
  destruct (parse_time e tp s v l n) as [d'|x] eqn:E.
  - intros H. inversion H; subst. eapply parse_time_real; eauto.
  - destruct x; try discriminate; apply pool_loop_real; auto.
Qed.
(** a date cell reads as itself *)
Lemma pool_loop_date e tp pool st d l n k r : pool_loop e tp pool st (VDate d) l n = (k, r) ->
  r = Ok d \/ r = Err ENotComposed \/ (pool = [] /\ r = Err EParseImpl).
Proof.
  destruct pool as [|s pool]; cbn [pool_loop accepts]; [intros H; inversion H; auto|].
  destruct (tp_composed tp); intros H; inversion H; subst; auto. left. destruct s; reflexivity.
Qed.
Lemma pool_date e tp st d l n k r : parse_with_pool e tp st (VDate d) l n = (k, r) -> r = Ok d \/ r = Err ENotComposed.
Proof.
  unfold parse_with_pool. destruct st as [s|].
  - replace (parse_time e tp s (VDate d) l n) with (@Ok datetime d) by (destruct s; reflexivity). intros H. inversion H. auto.
  - intros H. apply pool_loop_date in H as [H|[H|[H _]]]; auto. discriminate.
Qed.

(** ** the values read at a position *)
Definition reads_line (tl : tlines) (wl : Z) : Prop :=
  match tl with OneLine l => l = wl | ManyLines ls => exists r, ls = wl :: r end.
Lemma many_no_date e al w ls q v l d : many_value e al w ls q = Ok v -> In l ls -> axis_val al w l q <> VDate d.
Proof.
  unfold many_value. intros H. apply bind_ok in H as [ts [H _]]. revert H.
  match goal with |- foldM ?f _ _ = _ -> _ => set (step := f) end. generalize (@nil text).
  induction ls as [|k ls IH]; intros acc H I; [destruct I|]. cbn [foldM] in H. apply bind_ok in H as [acc' [E H]].
  destruct I as [->|I]; [|exact (IH acc' H I)]. unfold step in E. apply bind_ok in E as [x [Ex E]]. apply axis_read_ok in Ex. subst x.
  intros D. rewrite D in E. discriminate.
Qed.
Lemma many_kind e al w ls q v : many_value e al w ls q = Ok v -> v = VNone \/ exists t, v = VStr t.
Proof. unfold many_value. intros H. apply bind_ok in H as [ts [_ H]]. destruct (Nat.ltb _ _); inversion H; eauto. Qed.
Lemma time_value_date e al w tl wl q v d : reads_line tl wl -> time_value e al w tl q = Ok v ->
  axis_val al w wl q = VDate d -> v = VDate d.
Proof.
  intros R H D. destruct tl as [l|ls]; cbn in *.
  - subst. apply axis_read_ok in H. congruence.
  - exfalso. destruct R as [r ->]. eapply many_no_date; eauto. left. auto.
Qed.
Lemma time_value_real e al w tl q v d : real_sheet w -> time_value e al w tl q = Ok v -> v = VDate d -> real_date d.
Proof.
  intros R H E. subst v. destruct tl as [l|ls]; cbn in H.
  - apply axis_read_ok in H. symmetry in H. eapply R. exact H.
  - apply many_kind in H as [H|[t H]]; discriminate.
Qed.
Lemma lines_agree al th multi tl wl : time_lines al th multi = Ok tl -> write_line al th = Ok wl -> reads_line tl wl.
Proof.
  unfold time_lines, write_line. destruct th as [t|ts]; destruct multi; try discriminate.
  - intros H W. rewrite W in H. inversion H. reflexivity.
  - intros H W. apply bind_ok in H as [ls [M H]]. inversion H; subst. destruct ts as [|t ts]; [discriminate|].
    cbn [mapM] in M. rewrite W in M. cbn [bind] in M. apply bind_ok in M as [r [_ M]]. inversion M. subst. exists r. auto.
Qed.

(** ** the loop *)
Section Loop.
Variables (e : env) (p : sp) (tl : tlines) (wl : Z).
Let val (w : worksheet) (q : Z) : pyval := axis_val (sp_al p) w wl q.

Lemma loop_frame positions prev st w' r : clean_loop e p tl wl positions prev st = (w', r) ->
  forall i j, (forall q, In q positions -> (i, j) <> (axis_row (sp_al p) wl q, axis_col (sp_al p) wl q)) ->
  cell w' i j = cell (cs_ws st) i j.
Proof.
  revert prev st. induction positions as [|pos rest IH]; intros prev st H i j N; cbn [clean_loop] in H.
  - destruct prev; inversion H; auto.
  - destruct (do c <- _; _) as [[curr next]|x]; [|inversion H; auto].
    set (w1 := axis_touch _ wl pos _) in H.
    assert (C1 : cell w1 i j = cell (cs_ws st) i j) by (unfold w1, axis_touch; rewrite cell_touch, !cell_touch_time; auto).
    assert (NR : forall q, In q rest -> (i, j) <> (axis_row (sp_al p) wl q, axis_col (sp_al p) wl q)) by (intros; apply N; right; auto).
    assert (NP : (i, j) <> (axis_row (sp_al p) wl pos, axis_col (sp_al p) wl pos)) by (apply N; left; auto).
    destruct (must_be_time _ curr).
    + destruct (process_value _ _ _ _ _) as [sticky [[[d lasts] lf]|x]].
      * apply IH with (i := i) (j := j) in H; auto. rewrite H. cbn [cs_ws]. rewrite cell_axis_write; auto.
      * destruct (_ || _); [|destruct (_ && _)].
        -- apply IH with (i := i) (j := j) in H; auto. rewrite H. cbn [cs_ws]. rewrite cell_axis_write; auto.
        -- inversion H; subst. auto.
        -- inversion H; subst. auto.
    + destruct (_ && _).
      * apply IH with (i := i) (j := j) in H; auto. rewrite H. auto.
      * inversion H; subst. auto.
Qed.
Lemma loop_val positions prev st w' r q : clean_loop e p tl wl positions prev st = (w', r) -> ~ In q positions -> val w' q = val (cs_ws st) q.
Proof.
  intros H N. unfold val, axis_val. eapply loop_frame; eauto. intros q' I E. apply N.
  replace q with q'; auto. unfold axis_row, axis_col in E. destruct (sp_al p); congruence.
Qed.

Definition corrected (l : option datetime) (d : datetime) : Prop :=
  exists curr, real_date curr /\ correct_progression l curr (sp_freq p) (sp_missings p) (sp_mv p) = Ok d /\
    (forall x, l = Some x -> d <> x).
Inductive chain : option datetime -> list datetime -> Prop :=
| ch_nil l : chain l []
| ch_cons l d ds : corrected l d -> chain (Some d) ds -> chain l (d :: ds).
Definition last_of (l : option datetime) (out : list (Z * datetime)) : option datetime :=
  fold_left (fun _ x => Some (snd x)) out l.

Lemma dt_eqb_neq a b : dt_eqb a b = false -> a <> b.
Proof. intros H ->. rewrite dt_eqb_refl in H. discriminate. Qed.

Lemma real_write w q d : real_sheet w -> real_date d -> real_sheet (axis_write (sp_al p) wl q (VDate d) w).
Proof.
  intros R D r c x. unfold axis_write, write. cbn [cell]. destruct (_ && _); [intros E; inversion E; subst; auto|apply R].
Qed.
Lemma real_write_none w q : real_sheet w -> real_sheet (axis_write (sp_al p) wl q VNone w).
Proof. intros R r c x. unfold axis_write, write. cbn [cell]. destruct (_ && _); [discriminate|apply R]. Qed.
Lemma val_write w q v q' : val (axis_write (sp_al p) wl q v w) q' = if q' =? q then v else val w q'.
Proof. unfold val. apply axis_val_write. Qed.

Lemma correct_real l curr d : real_date curr -> (forall x, l = Some x -> real_date x) ->
  forall f m mv, correct_progression l curr f m mv = Ok d -> real_date d.
Proof.
  intros R L f m mv H. unfold correct_progression in H. destruct l as [x|]; [|inversion H; subst; auto].
  specialize (L x eq_refl). apply bind_ok in H as [ex [E H]]. pose proof (increment_real _ _ _ _ L E) as RE.
  destruct (dt_eqb ex curr); [inversion H; subst; auto|].
  destruct (dt_ltb curr x); [destruct (time_value_typo curr ex); inversion H; subst; auto|].
  destruct (dt_ltb x curr && negb m); [destruct (time_value_typo curr ex); inversion H; subst; auto|].
  apply bind_ok in H as [mx [Em H]]. destruct (_ && _ && _); [|inversion H; subst; auto].
  apply bind_ok in H as [o [F H]]. destruct o as [y|]; [|discriminate]. inversion H; subst y.
  unfold forth_time_value_typo in F. apply bind_ok in F as [a [Ea F]]. apply bind_ok in F as [b [Eb F]]. apply bind_ok in F as [c [Ec F]].
  apply make_date_real in Ea, Eb, Ec. inversion F as [G]. destruct (dt_ltb a mx); [inversion G; subst; auto|].
  destruct (dt_ltb b mx); [inversion G; subst; auto|]. destruct (dt_ltb c mx); inversion G; subst; auto.
Qed.
Definition all_lasts (st : cstate) : Prop := (forall x, cs_last st = Some x -> real_date x) /\ (forall c x, cs_lasts st c = Some x -> real_date x).
Lemma process_ok st curr next sticky d lasts lf : all_lasts st -> (forall x, curr = VDate x -> real_date x) ->
  process_value e p st curr next = (sticky, Ok (d, lasts, lf)) ->
  real_date d /\ (forall c x, lasts c = Some x -> real_date x) /\
  (List.length (sp_freq p) = 1%nat -> corrected (cs_last st) d).
Proof.
  intros [L1 L2] C H. unfold process_value in H. destruct (parse_with_pool _ _ _ _ _ _) as [k r] eqn:P.
  injection H as -> H. apply bind_ok in H as [d0 [-> H]]. apply pool_real in P; auto.
  apply bind_ok in H as [[[d1 ls1] lf1] [S H]]. cbn [fst] in H.
  destruct (same_as_last d1 (cs_last st) && _) eqn:SL; [discriminate|]. inversion H; subst. clear H.
  unfold correct_state in S. destruct (Nat.eqb (List.length (sp_freq p)) 1) eqn:N1.
  - apply bind_ok in S as [d2 [E S]]. inversion S; subst. split; [eapply correct_real; eauto|]. split; auto.
    intros _. exists d0. split; auto. split; auto. intros x Hx. rewrite Hx in SL. cbn in SL. rewrite andb_true_r in SL.
    apply dt_eqb_neq; auto.
  - apply bind_ok in S as [cf [_ S]]. apply bind_ok in S as [d2 [E S]]. inversion S; subst.
    assert (RD : real_date d) by (eapply correct_real; [| |exact E]; eauto).
    split; auto. split.
    + intros c x. unfold set_last. destruct (ch_eqb c (fst cf)); [intros Q; inversion Q; subst; auto|apply L2].
    + apply Nat.eqb_neq in N1. intros; lia.
Qed.

(** errors of the progression do not end the index *)
Lemma correct_err l curr f m mv x : correct_progression l curr f m mv = Err x -> ends_index x = false.
Proof.
  intros C. unfold correct_progression in C. destruct l as [l|]; [|discriminate].
  unfold increment_time, add_seconds, add_months, forth_time_value_typo, make_date in C.
  repeat match type of C with
  | Err _ = Err _ => inversion C; subst; reflexivity
  | _ => progress (cbn [bind] in C)
  | context [match ?x with _ => _ end] => destruct x
  | context [if ?x then _ else _] => destruct x
  end; try discriminate; inversion C; subst; reflexivity.
Qed.
(** a date on which reading ended repeats the last one *)
Lemma process_date_stop st d next sticky x : all_lasts st -> real_date d -> 
  process_value e p st (VDate d) next = (sticky, Err x) -> ends_index x = true ->
  py_eq (sp_mv p) (str_ "Implicit") = false -> List.length (sp_freq p) = 1%nat /\ cs_last st = Some d.
Proof.
  intros [L1 L2] RD H E IM. unfold process_value in H. destruct (parse_with_pool _ _ _ _ _ _) as [k r] eqn:P.
  injection H as -> H. apply pool_date in P as [-> | ->]; [|cbn in H; inversion H; subst; discriminate].
  cbn [bind] in H. unfold correct_state in H. destruct (Nat.eqb (List.length (sp_freq p)) 1) eqn:N.
  2:{ exfalso. destruct (next_frequency _ _) as [cf|y] eqn:NF; cbn [bind] in H.
      - destruct (correct_progression _ _ _ _ _) as [d2|y] eqn:C; cbn [bind] in H; [rewrite andb_false_r in H; discriminate|].
        inversion H; subst y. apply correct_err in C. congruence.
      - inversion H; subst y. unfold next_frequency in NF. repeat match type of NF with context [match ?x with _ => _ end] => destruct x end;
          inversion NF; subst; discriminate. }
  apply Nat.eqb_eq in N. split; auto.
  destruct (correct_progression _ _ _ _ _) as [d2|y] eqn:C.
  - cbn [bind fst] in H. destruct (same_as_last d2 (cs_last st)) eqn:S; [|discriminate].
    unfold same_as_last in S. destruct (cs_last st) as [l|] eqn:LL; [|discriminate]. apply dt_eqb_eq in S. subst d2.
    specialize (L1 l eq_refl). unfold correct_progression in C. apply bind_ok in C as [ex [IN C]].
    assert (IE : earlier l ex) by (eapply increment_earlier; eauto; lia).
    assert (EX : ex <> l) by (intros ->; eapply earlier_irrefl; eauto).
    destruct (dt_eqb ex d) eqn:B1; [apply dt_eqb_eq in B1; congruence|].
    destruct (dt_ltb d l) eqn:B2; [destruct (time_value_typo d ex); congruence|].
    destruct (dt_ltb l d) eqn:B3.
    + exfalso. apply ltb_earlier in B3. destruct (negb (sp_missings p)); cbn [andb] in C; [destruct (time_value_typo d ex); congruence|].
      apply bind_ok in C as [mx [MX C]]. rewrite IM, andb_false_r in C. inversion C; subst; eapply earlier_irrefl; eauto.
    + f_equal. apply ltb_false in B2 as [B2|B2]; [congruence|]. apply ltb_false in B3 as [B3|B3]; [congruence|].
      exfalso. exact (earlier_irrefl _ (earlier_trans _ _ _ B2 B3)).
  - exfalso. cbn [bind] in H. inversion H; subst y. apply correct_err in C. congruence.
Qed.

(** reading a position looks only at the cells of that position *)
Lemma time_value_local w w1 q : (forall l, axis_val (sp_al p) w l q = axis_val (sp_al p) w1 l q) ->
  time_value e (sp_al p) w tl q = time_value e (sp_al p) w1 tl q.
Proof.
  intros H. assert (R : forall l, axis_read (sp_al p) w l q = axis_read (sp_al p) w1 l q).
  { intros l. unfold axis_read, read. destruct (cell_ok _ _); auto. f_equal. apply H. }
  destruct tl as [l|ls]; cbn [time_value]; auto. unfold many_value.
  match goal with |- bind ?a _ = bind ?b _ => assert (E : a = b) end.
  { match goal with |- foldM ?f _ _ = foldM ?g _ _ => assert (FG : forall a l, f a l = g a l) end.
    { intros a l. rewrite R. reflexivity. }
    revert FG. match goal with |- _ -> foldM ?f _ _ = foldM ?g _ _ => generalize f g end. generalize (@nil text).
    induction ls as [|k ls IH]; intros acc f g FG; cbn [foldM]; auto. rewrite FG. destruct (g acc k); cbn [bind]; auto. }
  rewrite E. reflexivity.
Qed.
Lemma axis_val_other w q v l q' : q' <> q -> axis_val (sp_al p) (axis_write (sp_al p) wl q v w) l q' = axis_val (sp_al p) w l q'.
Proof.
  intros N. unfold axis_val. apply cell_axis_write. unfold axis_row, axis_col. destruct (sp_al p); congruence.
Qed.

Lemma sorted_lt (a : Z) l q : StronglySorted Z.lt (a :: l) -> In q l -> a < q.
Proof. intros H I. inversion H; subst. rewrite Forall_forall in H3. auto. Qed.
Lemma date_must o d : must_be_time o (VDate d) = true.
Proof. destruct o; reflexivity. Qed.

Definition implicit : bool := py_eq (sp_mv p) (str_ "Implicit").
Definition single : Prop := List.length (sp_freq p) = 1%nat.


(** the runs of the loop that end normally: [walk prev positions st w' stop]
    when the reading ends at [stop] with the sheet [w'] *)
Definition touched (w : worksheet) (pos : Z) : worksheet :=
  axis_touch (sp_al p) wl pos (touch_time (sp_al p) tl (pos + 1) (touch_time (sp_al p) tl pos w)).
Definition at_touched (st : cstate) (pos : Z) : cstate :=
  mkcs (touched (cs_ws st) pos) (cs_parser st) (cs_last st) (cs_count st) (cs_lasts st) (cs_lf st).
Definition readable (w : worksheet) (pos : Z) (curr next : pyval) : Prop :=
  time_value e (sp_al p) w tl pos = Ok curr /\ time_value e (sp_al p) w tl (pos + 1) = Ok next /\
  exists v, axis_read (sp_al p) w wl pos = Ok v.
Notation timely v := (must_be_time (negb (sp_ta p =? 0)) v).
Definition tolerant : bool := negb (sp_cont p) || sp_blank p.
Inductive walk : option Z -> list Z -> cstate -> worksheet -> Z -> Prop :=
| wk_end st pos : walk (Some pos) [] st (cs_ws st) pos
| wk_date prev pos rest st curr next sticky d lasts lf w' stop :
    readable (cs_ws st) pos curr next -> timely curr = true ->
    process_value e p (at_touched st pos) curr next = (sticky, Ok (d, lasts, lf)) ->
    walk (Some pos) rest (mkcs (axis_write (sp_al p) wl pos (VDate d) (touched (cs_ws st) pos)) sticky (Some d) 0 lasts lf) w' stop ->
    walk prev (pos :: rest) st w' stop
| wk_month prev pos rest st curr next sticky x w' stop :
    readable (cs_ws st) pos curr next -> timely curr = true ->
    process_value e p (at_touched st pos) curr next = (sticky, Err x) -> x = EDay \/ x = EMonth ->
    walk (Some pos) rest (mkcs (axis_write (sp_al p) wl pos VNone (touched (cs_ws st) pos)) sticky (cs_last st) 0 (cs_lasts st) (cs_lf st)) w' stop ->
    walk prev (pos :: rest) st w' stop
| wk_note prev pos rest st curr next sticky x :
    readable (cs_ws st) pos curr next -> timely curr = true ->
    process_value e p (at_touched st pos) curr next = (sticky, Err x) -> ends_index x = true -> sp_ends p = None ->
    walk prev (pos :: rest) st (touched (cs_ws st) pos) pos
| wk_blank prev pos rest st curr next w' stop :
    readable (cs_ws st) pos curr next -> timely curr = false -> cs_count st < NO_TIME_VALUE_LIMIT -> tolerant = true ->
    walk (Some pos) rest (mkcs (touched (cs_ws st) pos) (cs_parser st) (cs_last st) (cs_count st + 1) (cs_lasts st) (cs_lf st)) w' stop ->
    walk prev (pos :: rest) st w' stop
| wk_stop prev pos rest st curr next :
    readable (cs_ws st) pos curr next -> timely curr = false -> (NO_TIME_VALUE_LIMIT <= cs_count st \/ tolerant = false) ->
    walk prev (pos :: rest) st (touched (cs_ws st) pos) pos.

Lemma exn_eqb_eq x y : exn_eqb x y = true -> x = y.
Proof. destruct x, y; cbn; congruence. Qed.
Lemma loop_walk : forall positions prev st w' en, clean_loop e p tl wl positions prev st = (w', Ok en) ->
  exists stop, walk prev positions st w' stop /\ estimate_end (sp_al p) w' wl stop (sp_starts p) (sp_ta p) = Ok en.
Proof.
  induction positions as [|pos rest IH]; intros prev st w' en H; cbn [clean_loop] in H.
  { destruct prev as [pos|]; [|discriminate]. injection H as <- H. exists pos. split; [constructor|auto]. }
  destruct (time_value e (sp_al p) (cs_ws st) tl pos) as [curr|x] eqn:TV; cbn [bind] in H; [|discriminate].
  destruct (time_value e (sp_al p) (cs_ws st) tl (pos + 1)) as [next|x] eqn:TN; cbn [bind] in H; [|discriminate].
  destruct (axis_read (sp_al p) (cs_ws st) wl pos) as [cv|x] eqn:AR; cbn [bind] in H; [|discriminate].
  fold (touched (cs_ws st) pos) in H. fold (at_touched st pos) in H.
  assert (RD : readable (cs_ws st) pos curr next) by (repeat split; eauto).
  destruct (timely curr) eqn:MB.
  - destruct (process_value _ _ _ _ _) as [sticky [[[d lasts] lf]|x]] eqn:PV.
    + destruct (IH _ _ _ _ H) as (stop & W & E). exists stop. split; auto. eapply wk_date; eauto.
    + destruct (exn_eqb x EDay || exn_eqb x EMonth) eqn:DM.
      * destruct (IH _ _ _ _ H) as (stop & W & E). exists stop. split; auto. eapply wk_month; eauto.
        apply orb_prop in DM as [Q|Q]; apply exn_eqb_eq in Q; auto.
      * destruct (ends_index x) eqn:EI; cbn [andb] in H; [|discriminate]. destruct (sp_ends p) eqn:SE; [discriminate|].
        injection H as <- H. exists pos. split; auto. eapply wk_note; eauto.
  - destruct ((cs_count st <? NO_TIME_VALUE_LIMIT) && _) eqn:CT.
    + apply andb_prop in CT as [C1 C2]. destruct (IH _ _ _ _ H) as (stop & W & E). exists stop. split; auto. eapply wk_blank; eauto. lia.
    + injection H as <- H. exists pos. split; auto. eapply wk_stop; eauto.
      destruct (cs_count st <? NO_TIME_VALUE_LIMIT) eqn:C1; [right; exact CT|left; lia].
Qed.
Lemma walk_loop positions prev st w' stop : walk prev positions st w' stop ->
  clean_loop e p tl wl positions prev st = (w', estimate_end (sp_al p) w' wl stop (sp_starts p) (sp_ta p)).
Proof.
  induction 1; cbn [clean_loop]; auto; try (destruct H as (-> & -> & v & ->)); cbn [bind];
    fold (touched (cs_ws st) pos); fold (at_touched st pos).
  - rewrite H0, H1. exact IHwalk.
  - rewrite H0, H1. destruct H2 as [-> | ->]; exact IHwalk.
  - rewrite H0, H1, H2, H3. destruct x; try discriminate; reflexivity.
  - rewrite H0. fold tolerant. rewrite H2. replace (cs_count st <? NO_TIME_VALUE_LIMIT) with true by lia. exact IHwalk.
  - rewrite H0. fold tolerant. replace ((cs_count st <? NO_TIME_VALUE_LIMIT) && tolerant) with false; [reflexivity|].
    destruct H1 as [H1|H1]; [replace (cs_count st <? NO_TIME_VALUE_LIMIT) with false by lia; auto|rewrite H1, andb_false_r; auto].
Qed.
Lemma walk_frame positions prev st w' stop : walk prev positions st w' stop ->
  forall i j, (forall q, In q positions -> (i, j) <> (axis_row (sp_al p) wl q, axis_col (sp_al p) wl q)) ->
  cell w' i j = cell (cs_ws st) i j.
Proof. intros W. apply walk_loop in W. eapply loop_frame. exact W. Qed.
Lemma walk_val positions prev st w' stop q : walk prev positions st w' stop -> ~ In q positions -> val w' q = val (cs_ws st) q.
Proof. intros W. apply walk_loop in W. eapply loop_val. exact W. Qed.
Lemma cell_touched w pos i j : cell (touched w pos) i j = cell w i j.
Proof. unfold touched, axis_touch. rewrite cell_touch, !cell_touch_time. auto. Qed.
Lemma val_touched w pos q : val (touched w pos) q = val w q.
Proof. apply cell_touched. Qed.
Lemma time_touched w pos q : time_value e (sp_al p) (touched w pos) tl q = time_value e (sp_al p) w tl q.
Proof. apply time_value_local. intros l. apply cell_touched. Qed.
Lemma time_written w pos v q : q <> pos -> time_value e (sp_al p) (axis_write (sp_al p) wl pos v (touched w pos)) tl q = time_value e (sp_al p) w tl q.
Proof. intros N. rewrite <- (time_touched w pos q). apply time_value_local. intros l. apply axis_val_other. auto. Qed.

Definition trace (prev : option Z) (positions : list Z) (st : cstate) (w' : worksheet) (stop : Z) (out : list (Z * datetime)) : Prop :=
    (single -> chain (cs_last st) (map snd out)) /\
    StronglySorted Z.lt (map fst out) /\
    (forall q d, In (q, d) out -> In q positions /\ q <= stop /\ val w' q = VDate d /\ real_date d) /\
    (In stop positions \/ positions = [] /\ prev = Some stop) /\
    (forall q d, In q positions -> q <= stop -> val w' q = VDate d ->
       In (q, d) out \/ q = stop /\ sp_ends p = None /\ val (cs_ws st) q = VDate d /\
         (implicit = false -> single /\ last_of (cs_last st) out = Some d)).

Lemma walk_spec : forall positions prev st w' stop, StronglySorted Z.lt positions ->
  walk prev positions st w' stop -> reads_line tl wl -> real_sheet (cs_ws st) -> all_lasts st ->
  exists out, trace prev positions st w' stop out.
Proof.
  induction positions as [|pos rest IH]; intros prev st w' stop SS H RL RS AL.
  { inversion H; subst. exists []. split; [constructor|]. split; [constructor|]. split; [intros ? ? []|]. split; [right; auto|].
    intros ? ? []. }
  assert (RS1 : real_sheet (touched (cs_ws st) pos)) by (intros r c d; rewrite cell_touched; apply RS).
  assert (SR : StronglySorted Z.lt rest) by (inversion SS; auto).
  assert (NP : ~ In pos rest) by (intros I; pose proof (sorted_lt _ _ _ SS I); lia).
  assert (FIN : stop = pos -> w' = touched (cs_ws st) pos ->
    (forall d, val (cs_ws st) pos = VDate d -> sp_ends p = None /\ (implicit = false -> single /\ cs_last st = Some d)) ->
    exists out, trace prev (pos :: rest) st w' stop out).
  { intros -> -> DD. exists []. split; [constructor|]. split; [constructor|]. split; [intros ? ? []|]. split; [left; left; auto|].
    intros q d I L D. right. destruct I as [<-|I]; [|pose proof (sorted_lt _ _ _ SS I); lia].
    rewrite val_touched in D. destruct (DD d D). auto. }
  assert (STEP : forall wr st2, cs_ws st2 = match wr with Some v => axis_write (sp_al p) wl pos v (touched (cs_ws st) pos) | None => touched (cs_ws st) pos end ->
    walk (Some pos) rest st2 w' stop -> all_lasts st2 ->
    (forall d, wr = Some (VDate d) -> real_date d /\ cs_last st2 = Some d /\ (single -> corrected (cs_last st) d)) ->
    ((forall d, wr <> Some (VDate d)) -> cs_last st2 = cs_last st) ->
    (wr = None -> forall d, val (cs_ws st) pos <> VDate d) ->
    exists out, trace prev (pos :: rest) st w' stop out).
  { intros wr st2 E2 HR AL2 WD WN W0.
    assert (RS2 : real_sheet (cs_ws st2)).
    { rewrite E2. destruct wr as [v|]; auto. intros r c d. unfold axis_write, write. cbn [cell].
      destruct ((r =? _) && (c =? _)); [|exact (RS1 r c d)]. intros ->. exact (proj1 (WD d eq_refl)). }
    pose proof (walk_val _ _ _ _ _ pos HR NP) as VP.
    assert (VQ : forall q, In q rest -> val (cs_ws st2) q = val (cs_ws st) q).
    { intros q I. rewrite E2. destruct wr; [|apply val_touched]. rewrite val_write. destruct (q =? pos) eqn:Q; [|apply val_touched].
      apply Z.eqb_eq in Q. subst. contradiction. }
    destruct (IH _ _ _ _ SR HR RL RS2 AL2) as (out & A1 & A2 & A3 & A4 & A6).
    assert (SP : pos <= stop).
    { destruct A4 as [I|[_ Q]]; [pose proof (sorted_lt _ _ _ SS I); lia|inversion Q; lia]. }
    assert (INS : In stop (pos :: rest)) by (destruct A4 as [I|[_ Q]]; [right; auto|inversion Q; left; auto]).
    assert (K : (exists d, wr = Some (VDate d)) \/ forall d, wr <> Some (VDate d)).
    { destruct wr as [v|]; [destruct v|]; eauto; right; intros; discriminate. }
    destruct K as [[d ->]|K].
    2:{ specialize (WN K). exists out. split; [intros SI; rewrite <- WN; auto|]. split; [auto|].
      split; [intros q d I; destruct (A3 q d I) as (B1 & B2 & B3 & B4); split; [right; auto|auto]|].
      split; [left; exact INS|].
      intros q d I L D. destruct I as [<-|I].
      - exfalso. rewrite VP, E2 in D. destruct wr as [v|].
        + rewrite val_write, Z.eqb_refl in D. apply (K d). congruence.
        + rewrite val_touched in D. exact (W0 eq_refl d D).
      - destruct (A6 q d I L D) as [B|(B1 & B2 & B3 & B4)]; [left; auto|right].
        rewrite VQ in B3 by auto. rewrite <- WN. auto. }
    destruct (WD d eq_refl) as (RD & LD & CD). exists ((pos, d) :: out).
    split. { intros SI. cbn [map snd]. constructor; auto. rewrite <- LD. auto. }
    split. { cbn [map fst]. constructor; auto. apply Forall_forall. intros q I. apply in_map_iff in I as [[q' d'] [<- I]].
      cbn [fst]. destruct (A3 _ _ I) as (B1 & _). eapply sorted_lt; eauto. }
    split. { intros q d' [I|I].
      - inversion I; subst. split; [left; auto|]. split; auto. split; auto. rewrite VP, E2, val_write, Z.eqb_refl. auto.
      - destruct (A3 _ _ I) as (B1 & B2 & B3 & B4). split; [right; auto|auto]. }
    split; [left; exact INS|].
    intros q d' I L D. destruct I as [<-|I].
    - left. left. rewrite VP, E2, val_write, Z.eqb_refl in D. inversion D. auto.
    - destruct (A6 q d' I L D) as [B|(B1 & B2 & B3 & B4)]; [left; right; auto|right]. rewrite VQ in B3 by auto.
      split; [auto|]; split; [auto|]; split; [auto|]. intros IM. destruct (B4 IM) as [SI LO]. split; auto.
      unfold last_of in *. cbn [fold_left snd]. rewrite LD in LO. exact LO. }
  assert (ND : forall curr next, readable (cs_ws st) pos curr next -> timely curr = false -> forall d, val (cs_ws st) pos <> VDate d).
  { intros curr next (TV & _) MB d D. pose proof (time_value_date _ _ _ _ _ _ _ _ RL TV D) as ->. rewrite date_must in MB. discriminate. }
  inversion H; subst; clear H;
    match goal with R : readable _ _ _ _ |- _ => rename R into RDB end;
    try match goal with R : process_value _ _ _ _ _ = _ |- _ => rename R into PV end;
    try match goal with R : walk _ _ _ _ _ |- _ => rename R into WK end.
  - pose proof RDB as (TV & _). assert (CR : forall x, curr = VDate x -> real_date x) by (intros x Q; exact (time_value_real _ _ _ _ _ _ _ RS TV Q)).
    apply process_ok in PV as (RD & LS & CO); auto. refine (STEP (Some (VDate d)) _ _ WK _ _ _ _); [reflexivity|..].
    + split; cbn [cs_last cs_lasts]; auto. intros x Q. inversion Q; subst; auto.
    + intros d' Q. inversion Q; subst. auto.
    + intros Q. destruct (Q d eq_refl).
    + discriminate.
  - refine (STEP (Some VNone) _ _ WK _ _ _ _); auto; discriminate.
  - apply FIN; auto. intros d D. split; auto. intros IM. pose proof RDB as (TV & _).
    pose proof (time_value_date _ _ _ _ _ _ _ _ RL TV D) as ->.
    eapply process_date_stop in PV; eauto.
  - refine (STEP None _ _ WK _ _ _ _); eauto. discriminate.
  - apply FIN; auto. intros d D. destruct (ND curr next RDB ltac:(assumption) d D).
Qed.

(** blank runs: [B] tells the positions without a time value *)
Lemma in_zrange_cons a b x rest : zrange a b = x :: rest -> x = a /\ rest = zrange (a + 1) b /\ a <= b.
Proof.
  intros H. destruct (Z_le_gt_dec a b) as [L|L].
  - rewrite zrange_cons in H by lia. inversion H; subst; auto with zarith.
  - rewrite zrange_nil in H by lia. discriminate.
Qed.
Lemma walk_runs (B : Z -> Prop) last : forall positions prev st w' stop, walk prev positions st w' stop ->
  forall pos, positions = zrange pos last -> 0 <= cs_count st <= NO_TIME_VALUE_LIMIT ->
  (forall q v, In q positions -> time_value e (sp_al p) (cs_ws st) tl q = Ok v -> (timely v = false <-> B q)) ->
  (forall k, 1 <= k <= cs_count st -> B (pos - k)) ->
  (forall q, In q positions -> q < stop -> ~ B q -> val w' q = VNone \/ exists d, val w' q = VDate d) /\
  (forall q, In q positions -> B q \/ stop < q -> val w' q = val (cs_ws st) q) /\
  (tolerant = false -> forall q, In q positions -> B q -> stop <= q) /\
  (pos + (NO_TIME_VALUE_LIMIT - cs_count st) <= last ->
     (forall k, 0 <= k <= NO_TIME_VALUE_LIMIT - cs_count st -> B (pos + k)) -> stop <= pos + (NO_TIME_VALUE_LIMIT - cs_count st)) /\
  (forall a, pos <= a -> a + NO_TIME_VALUE_LIMIT <= last -> (forall k, 0 <= k <= NO_TIME_VALUE_LIMIT -> B (a + k)) -> stop <= a + NO_TIME_VALUE_LIMIT) /\
  (positions <> [] -> pos <= stop <= last) /\
  (stop < last -> positions <> [] -> ~ B stop -> sp_ends p = None) /\
  (stop < last -> positions <> [] -> B stop -> tolerant = true -> forall k, 0 <= k <= NO_TIME_VALUE_LIMIT -> B (stop - k)).
Proof.
  assert (OUT : forall pos q rest, rest = zrange (pos + 1) last -> In q rest -> q <> pos).
  { intros pos q rest -> I. apply zrange_In in I. lia. }
  assert (LIM : NO_TIME_VALUE_LIMIT = 40) by reflexivity.
  induction 1 as [st pos|prev pos rest st curr next sticky d lasts lf w' stop RD TM PV WK IH|prev pos rest st curr next sticky x w' stop RD TM PV XX WK IH
    |prev pos rest st curr next sticky x RD TM PV XX EE|prev pos rest st curr next w' stop RD TM CC TT WK IH|prev pos rest st curr next RD TM CC];
    intros pos0 E CB HB HP; try (symmetry in E; apply in_zrange_cons in E as (E1 & E2 & E3); subst pos0).
  - assert (last < pos0). { destruct (Z_le_gt_dec pos0 last); [|lia]. rewrite zrange_cons in E by lia. discriminate. }
    split; [intros ? []|]. split; [intros ? []|]. split; [intros _ ? []|]. split; [intros; lia|]. split; [intros; lia|].
    split; [congruence|]. split; congruence.
  - assert (NB : ~ B pos). { intros Q. apply (HB pos curr) in Q; [congruence|left; auto|apply RD]. }
    destruct (IH (pos + 1) E2) as (I1 & I1b & I2 & I3 & I4 & I5 & I6 & I7).
    { cbn [cs_count]. lia. }
    { intros q v I. cbn [cs_ws]. rewrite time_written by eauto. apply HB. right. auto. }
    { cbn [cs_count]. intros. lia. }
    cbn [cs_ws cs_count] in *.
    assert (VP : val w' pos = VDate d).
    { rewrite (walk_val _ _ _ _ _ pos WK). 2:{ intros Q. eapply OUT; eauto. } cbn [cs_ws]. rewrite val_write, Z.eqb_refl. auto. }
    assert (NN : rest = [] -> stop = pos /\ last = pos).
    { intros Q. split; [rewrite Q in WK; inversion WK; auto|]. destruct (Z_le_gt_dec (pos + 1) last); [|lia]. rewrite zrange_cons in E2 by lia. congruence. }
    assert (SB : pos <= stop <= last). { destruct rest; [destruct NN; auto; lia|]. specialize (I5 ltac:(discriminate)). lia. }
    split. { intros q [<-|I] L N; eauto. }
    split. { intros q [<-|I] K; [destruct K; [contradiction|lia]|]. rewrite (I1b q I K), val_write, val_touched.
      destruct (q =? pos) eqn:Q; auto. apply Z.eqb_eq in Q. exfalso. eapply OUT; eauto. }
    split. { intros T q [<-|I] BB; [contradiction|eauto]. }
    split. { intros _ Q. exfalso. apply NB. replace pos with (pos + 0) by lia. apply Q. lia. }
    split. { intros a A1 A2 A3. destruct (Z.eq_dec a pos) as [AP|N]; [|apply I4; auto; lia]. exfalso. apply NB. replace pos with (a + 0) by lia. apply A3. lia. }
    split; [auto|].
    split. { intros SL _ N. destruct rest; [destruct NN; auto; lia|]. apply I6; auto. discriminate. }
    { intros SL _ N. destruct rest; [destruct NN; auto; lia|]. apply I7; auto. discriminate. }
  - assert (NB : ~ B pos). { intros Q. apply (HB pos curr) in Q; [congruence|left; auto|apply RD]. }
    destruct (IH (pos + 1) E2) as (I1 & I1b & I2 & I3 & I4 & I5 & I6 & I7).
    { cbn [cs_count]. lia. }
    { intros q v I. cbn [cs_ws]. rewrite time_written by eauto. apply HB. right. auto. }
    { cbn [cs_count]. intros. lia. }
    cbn [cs_ws cs_count] in *.
    assert (VP : val w' pos = VNone).
    { rewrite (walk_val _ _ _ _ _ pos WK). 2:{ intros Q. eapply OUT; eauto. } cbn [cs_ws]. rewrite val_write, Z.eqb_refl. auto. }
    assert (NN : rest = [] -> stop = pos /\ last = pos).
    { intros Q. split; [rewrite Q in WK; inversion WK; auto|]. destruct (Z_le_gt_dec (pos + 1) last); [|lia]. rewrite zrange_cons in E2 by lia. congruence. }
    assert (SB : pos <= stop <= last). { destruct rest; [destruct NN; auto; lia|]. specialize (I5 ltac:(discriminate)). lia. }
    split. { intros q [<-|I] L N; eauto. }
    split. { intros q [<-|I] K; [destruct K; [contradiction|lia]|]. rewrite (I1b q I K), val_write, val_touched.
      destruct (q =? pos) eqn:Q; auto. apply Z.eqb_eq in Q. exfalso. eapply OUT; eauto. }
    split. { intros T q [<-|I] BB; [contradiction|eauto]. }
    split. { intros _ Q. exfalso. apply NB. replace pos with (pos + 0) by lia. apply Q. lia. }
    split. { intros a A1 A2 A3. destruct (Z.eq_dec a pos) as [AP|N]; [|apply I4; auto; lia]. exfalso. apply NB. replace pos with (a + 0) by lia. apply A3. lia. }
    split; [auto|].
    split. { intros SL _ N. destruct rest; [destruct NN; auto; lia|]. apply I6; auto. discriminate. }
    { intros SL _ N. destruct rest; [destruct NN; auto; lia|]. apply I7; auto. discriminate. }
  - assert (NB : ~ B pos). { intros Q. apply (HB pos curr) in Q; [congruence|left; auto|apply RD]. }
    split. { intros q [<-|I] L; [lia|]. rewrite E2 in I. apply zrange_In in I. lia. }
    split. { intros q _ _. apply val_touched. }
    split. { intros _ q [<-|I] _; [lia|]. rewrite E2 in I. apply zrange_In in I. lia. }
    split; [intros; lia|]. split; [intros; lia|]. split; [intros; lia|]. split; auto. intros. contradiction.
  - assert (BP : B pos) by (apply (HB pos curr); [left; auto|apply RD|auto]).
    destruct (IH (pos + 1) E2) as (I1 & I1b & I2 & I3 & I4 & I5 & I6 & I7).
    { cbn [cs_count]. lia. }
    { intros q v I. cbn [cs_ws]. rewrite time_touched. apply HB. right. auto. }
    { cbn [cs_count]. intros k K. destruct (Z.eq_dec k 1) as [->|N]; [replace (pos + 1 - 1) with pos by lia; auto|].
      replace (pos + 1 - k) with (pos - (k - 1)) by lia. apply HP. lia. }
    cbn [cs_ws cs_count] in *.
    assert (VP : val w' pos = val (cs_ws st) pos).
    { rewrite (walk_val _ _ _ _ _ pos WK). 2:{ intros Q. eapply OUT; eauto. } cbn [cs_ws]. apply val_touched. }
    assert (NN : rest = [] -> stop = pos /\ last = pos).
    { intros Q. split; [rewrite Q in WK; inversion WK; auto|]. destruct (Z_le_gt_dec (pos + 1) last); [|lia]. rewrite zrange_cons in E2 by lia. congruence. }
    assert (SB : pos <= stop <= last). { destruct rest; [destruct NN; auto; lia|]. specialize (I5 ltac:(discriminate)). lia. }
    assert (R3 : pos + (NO_TIME_VALUE_LIMIT - cs_count st) <= last ->
      (forall k, 0 <= k <= NO_TIME_VALUE_LIMIT - cs_count st -> B (pos + k)) -> stop <= pos + (NO_TIME_VALUE_LIMIT - cs_count st)).
    { intros L Q. enough (stop <= pos + 1 + (NO_TIME_VALUE_LIMIT - (cs_count st + 1))) by lia. apply I3; [lia|].
      intros k K. replace (pos + 1 + k) with (pos + (k + 1)) by lia. apply Q. lia. }
    split. { intros q [<-|I] L N; [contradiction|eauto]. }
    split. { intros q [<-|I] K; auto. rewrite (I1b q I K). apply val_touched. }
    split. { intros T. congruence. }
    split; [exact R3|].
    split. { intros a A1 A2 A3. destruct (Z.eq_dec a pos) as [AP|N]; [|apply I4; auto; lia].
      enough (stop <= pos + (NO_TIME_VALUE_LIMIT - cs_count st)) by lia. apply R3; [lia|]. intros k K. rewrite <- AP. apply A3. lia. }
    split; [auto|].
    split. { intros SL _ N. destruct rest; [destruct NN; auto; lia|]. apply I6; auto. discriminate. }
    { intros SL _ N. destruct rest; [destruct NN; auto; lia|]. apply I7; auto. discriminate. }
  - assert (BP : B pos) by (apply (HB pos curr); [left; auto|apply RD|auto]).
    split. { intros q [<-|I] L; [lia|]. rewrite E2 in I. apply zrange_In in I. lia. }
    split. { intros q _ _. apply val_touched. }
    split. { intros _ q [<-|I] _; [lia|]. rewrite E2 in I. apply zrange_In in I. lia. }
    split; [intros; lia|]. split; [intros; lia|]. split; [intros; lia|]. split; [contradiction|].
    intros _ _ _ TT k K. destruct CC as [CC|CC]; [|congruence]. destruct (Z.eq_dec k 0) as [->|N]; [replace (pos - 0) with pos by lia; auto|].
    apply HP. lia.
Qed.
End Loop.
