(** Facts about the store of sheets and parameters and the attempts. *)
From Coq Require Import ZifyBool ZifyNat ZifyN.
From Verif Require Import Base BaseFacts Coord XlMethods Params ParseTime TimeIndex GetData PeriodRange DataFrame Attempts Scrape
  SpecParams SpecAttempts SpecScrape.
Local Open Scope Z_scope.

Lemma set_nth_length {A} i (x : A) l : List.length (set_nth i x l) = List.length l.
Proof. revert i. induction l; destruct i; cbn; auto. Qed.
Lemma nth_set_same {A} i (x d : A) l : (i < List.length l)%nat -> nth i (set_nth i x l) d = x.
Proof. revert i. induction l; destruct i; cbn; intros; auto; try lia. apply IHl. lia. Qed.
Lemma nth_set_other {A} i j (x d : A) l : i <> j -> nth j (set_nth i x l) d = nth j l d.
Proof. revert i j. induction l; destruct i, j; cbn; intros; auto; congruence. Qed.

Lemma set_nth_twice {A} i (x y : A) l : set_nth i x (set_nth i y l) = set_nth i x l.
Proof. revert i. induction l; destruct i; cbn; intros; auto. f_equal. auto. Qed.

(** ** an attempt depends on its sheet and parameters only *)
Definition attempt_full (e : env) (w : worksheet) (p : dict) : worksheet * dict * res (list df) :=
  let '(w1, p1, r) := clean_data e w p in
  match r with
  | Err x => (w1, p1, Err x)
  | Ok _ => let '(w2, r2) := get_data_all e w1 p1 in (w2, p1, r2)
  end.
Lemma run_full e st si pi : (si < List.length (st_sheets st))%nat -> (pi < List.length (st_params st))%nat ->
  run_attempt e st si pi =
  let '(w, p, r) := attempt_full e (sheet st si) (params st pi) in
  (mkstore (set_nth si w (st_sheets st)) (set_nth pi p (st_params st)), r).
Proof.
  intros Hs Hp. unfold run_attempt, attempt_full.
  destruct (clean_data e (sheet st si) (params st pi)) as [[w1 p1] [u|x]]; [|reflexivity].
  destruct (get_data_all e w1 p1) as [w2 r2]. cbn [st_sheets st_params set_sheet set_params].
  unfold set_sheet, set_params. cbn [st_sheets st_params]. rewrite set_nth_twice. reflexivity.
Qed.
Lemma alone_full e w p : alone e w p = snd (attempt_full e w p).
Proof.
  unfold alone. rewrite run_full by (cbn; lia).
  change (sheet (mkstore [w] [p]) 0) with w. change (params (mkstore [w] [p]) 0) with p.
  destruct (attempt_full e w p) as [[w' p'] r]. reflexivity.
Qed.

(** ** growing stores *)
Definition grows (st st' : store) : Prop :=
  (exists l, st_sheets st' = st_sheets st ++ l) /\ (exists l, st_params st' = st_params st ++ l).
Lemma grows_refl st : grows st st.
Proof. split; exists []; rewrite app_nil_r; auto. Qed.
Lemma grows_trans a b c : grows a b -> grows b c -> grows a c.
Proof.
  intros [[l1 H1] [m1 K1]] [[l2 H2] [m2 K2]].
  split; [exists (l1 ++ l2)|exists (m1 ++ m2)]; rewrite ?H2, ?K2, ?H1, ?K1, app_assoc; auto.
Qed.
Lemma grows_sheet st st' i : grows st st' -> (i < List.length (st_sheets st))%nat -> sheet st' i = sheet st i.
Proof. intros [[l H] _] L. unfold sheet. rewrite H. apply app_nth1. auto. Qed.
Lemma grows_params st st' i : grows st st' -> (i < List.length (st_params st))%nat -> params st' i = params st i.
Proof. intros [_ [l H]] L. unfold params. rewrite H. apply app_nth1. auto. Qed.

(** sheets up to [n] and parameters outside [own] are untouched *)
Record frame_ok (n m : nat) (st st' : store) : Prop := {
  fo_sheets : forall i, (i < n)%nat -> sheet st' i = sheet st i;
  fo_params : forall i, (i < m)%nat -> params st' i = params st i;
  fo_ns : (List.length (st_sheets st) <= List.length (st_sheets st'))%nat;
  fo_np : List.length (st_params st) = List.length (st_params st')
}.

Lemma run_frame e st si pi n m : (n <= si < List.length (st_sheets st))%nat -> (m <= pi < List.length (st_params st))%nat ->
  frame_ok n m st (fst (run_attempt e st si pi)).
Proof.
  intros Hs Hp. rewrite run_full by lia. destruct (attempt_full _ _ _) as [[w p] r]. cbn [fst].
  constructor; cbn [st_sheets st_params]; rewrite ?set_nth_length; auto; intros i L; unfold sheet, params; cbn;
    apply nth_set_other; lia.
Qed.

(** ** several attempts, each on its own copy *)
Lemma new_sheet_facts st w : let '(st', i) := new_sheet st w in
  i = List.length (st_sheets st) /\ grows st st' /\ sheet st' i = w /\ st_params st' = st_params st /\
  List.length (st_sheets st') = S (List.length (st_sheets st)).
Proof.
  cbn. repeat split.
  - exists [w]. auto.
  - exists []. rewrite app_nil_r. auto.
  - unfold sheet. cbn. rewrite app_nth2, Nat.sub_diag; auto.
  - rewrite app_length. cbn. lia.
Qed.

(** the outcome of attempt [p] on a copy of [w] *)
Definition outcome (e : env) (w : worksheet) (p : dict) : res (list df) := snd (attempt_full e (make_ws_copy w) p).

Definition results_of (e : env) (safe : bool) (w : worksheet) :=
  fix go (ps : list (dict * nat)) : list (dfs_t * nat) :=
    match ps with
    | [] => []
    | (p, i) :: ps' =>
        match outcome e w p with
        | Ok dfs => if safe then (unwrap dfs, i) :: go ps' else [(unwrap dfs, i)]
        | Err _ => go ps'
        end
    end.

Lemma try_attempts_facts e safe si : forall pids st n m ps,
  (si < n)%nat -> (n <= List.length (st_sheets st))%nat ->
  Forall (fun i => (m <= i < List.length (st_params st))%nat) pids -> NoDup pids ->
  Forall2 (fun i p => params st i = p) pids ps ->
  frame_ok n m st (fst (try_attempts e safe st si pids)) /\
  snd (try_attempts e safe st si pids) = results_of e safe (sheet st si) (combine ps pids).
Proof.
  induction pids as [|pi pids IH]; intros st n m ps Hs Hn Fr Nd Hp.
  - inversion Hp; subst. cbn. split; auto. constructor; auto.
  - inversion Hp as [|? p0 ? ps' Hp0 Hps]; subst. inversion Fr as [|? ? Fi Fr']; subst. inversion Nd as [|? ? Ni Nd']; subst.
    cbn [try_attempts]. pose proof (new_sheet_facts st (make_ws_copy (sheet st si))) as NF.
    destruct (new_sheet st (make_ws_copy (sheet st si))) as [st1 ti]. destruct NF as [-> [G [Sh [Pp Ln]]]].
    assert (Pi : params st1 pi = params st pi) by (apply grows_params; auto; lia).
    pose proof (run_frame e st1 (List.length (st_sheets st)) pi n m) as RF.
    pose proof (run_full e st1 (List.length (st_sheets st)) pi) as RU.
    rewrite Sh, Pi in RU.
    destruct (run_attempt e st1 (List.length (st_sheets st)) pi) as [st2 r] eqn:E. cbn [fst] in RF.
    assert (F12 : frame_ok n m st1 st2) by (apply RF; rewrite ?Pp; lia). clear RF.
    assert (Hr : r = outcome e (sheet st si) (params st pi) /\ forall j, j <> pi -> params st2 j = params st j).
    { unfold outcome. destruct (attempt_full _ _ _) as [[w p] r']. rewrite Ln, Pp in RU.
      specialize (RU ltac:(lia) ltac:(lia)). inversion RU; subst. cbn. split; auto.
      intros j J. unfold params. cbn. rewrite nth_set_other; auto. }
    destruct Hr as [-> Hother].
    assert (F02 : frame_ok n m st st2).
    { constructor.
      - intros i L. rewrite (fo_sheets _ _ _ _ F12) by auto. apply grows_sheet; auto. lia.
      - intros i L. rewrite (fo_params _ _ _ _ F12) by auto. apply grows_params; auto. lia.
      - pose proof (fo_ns _ _ _ _ F12). lia.
      - rewrite <- Pp. apply F12. }
    assert (Next : frame_ok n m st (fst (try_attempts e safe st2 si pids)) /\
      snd (try_attempts e safe st2 si pids) = results_of e safe (sheet st si) (combine ps' pids)).
    { destruct (IH st2 n m ps') as [A B]; auto.
      - pose proof (fo_ns _ _ _ _ F02). lia.
      - rewrite <- (fo_np _ _ _ _ F02). auto.
      - clear -Hps Ni Hother. induction Hps; constructor.
        + rewrite Hother; auto. intros ->. apply Ni. left. auto.
        + apply IHHps. intros I. apply Ni. right. auto.
      - rewrite (fo_sheets _ _ _ _ F02) in B by lia. split; auto. constructor.
        + intros i L. rewrite (fo_sheets _ _ _ _ A), (fo_sheets _ _ _ _ F02); auto.
        + intros i L. rewrite (fo_params _ _ _ _ A), (fo_params _ _ _ _ F02); auto.
        + pose proof (fo_ns _ _ _ _ A). pose proof (fo_ns _ _ _ _ F02). lia.
        + rewrite (fo_np _ _ _ _ F02). apply A. }
    cbn [combine results_of]. destruct (outcome e (sheet st si) (params st pi)) as [dfs|x].
    + destruct safe; [|cbn; split; auto].
      destruct (try_attempts e true st2 si pids) as [st3 rs]. cbn [fst snd] in *.
      destruct Next as [A B]. rewrite <- B. auto.
    + exact Next.
Qed.

(** ** allocating the attempts *)
Lemma alloc_facts l : forall st, let '(st', is) := alloc_params st l in
  grows st st' /\ st_sheets st' = st_sheets st /\
  is = seq (List.length (st_params st)) (List.length l) /\ st_params st' = st_params st ++ l.
Proof.
  induction l as [|p l IH]; intros st; cbn [alloc_params].
  - rewrite app_nil_r. repeat split; auto; exists []; rewrite app_nil_r; auto.
  - cbn [new_params]. specialize (IH (mkstore (st_sheets st) (st_params st ++ [p]))).
    destruct (alloc_params _ l) as [st2 is]. cbn [st_sheets st_params] in IH. destruct IH as [G [S [I P]]].
    repeat split; auto.
    + exists []. rewrite app_nil_r. auto.
    + exists (p :: l). rewrite P, <- app_assoc. auto.
    + rewrite I, app_length. cbn. f_equal. f_equal. lia.
    + rewrite P, <- app_assoc. auto.
Qed.
Lemma alloc_params_at l st i p : nth_error l i = Some p ->
  params (fst (alloc_params st l)) (List.length (st_params st) + i) = p.
Proof.
  intros H. pose proof (alloc_facts l st) as A. destruct (alloc_params st l) as [st' is]. destruct A as [_ [_ [_ P]]].
  cbn. unfold params. rewrite P, app_nth2 by lia. replace (_ + i - _)%nat with i by lia.
  apply nth_error_nth. auto.
Qed.

Lemma attempt_objects_discover st pi l : discover_parameters (params st pi) = Ok l -> List.length l <> 1%nat ->
  attempt_objects st pi = (fst (alloc_params st l), Ok (seq (List.length (st_params st)) (List.length l))).
Proof.
  unfold discover_parameters, attempt_objects. intros H N. apply bind_ok in H as [c [Hc H]]. rewrite Hc.
  destruct c; [inversion H; subst; cbn in N; congruence|].
  assert (G : forall names, names = get_missings (params st pi) -> generate_attempts names (params st pi) = Ok l ->
    (match names with
     | [] => (st, Ok [pi])
     | _ :: _ => match generate_attempts names (params st pi) with
                 | Ok l => let '(st', is) := alloc_params st l in (st', Ok is)
                 | Err x => (st, Err x)
                 end
     end) = (fst (alloc_params st l), Ok (seq (List.length (st_params st)) (List.length l)))).
  { intros names E K. destruct names as [|k names]; [inversion K; subst; cbn in N; congruence|].
    rewrite K. pose proof (alloc_facts l st) as A. destruct (alloc_params st l) as [st' is].
    destruct A as [_ [_ [-> _]]]. auto. }
  specialize (G (get_missings (params st pi)) eq_refl H). rewrite <- G.
  destruct (get_missings (params st pi)); auto.
Qed.
Lemma attempt_objects_one st pi l : discover_parameters (params st pi) = Ok l -> List.length l = 1%nat ->
  (attempt_objects st pi = (st, Ok [pi]) /\ l = [params st pi]) \/
  (attempt_objects st pi = (fst (alloc_params st l), Ok [List.length (st_params st)])).
Proof.
  unfold discover_parameters, attempt_objects. intros H N. apply bind_ok in H as [c [Hc H]]. rewrite Hc.
  destruct c; [inversion H; subst; auto|].
  unfold generate_attempts in H. destruct (get_missings (params st pi)) as [|k names] eqn:E; [inversion H; auto|].
  right. unfold generate_attempts. rewrite H. pose proof (alloc_facts l st) as A. destruct (alloc_params st l) as [st' is].
  destruct A as [_ [_ [-> _]]]. rewrite N. auto.
Qed.
Lemma attempt_objects_err st pi x : discover_parameters (params st pi) = Err x -> attempt_objects st pi = (st, Err x).
Proof.
  unfold discover_parameters, attempt_objects. intros H. destruct (is_complete _) as [[]|y]; cbn [bind] in H; try congruence.
  unfold generate_attempts in *. destruct (get_missings (params st pi)); [discriminate|]. rewrite H. auto.
Qed.

