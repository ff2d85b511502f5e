(** Proofs for C89. *)
From Coq Require Import ZifyBool ZifyNat.
From Verif Require Import Base BaseFacts Cal Coord XlMethods Params ParamsFacts ParseTime TimeIndex GetData PeriodRange DataFrame Attempts AttemptsFacts AttemptsProofs Scrape Xlseries
  SpecParams ParamsProofs3 ParamsProofs SpecAttempts SpecReach SpecScrape ScrapeFacts ScrapeProofs ScrapeProofs2 SessionProofs ReachProofs ReachProofs2 ReachProofs3 EndBuild EndCall TurnProofs3 SelectProofs4 SpecLeave.
Local Open Scope Z_scope.

Lemma dict_same : forall a b : dict, NoDup (map fst a) -> map fst a = map fst b -> (forall k, dget k a = dget k b) -> a = b.
Proof.
  induction a as [|[k v] a IH]; intros [|[k' v'] b] ND M G; try discriminate; auto. cbn [map fst] in M, ND. injection M as <- M. inversion ND as [|? ? NI ND']; subst.
  pose proof (G k) as G0. cbn [dget] in G0. rewrite text_eqb_refl in G0. injection G0 as <-. f_equal. apply IH; auto. intros x. specialize (G x). cbn [dget] in G.
  destruct (text_eqb x k) eqn:E; auto. apply text_eqb_eq in E. subst x.
  assert (Z : forall l : dict, ~ In k (map fst l) -> dget k l = None). { clear. induction l as [|[y z] l IH]; cbn; auto. intros NI. destruct (text_eqb k y) eqn:E; [apply text_eqb_eq in E; subst; tauto|auto]. }
  rewrite !Z; auto. rewrite <- M. auto.
Qed.
Lemma missing_of p : parameters_object p -> (forall k, unset p k -> exists vv d, In (k, vv, d) searchable) -> exists missing, to_search p missing.
Proof.
  intros PO U. exists (map (fun x : text * list pyval * pyval => fst x) (filter (fun x => is_none (dgetN (fst (fst x)) p)) searchable)).
  assert (SN : NoDup (map (fun x : text * list pyval * pyval => fst (fst x)) searchable)) by (cbn; repeat constructor; cbn; intuition discriminate).
  assert (IN : forall k vv, In (k, vv) (map (fun x : text * list pyval * pyval => fst x) (filter (fun x => is_none (dgetN (fst (fst x)) p)) searchable)) <-> exists v, In (k, vv, v) searchable /\ dgetN k p = VNone).
  { intros k vv. rewrite in_map_iff. split.
    - intros [[[k' vv'] v] [E I]]. cbn [fst] in E. inversion E; subst. apply filter_In in I as [I J]. cbn [fst] in J. exists v. split; auto. apply is_none_eq. auto.
    - intros [v [I J]]. exists (k, vv, v). split; auto. apply filter_In. split; auto. cbn [fst]. rewrite J. reflexivity. }
  split; [|split].
  - rewrite map_map. revert SN. generalize searchable as l. induction l as [|[[k vv] v] l IH]; intros ND; [constructor|].
    cbn [map fst] in ND. inversion ND as [|? ? NI ND']; subst. cbn [filter fst]. destruct (is_none _); [|apply IH; auto].
    cbn [map fst]. constructor; [|apply IH; auto]. intros I. apply NI. apply in_map_iff in I as [x [E I]]. apply filter_In in I as [I _]. apply in_map_iff. exists x. auto.
  - intros k. split.
    + intros I. apply in_map_iff in I as [[k' vv] [E I]]. cbn in E. subst k'. apply IN in I as [v [I J]].
      destruct (searchable_not_optional _ _ _ I) as (K1 & K2 & _). split; auto. unfold dgetN in J. destruct (dget k p) eqn:D; [congruence|]. exfalso.
      assert (X : In k (map fst p)) by (rewrite PO; exact K1). clear -D X. induction p as [|[a b] p IH]; [destruct X|]. cbn in D, X. destruct (text_eqb k a) eqn:E; [discriminate|]. destruct X as [->|X]; auto. rewrite text_eqb_refl in E. discriminate.
    + intros UK. destruct (U k UK) as (vv & d & I). apply in_map_iff. exists (k, vv). split; auto. apply IN. exists d. split; auto. unfold dgetN. destruct UK as [-> _]. auto.
  - intros k vv I. apply IN in I as [v [I _]]. eauto.
Qed.

Section Shape.
Variables (p : dict) (n : nat) (missing : list (text * list pyval)).
Hypothesis PO : parameters_object p.
Hypothesis NS : get_num_series p = Some (S n).
Hypothesis TS : to_search p missing.
Hypothesis SE : says_enough p (S n).
Lemma shape l a : discover_parameters p = Ok l -> In a l ->
  exists c, combination missing c /\ written n a p c /\ map fst a = map fst p /\ is_complete a = Ok true.
Proof.
  intros H I. destruct (discover_cases p n missing NS TS _ H) as [[E ->]|[md [combs [Ne [M [C R]]]]]].
  - destruct I as [<-|[]]. exists []. split; [split; [intros k v X; discriminate|rewrite E; intros k vv []]|]. split; [intros k; reflexivity|]. split; auto.
    apply (enough_complete n p NS SE). intros k v I O ->. assert (U : unset p k) by (split; auto; apply dget_NoDup; auto; apply object_NoDup; auto). apply TS in U. rewrite E in U. destruct U.
  - destruct (combos_facts p missing (object_NoDup p PO) TS _ _ M C) as [S0 _]. apply mapM_Forall2 in R. apply In_nth_error in I as [i Hi]. destruct (Forall2_nth_r _ _ _ _ _ R Hi) as [c [Hc Fc]].
    destruct (S0 c (nth_error_In _ _ Hc)) as [K N]. destruct (attempt_fun_ok p n missing (object_NoDup p PO) NS TS _ _ N K Fc) as [G1 [G2 [W G3]]]. exists c. auto.
Qed.
Lemma chosen_is_attempt l ch p' : discover_parameters p = Ok l -> valid_choice ch -> written_down (S n) p ch p' -> In p' l.
Proof.
  intros H V (PO' & K1 & K2). destruct (each_once p n missing (object_NoDup p PO) NS TS l H) as [A _].
  assert (DM : forall ms : list (text * list pyval), NoDup (map fst ms) -> forall k, dget k (map (fun kv => (fst kv, ch (fst kv))) ms) = if text_in k (map fst ms) then Some (ch k) else None).
  { clear. induction ms as [|[k v] ms IH]; intros ND x; auto. inversion ND; subst. cbn [map fst dget]. unfold text_in. cbn [existsb]. fold (text_in x (map fst ms)). destruct (text_eqb x k) eqn:E; [apply text_eqb_eq in E; subst; reflexivity|]. cbn [orb]. apply IH; auto. }
  destruct (A (map (fun kv => (fst kv, ch (fst kv))) missing)) as (i & (a & Hi & F) & _).
  - destruct TS as (T1 & T2 & T3). split.
    + intros k v D. rewrite (DM _ T1) in D. destruct (text_in k (map fst missing)) eqn:E; [|discriminate]. injection D as <-. apply text_in_In in E. apply in_map_iff in E as ([k' vv] & E & I). cbn in E. subst. exists vv. split; auto. destruct (T3 _ _ I) as (d & J). eapply V; eauto.
    + intros k vv I. exists (ch k). rewrite (DM _ T1). apply In_keys, text_in_In in I. rewrite I. auto.
  - apply nth_error_In in Hi. destruct (shape l a H Hi) as (c & C & W & M & _).
    assert (Q : same_choice c (map (fun kv => (fst kv, ch (fst kv))) missing)).
    { apply (in_force_unique p n missing a); auto. destruct TS as (T1 & T2 & T3). split.
      + intros k v D. rewrite (DM _ T1) in D. destruct (text_in k (map fst missing)) eqn:E; [|discriminate]. injection D as <-. apply text_in_In in E. apply in_map_iff in E as ([k' vv] & E & I). cbn in E. subst. exists vv. split; auto. destruct (T3 _ _ I) as (d & J). eapply V; eauto.
      + intros k vv I. exists (ch k). rewrite (DM _ T1). apply In_keys, text_in_In in I. rewrite I. auto. }
    replace p' with a; auto. apply dict_same; [rewrite M; apply object_NoDup; auto|rewrite M, PO; symmetry; exact PO'|]. intros k. rewrite W, Q, (DM _ (proj1 TS)).
    destruct (text_in k (map fst missing)) eqn:E.
    + apply text_in_In in E. apply TS in E. symmetry. apply K2. auto.
    + symmetry. apply K1. intros U. apply TS in U. apply text_in_In in U. congruence.
Qed.
Lemma first_is_default l ch p' : discover_parameters p = Ok l -> the_defaults ch -> written_down (S n) p ch p' -> hd_error l = Some p'.
Proof.
  intros H V (PO' & K1 & K2). destruct (first_default p n missing (object_NoDup p PO) NS TS l H) as (a & HA & FD). rewrite HA. f_equal.
  assert (IA : In a l) by (destruct l; inversion HA; left; auto). destruct (shape l a H IA) as (c & C & W & M & _).
  apply dict_same; [rewrite M; apply object_NoDup; auto|rewrite M, PO; symmetry; exact PO'|]. intros k. rewrite W. destruct (dget k c) as [v|] eqn:D.
  - destruct (proj1 C _ _ D) as (vv & I & _). assert (U : unset p k) by (apply TS; eapply In_keys; eauto). rewrite (K2 k U). destruct TS as (T1 & T2 & T3). destruct (T3 _ _ I) as (d & J).
    rewrite (V _ _ _ J). destruct (FD k vv d 0%nat J U ltac:(lia)) as (l0 & E & N0). unfold dgetN in E. rewrite W, D in E. injection E as <-. cbn in N0. congruence.
  - symmetry. apply K1. intros U. apply TS in U. apply in_map_iff in U as ([k' vv] & E & I). cbn in E. subst. destruct (proj2 C _ _ I) as (v & X). congruence.
Qed.
Lemma attempt_written l a : discover_parameters p = Ok l -> In a l -> exists ch, valid_choice ch /\ written_down (S n) p ch a.
Proof.
  intros H I. destruct (shape l a H I) as (c & C & W & M & _).
  exists (fun k => match dget k c with Some v => v | None => match find (fun x => text_eqb (fst (fst x)) k) searchable with Some (_, v :: _, _) => v | _ => VNone end end). split.
  - intros k vv d S0. destruct (dget k c) as [v|] eqn:D.
    + destruct (proj1 C _ _ D) as (vv' & J & V). destruct TS as (_ & _ & T3). destruct (T3 _ _ J) as (d' & S1). replace vv with vv'; auto.
      apply searchable_facts in S0 as [S0 _]. apply searchable_facts in S1 as [S1 _]. congruence.
    + cbn in S0. repeat (destruct S0 as [S0|S0]; [injection S0 as <- <- <-; cbn; auto|]). destruct S0.
  - split; [unfold parameters_object; rewrite M; exact PO|]. split; intros k U; rewrite W.
    + destruct (dget k c) as [v|] eqn:D; auto. exfalso. apply U. destruct (proj1 C _ _ D) as (vv' & J & _). apply TS. eapply In_keys; eauto.
    + apply TS in U. apply in_map_iff in U as ([k' vv] & E & J). cbn in E. subst. destruct (proj2 C _ _ J) as (v & X). rewrite X. auto.
Qed.
End Shape.

(** ** Calls *)
Lemma handed_det l x y : handed l x -> handed l y -> x = y.
Proof. intros [(d & E & ->)|[N ->]] [(d' & E' & ->)|[N' ->]]; subst; auto; try congruence; try (cbn in *; congruence). Qed.
Lemma alone_copy e w a : bounded w -> alone e (make_ws_copy w) a = alone e w a.
Proof.
  intros B. rewrite !alone_full. destruct (copy_same w B) as (_ & R & C & E). assert (A : agree (counts a) True w (make_ws_copy w)) by (split; [intros _; auto|intros r c _; symmetry; apply E]).
  apply (full_agree a True e (or_introl I) w (make_ws_copy w) a A (inside_refl a)).
Qed.
Lemma first_good e w : forall l, (forall b, In b l -> raises (alone e w b)) \/
  exists i a dfs, nth_error l i = Some a /\ alone e w a = Ok dfs /\ forall j b, (j < i)%nat -> nth_error l j = Some b -> raises (alone e w b).
Proof.
  induction l as [|b l IH]; [left; intros b []|]. destruct (alone e w b) as [dfs|x] eqn:A.
  - right. exists 0%nat, b, dfs. split; auto. split; auto. intros. lia.
  - destruct IH as [IH|(i & a & dfs & N & O & B)].
    + left. intros y [<-|J]; [rewrite A; eexists; reflexivity|auto].
    + right. exists (S i), a, dfs. split; auto. split; auto. intros [|j] y L K; [injection K as <-; rewrite A; eexists; reflexivity|]. apply (B j); auto. lia.
Qed.

Section Calls.
Variables (e : env) (uni : text -> text) (json : text -> res dict) (st : store) (wb : wb_obj) (q : option text) (preserve : bool) (name : text) (i : nat).
Hypothesis WB : wb_ok st wb.
Hypothesis RES : resolves uni strip (names_of st wb) q name.
Hypothesis FS : first_such (fun i => title (sheet st i) = name) wb i.
Hypothesis BO : bounded (sheet st i).
Notation call safe u := (answered (snd (get_data_frames e uni json st wb u q safe preserve))).
Notation w0 := (if preserve then make_ws_copy (sheet st i) else sheet st i).
Lemma w0_bounded : bounded w0.
Proof. destruct preserve; auto. apply copy_bounded. Qed.
Lemma call_one safe u p : in_store st u -> object_of json st u p -> is_complete p = Ok true -> call safe u = (do dfs <- alone e w0 p; Ok (unwrap_result (DL (map DF dfs)))).
Proof. intros. rewrite alone_full. apply (call_full e uni json st wb q safe preserve name i WB RES FS u p); auto. Qed.
(** what the search does *)
Lemma call_search u p l : in_store st u -> object_of json st u p -> discover_parameters p = Ok l ->
  (exists k a dfs, nth_error l k = Some a /\ alone e w0 a = Ok dfs /\ (forall j b, (j < k)%nat -> nth_error l j = Some b -> raises (alone e w0 b)) /\ call false u = Ok (unwrap_result (DL (map DF dfs)))) \/
  ((forall b, In b l -> raises (alone e w0 b)) /\ exists x, call false u = Err x).
Proof.
  intros IS OB D. destruct (c23_sheet e uni json st wb u q false preserve WB IS name p RES OB) as (j & st2 & si & pid & F1 & PF & PT & PP & S1 & S2 & ->).
  rewrite (first_such_det _ _ _ _ F1 FS) in *. assert (SH : sheet st2 si = w0) by (destruct preserve; [rewrite PT by auto; auto|]; destruct (PF eq_refl) as [_ ->]; auto).
  rewrite <- PP in D. rewrite <- SH. assert (BW : bounded (sheet st2 si)) by (rewrite SH; apply w0_bounded).
  assert (AC : forall a, alone e (make_ws_copy (sheet st2 si)) a = alone e (sheet st2 si) a) by (intros a; apply alone_copy; auto).
  destruct (first_good e (sheet st2 si) l) as [R|(k & a & dfs & N & O & B)].
  - right. split; auto. destruct (Nat.eq_dec (List.length l) 1) as [L|L].
    + destruct l as [|a [|]]; try discriminate. destruct (scrape_one_out e false st2 si pid _ a S1 S2 D eq_refl) as [E _]. unfold outputs in E. destruct (R a (or_introl eq_refl)) as (x & X). rewrite alone_full in X.
      destruct (snd (scrape e false st2 si pid)) as [y|y]; [|exists y; reflexivity]. exfalso. cbn [bind] in E. rewrite X in E. discriminate E.
    + destruct (c19_all_raise e false st2 si pid l S1 D L) as (st' & E). { intros b J. rewrite AC. auto. } rewrite E. exists EOther. reflexivity.
  - left. exists k, a, dfs. split; auto. split; auto. split; auto. destruct (Nat.eq_dec (List.length l) 1) as [L|L].
    + destruct l as [|a' [|]]; try discriminate. destruct k as [|[|k]]; try discriminate. injection N as ->. destruct (scrape_one_out e false st2 si pid _ a S1 S2 D eq_refl) as [E _]. rewrite alone_full in O. rewrite O in E. unfold outputs in E.
      destruct (snd (scrape e false st2 si pid)) as [y|y]; cbn [bind] in E; [|discriminate E]. injection E as E. cbn [bind answered fst]. rewrite E. reflexivity.
    + destruct (c19_first e st2 si pid l k a dfs S1 D L N) as (st' & out & E & HA); [rewrite AC; auto|intros j0 b J K; rewrite AC; eauto|]. rewrite E. cbn [snd bind answered fst]. f_equal.
      apply (handed_det dfs); [apply handed_again; auto|apply handed_single].
Qed.

Variables (n : nat) (p : dict) (u : uparams).
Hypothesis LO : left_out n p.
Hypothesis US : in_store st u.
Hypothesis UO : object_of json st u p.
Lemma searched_list : exists m missing l, n = S m /\ parameters_object p /\ get_num_series p = Some (S m) /\ to_search p missing /\ says_enough p (S m) /\ discover_parameters p = Ok l.
Proof.
  destruct LO as (PO & SC & N & SE & U). destruct (missing_of p PO U) as (missing & TS). destruct (c16_total p missing n PO SC N TS SE) as (l & D). apply num_count in SC. destruct n as [|m]; [lia|].
  exists m, missing, l. auto 8.
Qed.
Lemma c89_defaults safe u' p' ch x : the_defaults ch -> written_down n p ch p' -> in_store st u' -> object_of json st u' p' -> call safe u' = Ok x -> call false u = Ok x.
Proof.
  intros TD WD IS OB H. destruct searched_list as (m & missing & l & -> & PO & NS & TS & SE & D).
  pose proof (first_is_default p m missing PO NS TS SE l ch p' D TD WD) as HD. assert (IP : In p' l) by (destruct l; inversion HD; left; auto).
  destruct (shape p m missing PO NS TS SE l p' D IP) as (c & _ & _ & _ & CO). rewrite (call_one safe u' p' IS OB CO) in H. apply bind_ok in H as (dfs & A & H).
  destruct (call_search u p l US UO D) as [(k & a & dfs' & N & O & B & ->)|[R _]].
  - destruct k as [|k].
    + destruct l as [|a' l]; [discriminate|]. cbn in N, HD. rewrite N in HD. injection HD as ->. rewrite A in O. injection O as <-. exact H.
    + destruct (B 0%nat p') as (y & Y); [lia|destruct l; [discriminate|exact HD]|congruence].
  - destruct (R p' IP) as (y & Y). congruence.
Qed.
Lemma c89_found x : call false u = Ok x -> exists ch p', valid_choice ch /\ written_down n p ch p' /\ forall safe u', in_store st u' -> object_of json st u' p' -> call safe u' = Ok x.
Proof.
  intros H. destruct searched_list as (m & missing & l & -> & PO & NS & TS & SE & D). destruct (call_search u p l US UO D) as [(k & a & dfs' & N & O & B & E)|[_ (y & Y)]]; [|congruence].
  apply nth_error_In in N. destruct (attempt_written p m missing PO NS TS SE l a D N) as (ch & V & WD). exists ch, a. split; auto. split; auto. intros safe u' IS OB.
  destruct (shape p m missing PO NS TS SE l a D N) as (c & _ & _ & _ & CO). rewrite (call_one safe u' a IS OB CO), O. cbn [bind]. congruence.
Qed.
Lemma c89_raises x safe u' p' ch : call false u = Err x -> valid_choice ch -> written_down n p ch p' -> in_store st u' -> object_of json st u' p' -> exists y, call safe u' = Err y.
Proof.
  intros H V WD IS OB. destruct searched_list as (m & missing & l & -> & PO & NS & TS & SE & D). destruct (call_search u p l US UO D) as [(k & a & dfs' & N & O & B & E)|[R _]]; [congruence|].
  pose proof (chosen_is_attempt p m missing PO NS TS SE l ch p' D V WD) as IP. destruct (shape p m missing PO NS TS SE l p' D IP) as (c & _ & _ & _ & CO). rewrite (call_one safe u' p' IS OB CO).
  destruct (R p' IP) as (y & ->). exists y. reflexivity.
Qed.
End Calls.
