(** Property C79: which strategies are tried, and in which order. *)
From Coq Require Import Permutation Sorted.
From Verif Require Import Base BaseFacts XlMethods ParseTime TimeIndex ScopeExact Helpers SpecHelpers Demo.
Local Open Scope Z_scope.

(** ** C79 The strategies of a module, in alphabetical order *)

Lemma insert_perm x l : Permutation (insert x l) (x :: l).
Proof.
  induction l as [|y l IH]; cbn [insert]; auto. destruct (text_leb (fst x) (fst y)); auto.
  eapply perm_trans; [apply perm_skip, IH|apply perm_swap].
Qed.
Lemma classes_perm ms : Permutation (get_parent_module_classes ms) (filter is_class ms).
Proof.
  unfold get_parent_module_classes. induction (filter is_class ms) as [|x l IH]; cbn [fold_right]; auto.
  eapply perm_trans; [apply insert_perm|apply perm_skip, IH].
Qed.
Lemma base_iff n : text_eqb (firstn 4 n) (T "Base") = true <-> exists r, n = T "Base" ++ r.
Proof.
  split.
  - intros H. apply text_eqb_eq in H. exists (skipn 4 n). rewrite <- H. symmetry. apply firstn_skipn.
  - intros [r ->]. reflexivity.
Qed.

(** exactly the strategies of the module *)
Theorem C79_strategies ms n : In n (get_strategies ms) <-> a_strategy ms n.
Proof.
  unfold get_strategies, get_strategies_names, a_strategy. rewrite in_map_iff. split.
  - intros ([m k] & <- & I). apply filter_In in I as [I C]. cbn [fst] in *. apply (Permutation_in _ (classes_perm ms)) in I. apply filter_In in I as [I K].
    apply andb_true_iff in C as [C C3]. apply andb_true_iff in C as [C1 C2]. apply negb_true_iff in C1, C2, C3. destruct k as [[|]|]; try discriminate.
    split; auto. split.
    + intros r E. assert (B := proj2 (base_iff m) (ex_intro _ r E)). congruence.
    + intros E. rewrite E in C2. discriminate.
  - intros (I & NB & NP). exists (n, Class false). split; auto. apply filter_In. split.
    + apply (Permutation_in _ (Permutation_sym (classes_perm ms))). apply filter_In. auto.
    + cbn [fst is_exception snd negb]. rewrite andb_true_r. apply andb_true_iff. split; apply negb_true_iff.
      * destruct (text_eqb _ _) eqn:E; auto. apply base_iff in E as [r E]. destruct (NB r E).
      * destruct (text_eqb _ _) eqn:E; auto. apply text_eqb_eq in E. destruct (NP E).
Qed.
Print Assumptions C79_strategies.

Lemma ch_of x y : code x = code y -> x = y.
Proof. rewrite !code_nat. intros E. apply Nat2Z.inj in E. rewrite <- (ascii_nat_embedding x), <- (ascii_nat_embedding y), E. reflexivity. Qed.
Lemma leb_earlier a b : text_leb a b = true -> a <> b -> earlier a b.
Proof.
  revert b. induction a as [|x a IH]; intros [|y b] H NE; try (contradiction (NE eq_refl)); try discriminate; [constructor|].
  cbn [text_leb] in H. destruct (code x <? code y) eqn:L.
  - apply el_here. rewrite !code_nat in L. lia.
  - cbn [orb] in H. apply andb_true_iff in H as [E H]. apply Z.eqb_eq, ch_of in E. subst y. apply el_more, IH; auto. congruence.
Qed.
Lemma leb_total a b : text_leb a b = false -> text_leb b a = true.
Proof.
  revert b. induction a as [|x a IH]; intros [|y b] H; auto; try discriminate. cbn [text_leb] in *.
  apply orb_false_iff in H as [H1 H2]. destruct (code x =? code y) eqn:E.
  - cbn [andb] in H2. rewrite (IH _ H2). apply orb_true_iff. right. lia.
  - apply orb_true_iff. left. lia.
Qed.
Lemma earlier_trans a b c : earlier a b -> earlier b c -> earlier a c.
Proof.
  intros H. revert c. induction H as [x t|x y s t L|x s t H IH]; intros c Q; inversion Q as [|u v s' t' L2|u s' t' Q2]; subst.
  - apply el_end.
  - apply el_end.
  - apply el_here. lia.
  - apply el_here. auto.
  - apply el_here. auto.
  - apply el_more. auto.
Qed.
Lemma earlier_irrefl a : ~ earlier a a.
Proof. induction a as [|x a IH]; intros H; inversion H; subst; [lia|auto]. Qed.
Definition by_name (x y : text * member) : Prop := earlier (fst x) (fst y).
Lemma insert_sorted x l : StronglySorted by_name l -> ~ In (fst x) (map fst l) -> StronglySorted by_name (insert x l).
Proof.
  induction 1 as [|y l SS IH F]; intros NI; cbn [insert]; [repeat constructor|]. cbn in NI.
  destruct (text_leb (fst x) (fst y)) eqn:L.
  - assert (XY : by_name x y) by (apply leb_earlier; auto). constructor; [constructor; auto|]. constructor; auto.
    eapply Forall_impl; [|exact F]. intros z Z. eapply earlier_trans; eauto.
  - constructor; [apply IH; tauto|]. apply Forall_forall. intros z I. apply (Permutation_in _ (insert_perm x l)) in I. destruct I as [<-|I].
    + apply leb_earlier; [apply leb_total; auto|]. tauto.
    + rewrite Forall_forall in F. auto.
Qed.
Lemma names_filter f (ms : list (text * member)) : NoDup (map fst ms) -> NoDup (map fst (filter f ms)).
Proof.
  induction ms as [|x ms IH]; cbn [filter map]; intros N; auto. inversion N; subst. destruct (f x); auto. cbn [map]. constructor; auto.
  intros I. apply in_map_iff in I as (y & E & I). apply filter_In in I as [I _]. match goal with H : ~ In _ _ |- _ => apply H end. rewrite <- E. apply in_map. auto.
Qed.
Lemma classes_sorted ms : NoDup (map fst ms) -> StronglySorted by_name (get_parent_module_classes ms).
Proof.
  intros N. apply (names_filter is_class) in N. unfold get_parent_module_classes. induction (filter is_class ms) as [|x l IH]; cbn [fold_right]; [constructor|].
  inversion N; subst. apply insert_sorted; auto. intros I. match goal with H : ~ In _ _ |- _ => apply H end.
  assert (P : Permutation (fold_right insert [] l) l).
  { clear. induction l as [|x l IH]; cbn [fold_right]; auto. eapply perm_trans; [apply insert_perm|apply perm_skip, IH]. }
  eapply Permutation_in; [apply Permutation_map, P|exact I].
Qed.
Lemma sorted_filter f l : StronglySorted by_name l -> StronglySorted by_name (filter f l).
Proof.
  induction 1 as [|x l SS IH F]; cbn [filter]; [constructor|]. destruct (f x); auto. constructor; auto.
  apply Forall_forall. intros y I. apply filter_In in I as [I _]. rewrite Forall_forall in F. auto.
Qed.

Lemma sorted_map l : StronglySorted by_name l -> StronglySorted earlier (map fst l).
Proof.
  intros SS.
  induction SS as [|x l SS IH F]; cbn [map]; constructor; auto. apply Forall_forall. intros y I. apply in_map_iff in I as (z & <- & I). rewrite Forall_forall in F. apply F, I.
Qed.

(** each of them once, in alphabetical order *)
Theorem C79_alphabetical ms : NoDup (map fst ms) -> StronglySorted earlier (get_strategies ms).
Proof.
  intros N. unfold get_strategies, get_strategies_names. pose proof (classes_sorted ms N) as SS. apply (sorted_filter (fun x =>
    negb (text_eqb (firstn 4 (fst x)) (T "Base")) && negb (text_eqb (fst x) (T "Parameters")) && negb (is_exception x))) in SS.
  apply sorted_map, SS.
Qed.
Print Assumptions C79_alphabetical.

Lemma sorted_same l l' : StronglySorted earlier l -> StronglySorted earlier l' -> (forall n, In n l <-> In n l') -> l = l'.
Proof.
  intros SS. revert l'. induction SS as [|x l SS IH F]; intros l' SL E.
  - destruct l' as [|y l']; auto. destruct (proj2 (E y)). left. auto.
  - destruct SL as [|y l' SL F'].
    + destruct (proj1 (E x)). left. auto.
    + rewrite Forall_forall in F, F'. assert (XY : x = y).
      { destruct (proj1 (E x) (or_introl eq_refl)) as [->|I]; auto. destruct (proj2 (E y) (or_introl eq_refl)) as [->|J]; auto.
        destruct (earlier_irrefl x). eapply earlier_trans; [apply F, J|apply F', I]. }
      subst y. f_equal. apply IH; auto. intros n. specialize (E n). cbn [In] in E. split; intros I.
      * destruct (proj1 E (or_intror I)) as [->|]; auto. destruct (earlier_irrefl n). auto.
      * destruct (proj2 E (or_intror I)) as [->|]; auto. destruct (earlier_irrefl n). auto.
Qed.
Lemma same_classes ms cs : has_classes ms cs -> NoDup (map fst cs) -> get_strategies ms = get_strategies cs.
Proof.
  intros [N E] NC. apply sorted_same; try (apply C79_alphabetical; auto).
  intros n. rewrite !C79_strategies. unfold a_strategy. rewrite E. tauto.
Qed.

(** neither the order of the classes in the file nor anything else the module has
    makes a difference *)
Theorem C79_order_free ms ms' : NoDup (map fst ms') -> has_classes ms ms' -> get_strategies ms = get_strategies ms'.
Proof. intros N H. apply same_classes; auto. Qed.
Print Assumptions C79_order_free.

Lemma distinct (l : list text) : (fix d l := match l with [] => true | x :: l' => negb (text_in x l') && d l' end) l = true -> NoDup l.
Proof.
  induction l as [|x l IH]; intros H; constructor; apply andb_true_iff in H as [H1 H2]; auto.
  apply negb_true_iff in H1. intros I. apply text_in_In in I. congruence.
Qed.

(** the strategies of the package: twelve ways of reading times, one scraper and
    two of ranges; there are no others for the index and the values but the
    combinations the modules add *)
Theorem C79_times ms : has_classes ms parse_time_classes -> get_strategies ms = map class_of strategies.
Proof. intros H. rewrite (same_classes _ _ H); [vm_compute; reflexivity|]. apply distinct. vm_compute. reflexivity. Qed.
Print Assumptions C79_times.
Theorem C79_others ms :
  (has_classes ms scraper_classes -> get_strategies ms = [T "ParameterDiscovery"]) /\
  (has_classes ms period_range_classes -> get_strategies ms = [T "GetPeriodRangesMultifrequency"; T "GetPeriodRangesSingleFrequency"]) /\
  (has_classes ms time_index_classes \/ has_classes ms data_classes -> get_strategies ms = []).
Proof.
  split; [|split]; [intros H|intros H|intros [H|H]]; rewrite (same_classes _ _ H); try (vm_compute; reflexivity); apply distinct; vm_compute; reflexivity.
Qed.
Print Assumptions C79_others.
(** with the modules it imports and a function *)
Example C79_case : has_classes ((T "pprint", Other) :: (T "arrow", Other) :: rev parse_time_classes ++ [(T "get_strategies", Other)]) parse_time_classes /\
  a_strategy parse_time_classes (T "ParseSimpleTime") /\ ~ a_strategy parse_time_classes (T "BasePEG") /\
  earlier (T "ParseComposedYear1") (T "ParseSimpleTime") /\ earlier (T "ParseComposedQuarter4") (T "ParseComposedQuarterYear1").
Proof.
  split; [|split; [|split; [|split]]].
  - split; [apply distinct; vm_compute; reflexivity|]. intros n b. cbn [In]. rewrite in_app_iff, <- in_rev. cbn [In]. intuition discriminate.
  - split; [do 7 right; left; reflexivity|]. split; intros; discriminate.
  - intros (_ & NB & _). apply (NB (T "PEG")). reflexivity.
  - do 5 apply el_more. apply el_here. cbn. lia.
  - do 20 apply el_more. apply el_here. cbn. lia.
Qed.

(** The time of a cell is read by the first one in that order that accepts it,
    when the one of the cell before does not: it is the one kept for the next
    cell. *)
Definition accepting (e : env) (tp : tparams) (v : pyval) (s : strat) : Prop :=
  accepts e tp s v = Ok true /\ forall s', earlier (class_of s') (class_of s) -> accepts e tp s' v = Ok false.
Theorem C79_first e tp v last next s r : parse_with_pool e tp None v last next = (Some s, r) ->
  accepting e tp v s /\ r = parse_time e tp s v last next.
Proof.
  unfold parse_with_pool. intros H.
  assert (G : forall pre pool, strategies = pre ++ pool -> (forall s', In s' pre -> accepts e tp s' v = Ok false) ->
    pool_loop e tp pool None v last next = (Some s, r) ->
    exists pre' pool', strategies = pre' ++ s :: pool' /\ (forall s', In s' pre' -> accepts e tp s' v = Ok false) /\ accepts e tp s v = Ok true /\ r = parse_time e tp s v last next).
  { intros pre pool. revert pre. induction pool as [|x pool IH]; intros pre E P Q; [discriminate|]. cbn [pool_loop] in Q.
    destruct (accepts e tp x v) as [[|]|] eqn:A; try discriminate.
    - injection Q as -> <-. exists pre, pool. auto.
    - apply (IH (pre ++ [x])); auto; [rewrite <- app_assoc; auto|]. intros s' I. apply in_app_or in I as [I|[<-|[]]]; auto. }
  destruct (G [] strategies eq_refl ltac:(intros s' []) H) as (pre & pool & E & P & A & R). split; auto. split; auto.
  intros s' EA. apply P. assert (I : In s' strategies) by (destruct s'; cbn; tauto). rewrite E in I. apply in_app_or in I as [I|[<-|I]]; auto.
  - destruct (earlier_irrefl _ EA).
  - exfalso. assert (SS : StronglySorted earlier (map class_of strategies)).
    { rewrite <- (C79_times parse_time_classes); [apply C79_alphabetical; apply distinct; vm_compute; reflexivity|]. split; [apply distinct; vm_compute; reflexivity|tauto]. }
    rewrite E, map_app in SS. assert (S2 : StronglySorted earlier (map class_of (s :: pool))).
    { clear - SS. induction (map class_of pre); auto. inversion SS; auto. }
    inversion S2 as [|? ? _ F]; subst. rewrite Forall_forall in F. apply (earlier_irrefl (class_of s)). eapply earlier_trans; [apply F, in_map, I|exact EA].
Qed.
Print Assumptions C79_first.
Theorem C79_found e tp v last next s : accepting e tp v s -> parse_with_pool e tp None v last next = (Some s, parse_time e tp s v last next).
Proof.
  intros [A B]. assert (SS : StronglySorted earlier (map class_of strategies)).
  { rewrite <- (C79_times parse_time_classes); [apply C79_alphabetical; apply distinct; vm_compute; reflexivity|]. split; [apply distinct; vm_compute; reflexivity|tauto]. }
  assert (I : In s strategies) by (destruct s; cbn; tauto). unfold parse_with_pool. revert SS I.
  induction strategies as [|x pool IH]; intros SS I; [destruct I|]. cbn [pool_loop]. inversion SS as [|? ? S2 F]; subst. destruct I as [->|I]; [rewrite A; auto|].
  rewrite B; auto. rewrite Forall_forall in F. apply F, in_map, I.
Qed.
Print Assumptions C79_found.
(** three strategies accept "III.1963": the second one of quarters reads it *)
Example C79_first_case : let tp := mktp true (T "Q") in
  accepting demo_env tp (VStr (T "1986 1o trim.")) SQuarter1 /\ accepting demo_env tp (VStr (T "III.1963")) SQuarter2 /\
  accepts demo_env tp SQuarter3 (VStr (T "III.1963")) = Ok true /\ accepts demo_env tp SQuarter4 (VStr (T "III.1963")) = Ok true.
Proof.
  assert (R : forall s s', earlier (class_of s') (class_of s) -> text_leb (class_of s) (class_of s') = false).
  { intros s s' H. destruct (text_leb _ _) eqn:L; auto. destruct (earlier_irrefl (class_of s')). destruct (list_eq_dec ascii_dec (class_of s) (class_of s')) as [E|E]; [rewrite E in H; auto|].
    eapply earlier_trans; [exact H|apply leb_earlier; auto]. }
  split; [|split; [|split; vm_compute; reflexivity]]; (split; [vm_compute; reflexivity|]); intros s' H; apply R in H; destruct s'; try (vm_compute; reflexivity); vm_compute in H; discriminate.
Qed.
