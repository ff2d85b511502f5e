(** Proofs of C16 - C18: the attempts made from an incomplete Parameters. *)
From Coq Require Import Permutation ZifyBool ZifyNat ZifyN.
From Verif Require Import Base BaseFacts Coord XlMethods Params BuildInv Attempts SpecParams SpecAttempts ParamsProofs AttemptsFacts.
Local Open Scope Z_scope.

(** ** the table of searchable parameters against the model's *)
Lemma searchable_facts k vv d : In (k, vv, d) searchable ->
  vget k VALID_VALUES = Some vv /\ dget k DEFAULT_VALUES = Some d /\ In d vv /\ NoDup vv /\ vv <> [] /\
  none_in vv = false /\ (forall v, In v vv -> is_list v = false /\ is_none v = false /\ valid_param_value v vv = true) /\
  (forall v, In v vv -> py_eq v d = true -> v = d) /\ py_eq d d = true /\
  In k LIKELINESS_ORDER /\ text_eqb k n_context = false /\ text_eqb k n_headers_coord = false /\
  text_eqb k n_time_header = false /\ text_eqb k n_missing_value = false /\ text_in k OPTIONAL = false.
Proof.
  intros H. cbn in H.
  repeat (destruct H as [H|H]; [inversion H; subst; clear H|]); [..|destruct H];
  (split; [reflexivity|]; split; [reflexivity|]; split; [cbn; intuition|];
   split; [repeat constructor; cbn; intuition discriminate|]; split; [discriminate|]; split; [reflexivity|];
   split; [intros v Hv; cbn in Hv; repeat (destruct Hv as [<-|Hv]; [repeat split; reflexivity|]); destruct Hv|];
   split; [intros v Hv E; cbn in Hv; repeat (destruct Hv as [<-|Hv]; [first [reflexivity|discriminate E]|]); destruct Hv|];
   split; [reflexivity|]; split; [cbn; intuition|]; repeat split; reflexivity).
Qed.

Lemma optional_same : optional_names = OPTIONAL.
Proof. reflexivity. Qed.
Lemma optional_valid k vv : vget k VALID_VALUES = Some vv -> In k optional_names -> none_in vv = true.
Proof.
  intros H I. cbn in I. repeat (destruct I as [<-|I]; [inversion H; reflexivity|]). destruct I.
Qed.

Lemma is_none_eq v : is_none v = true <-> v = VNone.
Proof. destruct v; cbn; split; congruence. Qed.

Section Search.
Variable p : dict.
Variable n : nat.
Variable missing : list (text * list pyval).
Hypothesis ND : NoDup (map fst p).
Hypothesis NS : get_num_series p = Some (S n).
Hypothesis TS : to_search p missing.

Lemma missing_iff k : In k (get_missings p) <-> In k (map fst missing).
Proof.
  destruct TS as [_ [A B]]. rewrite A. unfold get_missings. rewrite filter_In. unfold is_missing. split.
  - intros [I H]. apply andb_true_iff in H as [H1 H2]. apply is_none_eq in H1.
    unfold dgetN in H1. destruct (dget k p) as [v|] eqn:D.
    + subst v. split; auto. intros O. destruct (vget k VALID_VALUES) as [vv|] eqn:V; [|discriminate].
      rewrite (optional_valid _ _ V O) in H2. discriminate.
    + apply dget_None in D. contradiction.
  - intros U. assert (I : In k (map fst missing)) by (apply A; auto).
    apply in_map_iff in I as [[k' vv] [E I]]. cbn in E. subst k'. destruct (B _ _ I) as [d S].
    destruct (searchable_facts _ _ _ S) as [V [_ [_ [_ [_ [Nn _]]]]]].
    destruct U as [U _]. split; [apply dget_In, In_keys in U; auto|].
    unfold dgetN. rewrite U, V, Nn. reflexivity.
Qed.
Lemma missing_value_In k vv : In (k, vv) missing -> exists d, In (k, vv, d) searchable.
Proof. apply TS. Qed.

Lemma names_NoDup : NoDup (get_missings p).
Proof. unfold get_missings. apply NoDup_filter. auto. Qed.

Lemma mapM_total {A B} (f : A -> res B) l : (forall a, In a l -> exists b, f a = Ok b) -> exists bs, mapM f l = Ok bs.
Proof.
  induction l as [|a l IH]; cbn; intros H; eauto.
  destruct (H a (or_introl eq_refl)) as [b ->]. cbn [bind]. destruct IH as [bs ->]; auto. cbn. eauto.
Qed.

Lemma md_spec : exists md, missings_dict (get_missings p) = Ok md /\ NoDup (map fst md) /\
  map fst md = get_missings p /\ (forall k vv, In (k, vv) md <-> In (k, vv) missing) /\ opened md = md.
Proof.
  assert (G : forall names, (forall k, In k names -> exists vv d, In (k, vv, d) searchable) ->
    exists md, missings_dict names = Ok md /\ map fst md = names /\
      (forall k vv, In (k, vv) md -> exists d, In (k, vv, d) searchable)).
  { clear. induction names as [|k names IH]; intros H; [exists []; repeat split; intros ? ? []|].
    destruct (H k (or_introl eq_refl)) as [vv [d S]]. destruct IH as [md [E [F G]]]; [intros; apply H; right; auto|].
    exists ((k, vv) :: md). unfold missings_dict in *. cbn [mapM]. unfold valid_values at 1.
    rewrite (proj1 (searchable_facts _ _ _ S)). cbn [bind]. rewrite E. cbn [bind map fst]. rewrite F.
    repeat split; auto. intros k' vv' [I|I]; [inversion I; subst; eauto|eauto]. }
  destruct (G (get_missings p)) as [md [E [F M]]].
  - intros k I. apply missing_iff in I. apply in_map_iff in I as [[k' vv] [Ek I]]. cbn in Ek. subst.
    destruct (missing_value_In _ _ I) as [d S]. eauto.
  - exists md. assert (N : NoDup (map fst md)) by (rewrite F; apply names_NoDup).
    assert (U : forall k vv vv', (exists d, In (k, vv, d) searchable) -> (exists d, In (k, vv', d) searchable) -> vv = vv').
    { intros k vv vv' [d S] [d' S']. apply searchable_facts in S as [S _]. apply searchable_facts in S' as [S' _]. congruence. }
    repeat split; auto.
    + intros I. assert (J : In k (map fst missing)) by (apply missing_iff; rewrite <- F; apply In_keys in I; auto).
      apply in_map_iff in J as [[k' vv'] [Ek J]]. cbn in Ek. subst.
      rewrite (U _ _ _ (M _ _ I) (missing_value_In _ _ J)). auto.
    + intros I. assert (J : In k (map fst md)) by (rewrite F; apply missing_iff; apply In_keys in I; auto).
      apply in_map_iff in J as [[k' vv'] [Ek J]]. cbn in Ek. subst.
      rewrite (U _ _ _ (missing_value_In _ _ I) (M _ _ J)). auto.
    + clear -M. unfold opened. induction md as [|[k vv] md IH]; cbn; auto.
      rewrite IH by (intros; apply M; right; auto). f_equal. f_equal.
      destruct (M k vv (or_introl eq_refl)) as [d S]. apply searchable_facts in S. destruct vv; auto. intuition congruence.
Qed.

(** ** writing a combination *)
Definition written (q p : dict) (comb : dict) : Prop :=
  forall k, dget k q = match dget k comb with
                       | Some v => Some (VList (repeat v (S n)))
                       | None => dget k p
                       end.

Lemma set_one q k vv d v : get_num_series q = Some (S n) -> In (k, vv, d) searchable -> In v vv ->
  set_item q k v = (dset k (VList (repeat v (S n))) q, Ok tt).
Proof.
  intros N S I. destruct (searchable_facts _ _ _ S) as [V [_ [_ [_ [_ [Nn [F [_ [_ [_ [T1 [T2 [T3 [T4 _]]]]]]]]]]]]]].
  destruct (F v I) as [F1 [F2 F3]].
  unfold set_item. rewrite T1, T2. cbn [andb]. unfold set_general. rewrite N.
  assert (E : valid_param_list k v (Some (Datatypes.S n)) = Ok false) by (destruct v; try reflexivity; discriminate).
  rewrite E. cbn [bind]. unfold valid_values. rewrite V. cbn [bind]. rewrite F3. cbn [negb].
  unfold apply_to_all. rewrite T3, T4. cbn [bind]. unfold apply_to_all_gen. rewrite F2. cbn [andb].
  destruct v; try reflexivity. discriminate.
Qed.

Lemma dset_In_inv k v q x y : In (x, y) (dset k v q) -> (x = k /\ y = v) \/ In (x, y) q.
Proof.
  induction q as [|[a b] q IH]; cbn.
  - intros [H|[]]. inversion H; auto.
  - destruct (text_eqb k a) eqn:E; cbn; intros [H|H]; auto.
    + apply text_eqb_eq in E. inversion H; subst. auto.
    + destruct (IH H); auto.
Qed.
Lemma set_num q k v : k <> n_missing_value -> dget k q = Some VNone -> NoDup (map fst q) -> get_num_series q = Some (S n) ->
  get_num_series (dset k (VList (repeat v (S n))) q) = Some (S n).
Proof.
  intros M D Nq N. destruct (num_series_max _ _ N) as [A [k0 [l0 [I [M0 L]]]]]. apply num_series_eq.
  - intros x l J Mx. apply dset_In_inv in J as [[-> J]|J]; [|eauto]. injection J as ->. change (List.length (repeat v (S n)) <= S n)%nat. rewrite repeat_length. lia.
  - exists k, (repeat v (S n)). split; [|split; auto; apply repeat_length]. apply dget_In, dget_dset_same.
Qed.

Lemma set_items_spec comb : forall q, NoDup (map fst q) -> get_num_series q = Some (S n) -> NoDup (map fst comb) ->
  (forall k v, In (k, v) comb -> dget k q = Some VNone /\ exists vv d, In (k, vv, d) searchable /\ In v vv) ->
  exists q', set_items q comb = Ok q' /\ get_num_series q' = Some (S n) /\ map fst q' = map fst q /\ written q' q comb.
Proof.
  induction comb as [|[k v] comb IH]; cbn [set_items]; intros q Nq N Nc H.
  - exists q. repeat split; auto.
  - destruct (H k v (or_introl eq_refl)) as [D [vv [d [S I]]]].
    rewrite (set_one q k vv d v N S I). inversion Nc as [|? ? Nk Nc']; subst.
    assert (M : k <> n_missing_value).
    { apply searchable_facts in S. intros ->. intuition discriminate. }
    destruct (IH (dset k (VList (repeat v (Datatypes.S n))) q)) as [q' [E [F [G W]]]]; auto.
    + apply dset_NoDup; auto.
    + apply set_num; auto.
    + intros k' v' J. destruct (H k' v' (or_intror J)) as [D' R]. split; auto.
      rewrite dget_dset_other; auto. intros ->. apply In_keys in J. contradiction.
    + exists q'. split; auto. split; auto. split.
      * rewrite G. apply dset_keys. apply dget_In, In_keys in D. auto.
      * intros x. rewrite W. cbn [dget]. destruct (text_eqb x k) eqn:E1.
        -- apply text_eqb_eq in E1. subst x. destruct (dget k comb) as [w|] eqn:E2.
           ++ apply dget_In, In_keys in E2. contradiction.
           ++ apply dget_dset_same.
        -- destruct (dget x comb); auto. apply dget_dset_other. intros ->. rewrite text_eqb_refl in E1. discriminate.
Qed.

(** ** the attempts *)
Definition attempt_of (p comb a : dict) : Prop :=
  get_num_series a = Some (S n) /\ map fst a = map fst p /\ written a p comb /\ is_complete a = Ok true.

Lemma comb_unset comb k v : NoDup (map fst comb) -> combination missing comb -> In (k, v) comb ->
  dget k p = Some VNone /\ exists vv d, In (k, vv, d) searchable /\ In v vv.
Proof.
  intros N [A B] I. apply dget_NoDup in I; auto. destruct (A _ _ I) as [vv [J K]]. split.
  - apply In_keys in J. apply TS in J. apply J.
  - destruct (missing_value_In _ _ J) as [d S]. eauto.
Qed.

Definition attempt_fun (comb : dict) : res dict :=
  do np <- set_items p comb; do c <- is_complete np; do _ <- assert_ c; Ok np.

Lemma attempt_fun_ok comb a : NoDup (map fst comb) -> combination missing comb -> attempt_fun comb = Ok a -> attempt_of p comb a.
Proof.
  intros N C H. destruct (set_items_spec comb p ND NS N) as [q [E [F [G W]]]]; [intros k0 v0 I0; apply (comb_unset comb); auto|].
  unfold attempt_fun in H. rewrite E in H. cbn [bind] in H. apply bind_ok in H as [c [Hc H]].
  apply bind_ok in H as [u [Hu H]]. apply assert_ok' in Hu. subst c. inversion H; subst. repeat split; auto.
Qed.

Lemma discover_cases l : discover_parameters p = Ok l ->
  (missing = [] /\ l = [p]) \/
  (exists md combs, missing <> [] /\ missings_dict (get_missings p) = Ok md /\
     param_combinations (List.length md) md LIKELINESS_ORDER = Ok combs /\ mapM attempt_fun combs = Ok l).
Proof.
  intros H. unfold discover_parameters in H. apply bind_ok in H as [c [Hc H]].
  assert (G : generate_attempts (get_missings p) p = Ok l ->
     (missing = [] /\ l = [p]) \/
     (exists md combs, missing <> [] /\ missings_dict (get_missings p) = Ok md /\
     param_combinations (List.length md) md LIKELINESS_ORDER = Ok combs /\ mapM attempt_fun combs = Ok l)).
  { clear H. intros H. unfold generate_attempts in H. pose proof missing_iff as MI.
    destruct (get_missings p) as [|k names] eqn:E.
    - left. inversion H; subst. split; auto. destruct missing as [|[k vv] m]; auto. exfalso.
      destruct (MI k) as [_ X]. apply X. left. auto.
    - right. apply bind_ok in H as [md [Hm H]]. apply bind_ok in H as [combs [Hcs H]].
      exists md, combs. repeat split; auto. intros ->. destruct (MI k) as [X _]. apply X. left. auto. }
  destruct c; [|auto]. left. inversion H; subst. split; auto.
  destruct missing as [|[k vv] m] eqn:E; auto. exfalso.
  destruct TS as [_ [A _]]. destruct (A k) as [X _]. destruct X as [U O]; [left; auto|].
  unfold is_complete in Hc. rewrite NS in Hc. apply dget_In in U. revert U Hc. clear -O. generalize p at 2. intros p0. generalize p as q0.
  induction q0 as [|[k' v'] q IH]; intros U; [destruct U|]. cbn [all_complete]. intros Hc. apply bind_ok in Hc as [b [Hb Hc]].
  destruct b; [|discriminate]. destruct U as [U|U].
  - inversion U; subst. unfold complete_one in Hb. rewrite optional_same in O.
    destruct (text_in k OPTIONAL) eqn:T; [apply text_in_In in T; contradiction|]. discriminate.
  - apply IH; auto.
Qed.

Lemma combos_facts md combs : missings_dict (get_missings p) = Ok md ->
  param_combinations (List.length md) md LIKELINESS_ORDER = Ok combs ->
  (forall c, In c combs -> combination missing c /\ NoDup (map fst c)) /\
  (forall c, combination missing c -> exists c', In c' combs /\ same_choice c' c) /\
  apart combs /\
  (exists c, hd_error combs = Some c /\ forall k v vv d, dget k c = Some v -> In (k, vv, d) searchable -> v = d).
Proof.
  intros M C. destruct md_spec as [md' [E [N [F [I O]]]]]. rewrite M in E. inversion E; subst md'; clear E.
  destruct (combinations_cover _ _ _ _ eq_refl N C) as [S Cm Fi Ne]. rewrite O in *.
  assert (Q : forall c, combination md c <-> combination missing c).
  { intros c. unfold combination. split; intros [A B]; split.
    - intros k v H. destruct (A _ _ H) as [vv [J K]]. exists vv. split; auto. apply I; auto.
    - intros k vv H. apply (B k vv). apply I; auto.
    - intros k v H. destruct (A _ _ H) as [vv [J K]]. exists vv. split; auto. apply I; auto.
    - intros k vv H. apply (B k vv). apply I; auto. }
  split; [|split; [|split]].
  - intros c H. split; [apply Q|]; apply S; auto.
  - intros c H. apply Cm, Q; auto.
  - eapply combinations_apart; eauto. intros k vv J. apply I in J. destruct (missing_value_In _ _ J) as [d K].
    apply searchable_facts in K. apply K.
  - destruct combs as [|c combs]; [congruence|]. exists c. split; auto. intros k v vv d D K.
    destruct (Fi c eq_refl k v D) as [d' [D' E]].
    destruct (S c (or_introl eq_refl)) as [[A _] _]. destruct (A _ _ D) as [vv' [J Iv]].
    apply I in J. destruct (missing_value_In _ _ J) as [d'' K'].
    destruct (searchable_facts _ _ _ K') as [V' [D'' [_ [_ [_ [_ [_ [U _]]]]]]]].
    destruct (searchable_facts _ _ _ K) as [V [D3 _]].
    assert (d' = d) by congruence. assert (d'' = d) by congruence. subst. auto.
Qed.

Lemma written_in_force a c : written a p c -> in_force a c (S n).
Proof.
  intros W k v i D L. specialize (W k). rewrite D in W. exists (repeat v (Datatypes.S n)). split.
  - unfold dgetN. rewrite W. auto.
  - rewrite nth_error_repeat; auto.
Qed.
Lemma in_force_unique a c c' : written a p c -> combination missing c -> combination missing c' -> in_force a c' (S n) -> same_choice c c'.
Proof.
  intros W [A B] [A' B'] F k. specialize (W k).
  destruct (dget k c) as [v|] eqn:D; destruct (dget k c') as [v'|] eqn:D'; auto.
  - destruct (F k v' 0%nat D' ltac:(lia)) as [l [L N]]. unfold dgetN in L. rewrite W in L. inversion L; subst.
    cbn in N. auto.
  - destruct (A _ _ D) as [vv [J _]]. destruct (B' _ _ J). congruence.
  - destruct (A' _ _ D') as [vv [J _]]. destruct (B _ _ J). congruence.
Qed.

Lemma Forall2_nth_l {A B} (R : A -> B -> Prop) l l' i a : Forall2 R l l' -> nth_error l i = Some a ->
  exists b, nth_error l' i = Some b /\ R a b.
Proof. intros H. revert i. induction H; intros [|i] E; cbn in *; try discriminate; eauto. inversion E; subst. eauto. Qed.
Lemma Forall2_nth_r {A B} (R : A -> B -> Prop) l l' i b : Forall2 R l l' -> nth_error l' i = Some b ->
  exists a, nth_error l i = Some a /\ R a b.
Proof. intros H. revert i. induction H; intros [|i] E; cbn in *; try discriminate; eauto. inversion E; subst. eauto. Qed.
Lemma mapM_Forall2 {A B} (f : A -> res B) l l' : mapM f l = Ok l' -> Forall2 (fun a b => f a = Ok b) l l'.
Proof.
  revert l'. induction l as [|a l IH]; cbn; intros l' H; [inversion H; constructor|].
  apply bind_ok in H as [b [Hb H]]. apply bind_ok in H as [bs [Hbs H]]. inversion H; subst. constructor; auto.
Qed.

Lemma empty_combination c : missing = [] -> combination missing c -> same_choice [] c.
Proof.
  intros E [A _] k. cbn. destruct (dget k c) eqn:D; auto. destruct (A _ _ D) as [vv [J _]]. rewrite E in J. destruct J.
Qed.

Lemma each_once l : discover_parameters p = Ok l ->
  (forall c, combination missing c -> exists! i, exists a, nth_error l i = Some a /\ in_force a c (S n)) /\
  (forall a, In a l -> exists c, combination missing c /\ in_force a c (S n)).
Proof.
  intros H. destruct (discover_cases _ H) as [[E ->]|[md [combs [Ne [M [C R]]]]]].
  - split.
    + intros c K. exists 0%nat. split.
      * exists p. split; auto. intros k v i D. rewrite <- (empty_combination _ E K) in D. discriminate.
      * intros [|i] [a [Ha _]]; auto. destruct i; discriminate.
    + intros a [<-|[]]. exists []. split; [|intros k v i D; discriminate].
      split; [discriminate|]. rewrite E. intros k vv [].
  - destruct (combos_facts _ _ M C) as [S [Cm [Ap _]]]. apply mapM_Forall2 in R. split.
    + intros c K. destruct (Cm _ K) as [c' [I Q]]. apply In_nth_error in I as [i Hi].
      destruct (S c' (nth_error_In _ _ Hi)) as [K' N'].
      destruct (Forall2_nth_l _ _ _ _ _ R Hi) as [a [Ha Fa]].
      destruct (attempt_fun_ok _ _ N' K' Fa) as [G1 [G2 [W G3]]].
      exists i. split.
      * exists a. split; auto. intros k v j D L. rewrite <- Q in D. eapply written_in_force; eauto.
      * intros j [b [Hb Fb]]. destruct (Forall2_nth_r _ _ _ _ _ R Hb) as [c'' [Hj Fc]].
        destruct (S c'' (nth_error_In _ _ Hj)) as [K'' N''].
        destruct (attempt_fun_ok _ _ N'' K'' Fc) as [G1' [G2' [W' G3']]].
        apply (Ap _ _ _ _ Hi Hj). intros k. rewrite Q. symmetry. apply (in_force_unique b); auto.
    + intros a I. apply In_nth_error in I as [i Hi]. destruct (Forall2_nth_r _ _ _ _ _ R Hi) as [c [Hc Fc]].
      destruct (S c (nth_error_In _ _ Hc)) as [K N]. destruct (attempt_fun_ok _ _ N K Fc) as [G1 [G2 [W G3]]].
      exists c. split; auto. apply written_in_force; auto.
Qed.

Lemma first_default l : discover_parameters p = Ok l ->
  exists a, hd_error l = Some a /\ forall k vv d i, In (k, vv, d) searchable -> unset p k -> (i < S n)%nat -> series_value a k i d.
Proof.
  intros H. destruct (discover_cases _ H) as [[E ->]|[md [combs [Ne [M [C R]]]]]].
  - exists p. split; auto. intros k vv d i S U. apply TS in U. rewrite E in U. destruct U.
  - destruct (combos_facts _ _ M C) as [S [_ [_ [c [Hc Fi]]]]]. apply mapM_Forall2 in R.
    destruct combs as [|c0 combs]; [discriminate|]. inversion Hc; subst c0. inversion R as [|? a ? ? Fa ?]; subst.
    destruct (S c (or_introl eq_refl)) as [K N]. destruct (attempt_fun_ok _ _ N K Fa) as [G1 [G2 [W G3]]].
    exists a. split; auto. intros k vv d i Sk U L.
    assert (exists v, dget k c = Some v) as [v Hv].
    { apply TS in U. apply in_map_iff in U as [[k' vv'] [Ek U]]. cbn in Ek. subst. apply (proj2 K _ _ U). }
    rewrite <- (Fi _ _ _ _ Hv Sk). eapply written_in_force; eauto.
Qed.

Lemma complete_set a : get_num_series a = Some (S n) -> is_complete a = Ok true ->
  forall k v, In (k, v) a -> ~ In k optional_names -> v <> VNone.
Proof.
  intros N. unfold is_complete. rewrite N. generalize a at 2 3 as l.
  induction l as [|[k v] l IH]; cbn [all_complete]; intros H k' v' I O; [destruct I|].
  apply bind_ok in H as [b [Hb H]]. destruct b; [|discriminate]. destruct I as [I|I]; [|eapply IH; eauto].
  inversion I; subst. intros ->. unfold complete_one in Hb. rewrite optional_same in O.
  destruct (text_in k' OPTIONAL) eqn:T; [apply text_in_In in T; contradiction|]. discriminate.
Qed.
Lemma enough_complete a : get_num_series a = Some (S n) -> says_enough a (S n) ->
  (forall k v, In (k, v) a -> ~ In k optional_names -> v <> VNone) -> is_complete a = Ok true.
Proof.
  intros N. unfold is_complete, says_enough. rewrite N. generalize a at 1 2 4 as l.
  induction l as [|[k v] l IH]; cbn [all_complete]; intros E S; auto.
  assert (B : complete_one a (Some (Datatypes.S n)) (k, v) = Ok true).
  { unfold complete_one. destruct (text_in k OPTIONAL) eqn:T; auto.
    assert (O : ~ In k optional_names).
    { rewrite optional_same. intros I. apply text_in_In in I. congruence. }
    destruct (E k v (or_introl eq_refl) O (S k v (or_introl eq_refl) O)) as [l' [-> L]].
    cbn [is_none py_len bind]. change (pname "time_header_coord") with n_time_header in L.
    destruct (text_eqb k n_time_header).
    - f_equal. apply negb_true_iff, Nat.ltb_ge. auto.
    - f_equal. apply Nat.eqb_eq. auto. }
  rewrite B. cbn [bind]. apply IH; intros; [apply E|apply (S k0 v0)]; auto; right; auto.
Qed.

Lemma attempts_keep l a : discover_parameters p = Ok l -> In a l ->
  (forall k, ~ unset p k -> dget k a = dget k p) /\ (forall k, ~ unset a k) /\ series_count a (S n).
Proof.
  intros H I. destruct (discover_cases _ H) as [[E ->]|[md [combs [Ne [M [C R]]]]]].
  - destruct I as [<-|[]]. repeat split; auto; [|apply count_num; auto|apply count_num; auto].
    intros k U. apply TS in U. rewrite E in U. destruct U.
  - destruct (combos_facts _ _ M C) as [S _]. apply mapM_Forall2 in R.
    apply In_nth_error in I as [i Hi]. destruct (Forall2_nth_r _ _ _ _ _ R Hi) as [c [Hc Fc]].
    destruct (S c (nth_error_In _ _ Hc)) as [K N]. destruct (attempt_fun_ok _ _ N K Fc) as [G1 [G2 [W G3]]].
    split; [|split; [|apply count_num; auto]].
    + intros k U. rewrite W. destruct (dget k c) as [v|] eqn:D; auto. exfalso. apply U.
      destruct (proj1 K _ _ D) as [vv [J _]]. apply TS. apply In_keys in J. auto.
    + intros k [U O]. apply dget_In in U. apply (complete_set _ G1 G3 _ _ U O). auto.
Qed.

Lemma search_total : says_enough p (S n) -> exists l, discover_parameters p = Ok l.
Proof.
  intros E. unfold discover_parameters.
  assert (Cp : exists b, is_complete p = Ok b).
  { unfold is_complete. rewrite NS. revert E. unfold says_enough. generalize p at 1 3 as l. clear.
    induction l as [|[k v] l IH]; cbn [all_complete]; intros E; eauto.
    assert (B : exists b, complete_one p (Some (S n)) (k, v) = Ok b).
    { unfold complete_one. destruct (text_in k OPTIONAL) eqn:T; eauto.
      destruct (is_none v) eqn:Nv; eauto.
      destruct (E k v (or_introl eq_refl)) as [l' [-> L]].
      - rewrite optional_same. intros I. apply text_in_In in I. congruence.
      - intros ->. discriminate.
      - cbn [py_len bind]. destruct (text_eqb k n_time_header); eauto. }
    destruct B as [b ->]. cbn [bind]. destruct b; eauto. apply IH. intros; apply (E k0); auto. right; auto. }
  destruct Cp as [b ->]. cbn [bind]. destruct b; eauto.
  unfold generate_attempts. destruct (get_missings p) as [|k names] eqn:G; eauto.
  destruct md_spec as [md [M [N [F [I O]]]]]. rewrite <- G. rewrite M. cbn [bind].
  destruct (combinations_total _ md LIKELINESS_ORDER eq_refl) as [combs C]; auto.
  - intros L. destruct md; [|discriminate]. cbn in F. congruence.
  - intros x J. apply in_map_iff in J as [[k' vv] [Ek J]]. cbn in Ek. subst. apply I in J.
    destruct (missing_value_In _ _ J) as [d S]. apply searchable_facts in S. intuition.
  - intros x vv J. apply I in J. destruct (missing_value_In _ _ J) as [d S]. exists d. apply searchable_facts in S. intuition.
  - rewrite C. cbn [bind]. apply mapM_total. intros c J.
    destruct (combos_facts _ _ M C) as [S _]. destruct (S c J) as [K Nc].
    destruct (set_items_spec c p ND NS Nc) as [q [Eq [Fq [Gq W]]]]; [intros k0 v0 I0; apply (comb_unset c); auto|].
    rewrite Eq. cbn [bind].
    assert (Nq : NoDup (map fst q)) by (rewrite Gq; auto).
    rewrite (enough_complete q Fq); [cbn; eauto| |].
    + intros x v J' Ox Nv. apply dget_NoDup in J'; auto. rewrite W in J'. destruct (dget x c) as [w|] eqn:D.
      * inversion J'; subst. exists (repeat w (Datatypes.S n)). split; auto.
        rewrite repeat_length. destruct (text_eqb x (pname "time_header_coord")); auto. lia.
      * apply dget_In in J'. apply (E x v J' Ox Nv).
    + intros x v J' Ox ->. apply dget_NoDup in J'; auto. rewrite W in J'. destruct (dget x c) as [w|] eqn:D; [discriminate|].
      assert (U : unset p x) by (split; auto). apply TS in U. apply in_map_iff in U as [[x' vv] [Ex U]]. cbn in Ex. subst.
      destruct (proj2 K _ _ U). congruence.
Qed.
End Search.

(** ** what is missing can be searched whenever there are attempts *)
Lemma object_NoDup p : parameters_object p -> NoDup (map fst p).
Proof. intros ->. repeat constructor; cbn; intuition discriminate. Qed.
Lemma default_searchable k d vv : dget k DEFAULT_VALUES = Some d -> vget k VALID_VALUES = Some vv ->
  none_in vv = false -> k <> n_missing_value -> In (k, vv, d) searchable.
Proof.
  intros D V N M. apply dget_In in D. cbn in D.
  repeat (destruct D as [D|D]; [inversion D; subst; clear D; inversion V; subst; clear V;
    try discriminate N; try congruence; cbn; auto 10|]). destruct D.
Qed.
Lemma known_valid k : In k PARAM_NAMES -> ~ In k optional_names -> exists vv, vget k VALID_VALUES = Some vv /\ none_in vv = false.
Proof.
  intros I O. cbn in I. repeat (destruct I as [<-|I]; [first [exfalso; apply O; cbn; tauto|eexists; split; reflexivity]|]). destruct I.
Qed.

Lemma can_search p n l : parameters_object p -> get_num_series p = Some (S n) -> ~ unset p (pname "missing_value") ->
  discover_parameters p = Ok l -> exists missing, to_search p missing.
Proof.
  intros PO NS MV H. pose proof (object_NoDup _ PO) as ND.
  assert (U : forall k, In k (get_missings p) <-> unset p k).
  { intros k. unfold get_missings, is_missing. rewrite filter_In. split.
    - intros [I G]. apply andb_true_iff in G as [G1 G2]. apply is_none_eq in G1. unfold dgetN in G1.
      destruct (dget k p) eqn:D; [subst; split; auto|apply dget_None in D; contradiction].
      intros O. destruct (vget k VALID_VALUES) eqn:V; [|discriminate]. rewrite (optional_valid _ _ V O) in G2. discriminate.
    - intros [D O]. pose proof (In_keys _ _ _ (dget_In _ _ _ D)) as I. split; auto.
      rewrite PO in I. destruct (known_valid k I O) as [vv [V N]]. unfold dgetN. rewrite D, V, N. auto. }
  assert (Nil : get_missings p = [] -> exists missing, to_search p missing).
  { intros E. exists []. split; [constructor|]. split; [|intros ? ? []]. intros k. rewrite <- U, E. tauto. }
  unfold discover_parameters in H. apply bind_ok in H as [c [Hc H]]. destruct c.
  - apply Nil. destruct (get_missings p) as [|k names] eqn:E; auto. exfalso.
    destruct (proj1 (U k)) as [D O]; [left; auto|]. apply (complete_set n p NS Hc _ _ (dget_In _ _ _ D) O). auto.
  - unfold generate_attempts in H. destruct (get_missings p) as [|k0 names0] eqn:E; [apply Nil; auto|].
    set (names := k0 :: names0) in *.
    apply bind_ok in H as [md [Hm H]]. apply bind_ok in H as [combs [Hcs _]].
    assert (K : map fst md = names /\ forall k vv, In (k, vv) md -> vget k VALID_VALUES = Some vv).
    { clearbody names. clear Hcs. revert md Hm. clear. induction names as [|k names IH]; unfold missings_dict; cbn [mapM]; intros md H.
      - inversion H. split; auto. intros ? ? [].
      - apply bind_ok in H as [[k' vv] [H1 H]]. apply bind_ok in H as [md' [H2 H]]. inversion H; subst.
        apply bind_ok in H1 as [vv' [H1 H3]]. inversion H3; subst.
        destruct (IH _ H2) as [A B]. cbn [map fst]. rewrite A. split; auto.
        intros x y [I|I]; auto. inversion I; subst. unfold valid_values in H1.
        destruct (vget x VALID_VALUES); inversion H1; auto. }
    destruct K as [K1 K2].
    assert (Nn : NoDup (map fst md)).
    { rewrite K1. rewrite <- E. unfold get_missings. apply NoDup_filter. auto. }
    exists md. split; [auto|]. rewrite K1. split; [auto|].
    intros k vv I.
    assert (Ik : unset p k) by (apply U; rewrite <- K1; eapply In_keys; eauto).
    destruct (combinations_cover _ _ _ _ eq_refl Nn Hcs) as [S _ F Ne].
    destruct combs as [|c combs]; [congruence|].
    destruct (S c (or_introl eq_refl)) as [[_ B] _].
    destruct (B k (options k vv)) as [v Hv]; [apply opened_In; eauto|].
    destruct (F c eq_refl _ _ Hv) as [d [Hd _]]. exists d.
    apply default_searchable; auto.
    + destruct Ik as [Ik O]. pose proof (In_keys _ _ _ (dget_In _ _ _ Ik)) as J. rewrite PO in J.
      destruct (known_valid k J O) as [vv' [V' N']]. rewrite (K2 _ _ I) in V'. inversion V'; subst. auto.
    + intros ->. apply MV. auto.
Qed.

(** ** the theorems *)
Lemma c16_generator md order : md <> [] -> NoDup (map fst md) -> incl (map fst md) order ->
  (forall k vv, In (k, vv) md -> NoDup vv /\ exists vv' d, In (k, vv', d) searchable /\ In d vv) ->
  exists combs, param_combinations (List.length md) md order = Ok combs /\
    (forall c, In c combs -> combination md c) /\
    (forall c, combination md c -> exists! i, exists c', nth_error combs i = Some c' /\ same_choice c' c).
Proof.
  intros Ne N C V.
  assert (O : opened md = md).
  { clear -V. unfold opened. induction md as [|[k vv] md IH]; cbn; auto.
    rewrite IH by (intros; apply V; right; auto). f_equal. f_equal.
    destruct (V k vv (or_introl eq_refl)) as [_ [vv' [d [_ I]]]]. destruct vv; auto. destruct I. }
  destruct (combinations_total _ md order eq_refl) as [combs Hc]; auto.
  - destruct md; [congruence|discriminate].
  - intros k vv I. destruct (V _ _ I) as [_ [vv' [d [S J]]]]. exists d. apply searchable_facts in S. intuition.
  - exists combs. split; auto. destruct (combinations_cover _ _ _ _ eq_refl N Hc) as [S Cm _ _]. rewrite O in *.
    pose proof (combinations_apart _ _ _ _ eq_refl N (fun k vv I => proj1 (V k vv I)) Hc) as Ap. split.
    + intros c I. apply S; auto.
    + intros c K. destruct (Cm _ K) as [c' [I Q]]. apply In_nth_error in I as [i Hi]. exists i. split; eauto.
      intros j [c'' [Hj Q']]. apply (Ap _ _ _ _ Hi Hj). intros k. rewrite Q, Q'. auto.
Qed.

Lemma c16_once p l n : parameters_object p -> series_count p n -> (0 < n)%nat ->
  ~ unset p (pname "missing_value") -> discover_parameters p = Ok l ->
  exists missing, to_search p missing /\
    (forall c, combination missing c -> exists! i, exists a, nth_error l i = Some a /\ in_force a c n) /\
    (forall a, In a l -> exists c, combination missing c /\ in_force a c n).
Proof.
  intros PO NS Z M H. apply num_count in NS. destruct n; [lia|].
  destruct (can_search _ _ _ PO NS M H) as [missing TS]. exists missing. split; auto.
  apply (each_once p n missing); auto. apply object_NoDup; auto.
Qed.
Lemma c16_total p missing n : parameters_object p -> series_count p n -> (0 < n)%nat ->
  to_search p missing -> says_enough p n -> exists l, discover_parameters p = Ok l.
Proof.
  intros PO NS Z TS E. apply num_count in NS. destruct n; [lia|].
  apply (search_total p n missing); auto. apply object_NoDup; auto.
Qed.
Lemma c17 p l n : parameters_object p -> series_count p n -> (0 < n)%nat ->
  ~ unset p (pname "missing_value") -> discover_parameters p = Ok l ->
  exists a, hd_error l = Some a /\
    forall k vv d i, In (k, vv, d) searchable -> unset p k -> (i < n)%nat -> series_value a k i d.
Proof.
  intros PO NS Z M H. apply num_count in NS. destruct n; [lia|].
  destruct (can_search _ _ _ PO NS M H) as [missing TS].
  apply (first_default p n missing); auto. apply object_NoDup; auto.
Qed.
Lemma c18 p l a n : parameters_object p -> series_count p n -> (0 < n)%nat ->
  ~ unset p (pname "missing_value") -> discover_parameters p = Ok l -> In a l ->
  (forall k, ~ unset p k -> dget k a = dget k p) /\ (forall k, ~ unset a k) /\ series_count a n.
Proof.
  intros PO NS Z M H I. apply num_count in NS. destruct n; [lia|].
  destruct (can_search _ _ _ PO NS M H) as [missing TS].
  apply (attempts_keep p n missing) with l; auto. apply object_NoDup; auto.
Qed.
