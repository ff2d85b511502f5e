(** Facts about the combinations of missing parameters. *)
From Coq Require Import Permutation ZifyBool ZifyNat ZifyN.
From Verif Require Import Base BaseFacts Coord XlMethods Params BuildInv Attempts SpecParams SpecAttempts ParamsProofs.
Local Open Scope Z_scope.

(** ** default_first *)
Lemma remove_first_perm d l x r : remove_first d l = Some (x, r) -> Permutation (x :: r) l /\ py_eq x d = true.
Proof.
  revert x r. induction l as [|y l IH]; cbn; intros x r H; [discriminate|].
  destruct (py_eq y d) eqn:E.
  - inversion H; subst. auto.
  - destruct (remove_first d l) as [[z r']|]; [|discriminate]. inversion H; subst.
    destruct (IH _ _ eq_refl) as [P Q]. split; auto.
    rewrite perm_swap. constructor. auto.
Qed.
Lemma remove_first_some d l : (exists x, In x l /\ py_eq x d = true) -> exists x r, remove_first d l = Some (x, r).
Proof.
  induction l as [|y l IH]; intros [x [I E]]; [destruct I|]. cbn.
  destruct (py_eq y d) eqn:F; eauto. destruct I as [->|I]; [congruence|].
  destruct IH as [z [r H]]; eauto. rewrite H. eauto.
Qed.

(** the values tried for a name *)
Definition options (k : text) (vv : list pyval) : list pyval :=
  match vv with
  | [] => [dgetN k DEFAULT_VALUES]
  | _ => vv
  end.
Lemma default_first_ok k vv vals : default_first k vv = Ok vals ->
  exists d x r, dget k DEFAULT_VALUES = Some d /\ vals = x :: r /\ Permutation vals (options k vv) /\ py_eq x d = true.
Proof.
  unfold default_first. intros H. apply bind_ok in H as [d [D H]]. apply dgetE_ok in D.
  destruct (remove_first _ _) as [[x r]|] eqn:E; [|discriminate]. inversion H; subst; clear H.
  apply remove_first_perm in E as [P Q]. exists d, x, r. repeat split; auto.
  rewrite P. unfold options, dgetN. rewrite D. destruct vv; auto.
Qed.

(** ** the chosen name *)
Lemma md_has_In k md : md_has k md = true <-> In k (map fst md).
Proof.
  unfold md_has. rewrite existsb_exists, in_map_iff. split.
  - intros [[a b] [I E]]. apply text_eqb_eq in E. subst. exists (a, b). auto.
  - intros [[a b] [E I]]. cbn in E. subst. exists (k, b). cbn. rewrite text_eqb_refl. auto.
Qed.
Lemma pop_front_In md order k o : pop_front md order = Ok (k, o) ->
  In k (map fst md) /\ (forall x, In x order -> In x (map fst md) -> x = k \/ In x o).
Proof.
  induction order as [|y order IH]; cbn; intros H; [discriminate|].
  destruct (md_has y md) eqn:E.
  - inversion H; subst. split; [apply md_has_In; auto|]. cbn. intuition congruence.
  - destruct (IH H) as [A B]. split; auto. intros x [->|I] J; auto.
    apply md_has_In in J. congruence.
Qed.
Lemma removelast_In {A} (x d : A) l : In x l -> x = List.last l d \/ In x (removelast l).
Proof.
  intros I. assert (l <> []) by (destruct l; [destruct I|congruence]).
  rewrite (app_removelast_last d H) in I. apply in_app_iff in I. cbn in I. intuition.
Qed.
Lemma choose_In md order k o : choose_param md order = Ok (k, o) ->
  In k (map fst md) /\ (forall x, In x order -> In x (map fst md) -> x = k \/ In x o).
Proof.
  unfold choose_param. destruct order as [|y order].
  - destruct (rev md) as [|[a b] l] eqn:E; [discriminate|]. intros H. inversion H; subst.
    split; [|intros ? []]. apply in_map_iff. exists (k, b). split; auto. apply in_rev. rewrite E. left. auto.
  - set (order' := y :: order). destruct (md_has (List.last order' []) md) eqn:E; intros H.
    + inversion H; subst. split; [apply md_has_In; auto|]. intros x I J. exact (removelast_In x [] order' I).
    + destruct (pop_front_In _ _ _ _ H) as [A B]. split; auto. intros x I J.
      destruct (removelast_In x [] _ I) as [->|I']; auto. apply md_has_In in J. congruence.
Qed.

(** ** missing dictionaries *)
Lemma md_del_keys k md x : In x (map fst (md_del k md)) <-> In x (map fst md) /\ x <> k.
Proof.
  unfold md_del. rewrite !in_map_iff. split.
  - intros [[a b] [E I]]. apply filter_In in I as [I F]. cbn in *. subst.
    split; [exists (x, b); auto|]. intros ->. rewrite text_eqb_refl in F. discriminate.
  - intros [[[a b] [E I]] N]. cbn in E. subst. exists (x, b). split; auto. apply filter_In. split; auto.
    cbn. destruct (text_eqb k x) eqn:F; auto. apply text_eqb_eq in F. congruence.
Qed.
Lemma md_del_In k md x vv : In (x, vv) (md_del k md) <-> In (x, vv) md /\ x <> k.
Proof.
  unfold md_del. rewrite filter_In. cbn. split; intros [A B]; split; auto.
  - intros ->. rewrite text_eqb_refl in B. discriminate.
  - destruct (text_eqb k x) eqn:F; auto. apply text_eqb_eq in F. congruence.
Qed.
Lemma md_del_NoDup k md : NoDup (map fst md) -> NoDup (map fst (md_del k md)).
Proof.
  induction md as [|[a b] md IH]; cbn; auto. intros H. inversion H; subst.
  destruct (negb (text_eqb k a)); cbn; auto. constructor; auto. fold (md_del k md). rewrite md_del_keys. intuition.
Qed.
Lemma md_del_length k md : NoDup (map fst md) -> In k (map fst md) -> S (List.length (md_del k md)) = List.length md.
Proof.
  induction md as [|[a b] md IH]; cbn; intros H I; [destruct I|]. inversion H as [|? ? N D]; subst.
  destruct (text_eqb k a) eqn:E; cbn.
  - apply text_eqb_eq in E. subst. f_equal. unfold md_del. clear -N.
    induction md as [|[c d] md IH]; cbn in *; auto. assert (a <> c /\ ~ In a (map fst md)) as [N1 N2] by intuition.
    destruct (text_eqb a c) eqn:E; [apply text_eqb_eq in E; congruence|]. cbn. f_equal. apply IH. auto.
  - destruct I as [->|I]; [rewrite text_eqb_refl in E; discriminate|]. f_equal. apply IH; auto.
Qed.
Lemma md_get_In k md : In k (map fst md) -> In (k, md_get k md) md.
Proof.
  unfold md_get. induction md as [|[a b] md IH]; cbn; intros I; [destruct I|].
  destruct (text_eqb k a) eqn:E; [apply text_eqb_eq in E; subst; auto|].
  destruct I as [->|I]; [rewrite text_eqb_refl in E; discriminate|]. auto.
Qed.
Lemma In_keys {A B} (k : A) (v : B) l : In (k, v) l -> In k (map fst l).
Proof. intros I. apply in_map_iff. exists (k, v). auto. Qed.
Lemma md_unique (k : text) (v v' : list pyval) md : NoDup (map fst md) -> In (k, v) md -> In (k, v') md -> v = v'.
Proof.
  induction md as [|[a b] md IH]; cbn; intros N I J; [destruct I|]. inversion N; subst.
  destruct I as [I|I], J as [J|J]; try (inversion I; subst); try (inversion J; subst); auto.
  - apply In_keys in J. contradiction.
  - apply In_keys in I. contradiction.
Qed.

(** the same with the default for the names without listed values *)
Definition opened (md : missing_dict) : missing_dict := map (fun kv => (fst kv, options (fst kv) (snd kv))) md.
Lemma opened_keys md : map fst (opened md) = map fst md.
Proof. unfold opened. rewrite map_map. reflexivity. Qed.
Lemma opened_In k vv md : In (k, vv) (opened md) <-> exists vv0, In (k, vv0) md /\ vv = options k vv0.
Proof.
  unfold opened. rewrite in_map_iff. split.
  - intros [[a b] [E I]]. inversion E; subst. eauto.
  - intros [vv0 [I ->]]. exists (k, vv0). auto.
Qed.

(** ** every combination, once *)
Record covers (md : missing_dict) (combs : list dict) : Prop := {
  cv_sound : forall c, In c combs -> combination (opened md) c /\ NoDup (map fst c);
  cv_complete : forall c, combination (opened md) c -> exists c', In c' combs /\ same_choice c' c;
  cv_first : forall c, hd_error combs = Some c -> forall k v, dget k c = Some v ->
    exists d, dget k DEFAULT_VALUES = Some d /\ py_eq v d = true;
  cv_some : combs <> []
}.

(** distinct positions hold distinct choices *)
Definition apart (combs : list dict) : Prop :=
  forall i j c c', nth_error combs i = Some c -> nth_error combs j = Some c' -> same_choice c c' -> i = j.

Lemma apart_cons c combs : (forall c', In c' combs -> ~ same_choice c c') -> apart combs -> apart (c :: combs).
Proof.
  intros H A i j a b Hi Hj S. destruct i, j; cbn in *; auto.
  - inversion Hi; subst. apply nth_error_In in Hj. destruct (H _ Hj S).
  - inversion Hj; subst. apply nth_error_In in Hi. destruct (H _ Hi). intros k. symmetry. apply S.
  - f_equal. eauto.
Qed.
Lemma apart_tail c combs : apart (c :: combs) -> apart combs.
Proof. intros A i j a b Hi Hj S. assert (Datatypes.S i = Datatypes.S j) by (apply (A (Datatypes.S i) (Datatypes.S j) a b); auto). lia. Qed.
Lemma apart_head c combs c' : apart (c :: combs) -> In c' combs -> ~ same_choice c c'.
Proof.
  intros A I S. apply In_nth_error in I as [i Hi].
  assert (0%nat = Datatypes.S i) by (apply (A 0%nat (Datatypes.S i) c c'); auto). discriminate.
Qed.
Lemma apart_app l l' : apart l -> apart l' -> (forall a b, In a l -> In b l' -> ~ same_choice a b) -> apart (l ++ l').
Proof.
  induction l as [|c l IH]; cbn; intros A B H; auto.
  apply apart_cons.
  - intros c' I. apply in_app_iff in I as [I|I]; auto. eapply apart_head; eauto.
  - apply IH; auto. eapply apart_tail; eauto.
Qed.

Lemma dset_apart name vals comb : NoDup vals -> apart (map (fun v => dset name v comb) vals).
Proof.
  induction vals as [|v vals IH]; cbn; intros N.
  - intros i j c c' H. destruct i; discriminate.
  - inversion N; subst. apply apart_cons; auto. intros c' I S. apply in_map_iff in I as [v' [<- I]].
    specialize (S name). rewrite !dget_dset_same in S. congruence.
Qed.
Lemma product_apart name vals combs : NoDup vals -> apart combs ->
  (forall c, In c combs -> ~ In name (map fst c)) ->
  apart (flat_map (fun comb => map (fun v => dset name v comb) vals) combs).
Proof.
  intros N. induction combs as [|c combs IH]; cbn; intros A F.
  - intros i j a b H. destruct i; discriminate.
  - apply apart_app.
    + apply dset_apart; auto.
    + apply IH; auto. eapply apart_tail; eauto.
    + intros a b Ia Ib S. apply in_map_iff in Ia as [v [<- Iv]].
      apply in_flat_map in Ib as [c' [Ic Ib]]. apply in_map_iff in Ib as [v' [<- Iv']].
      apply (apart_head c combs c' A Ic). intros k. specialize (S k).
      rewrite !dget_dset in S. destruct (text_eqb name k) eqn:E; auto.
      apply text_eqb_eq in E. subst k.
      assert (H1 : dget name c = None) by (apply dget_None, F; auto).
      assert (H2 : dget name c' = None) by (apply dget_None, F; auto). congruence.
Qed.

Lemma single_covers name vv vals : default_first name vv = Ok vals ->
  covers [(name, vv)] (map (fun v => [(name, v)]) vals).
Proof.
  intros H. destruct (default_first_ok _ _ _ H) as [d [x [r [D [E [P Q]]]]]]. constructor.
  - intros c I. apply in_map_iff in I as [v [<- I]]. split; [|repeat constructor; intros []].
    split.
    + intros k w. cbn. destruct (text_eqb k name) eqn:F; [|discriminate]. apply text_eqb_eq in F. subst.
      intros G. inversion G; subst. exists (options name vv). split; [left; auto|].
      eapply Permutation_in; eauto.
    + intros k w [G|[]]. inversion G; subst. exists v. cbn. rewrite text_eqb_refl. auto.
  - intros c [A B]. destruct (B name (options name vv)) as [v Hv]; [left; auto|].
    exists [(name, v)]. split.
    + apply in_map_iff. exists v. split; auto. destruct (A _ _ Hv) as [w [[G|[]] I]]. inversion G; subst.
      eapply Permutation_in; [symmetry; eauto|]. auto.
    + intros k. cbn. destruct (text_eqb k name) eqn:F; [apply text_eqb_eq in F; subst; auto|].
      destruct (dget k c) as [w|] eqn:G; auto. destruct (A _ _ G) as [u [[K|[]] _]]. inversion K; subst.
      rewrite text_eqb_refl in F. discriminate.
  - subst vals. cbn. intros c G. inversion G; subst. intros k v. cbn. destruct (text_eqb k name) eqn:F; [|discriminate].
    apply text_eqb_eq in F. subst. intros K. inversion K; subst. eauto.
  - subst vals. discriminate.
Qed.
Lemma single_apart name (vals : list pyval) : NoDup vals -> apart (map (fun v => [(name, v)]) vals).
Proof.
  intros N. assert (H : map (fun v => [(name, v)]) vals = map (fun v => dset name v []) vals) by reflexivity.
  rewrite H. apply dset_apart; auto.
Qed.

Lemma combination_del md name c v : NoDup (map fst md) -> combination (opened (md_del name md)) c ->
  In name (map fst md) -> In v (options name (md_get name md)) -> combination (opened md) (dset name v c).
Proof.
  intros N [A B] I Iv. split.
  - intros k w. rewrite dget_dset. destruct (text_eqb name k) eqn:E.
    + apply text_eqb_eq in E. subst k. intros G. inversion G; subst. exists (options name (md_get name md)). split; auto.
      apply opened_In. eexists. split; [apply md_get_In; eauto|auto].
    + intros G. destruct (A _ _ G) as [vv [J K]]. exists vv. split; auto.
      apply opened_In in J as [vv0 [J ->]]. apply opened_In. exists vv0. split; auto. apply md_del_In in J. intuition.
  - intros k vv J. rewrite dget_dset. destruct (text_eqb name k) eqn:E; [eauto|].
    apply (B k vv). apply opened_In in J as [vv0 [J ->]]. apply opened_In. exists vv0. split; auto.
    apply md_del_In. split; auto. intros ->. rewrite text_eqb_refl in E. discriminate.
Qed.
Lemma combination_drop md name c v : NoDup (map fst md) -> combination (opened md) c -> dget name c = Some v ->
  combination (opened (md_del name md)) (ddel name c).
Proof.
  intros N [A B] G.
  assert (D : forall k, dget k (ddel name c) = if text_eqb name k then None else dget k c).
  { intros k. clear. unfold ddel. induction c as [|[a b] c IH]; cbn.
    - destruct (text_eqb name k); auto.
    - destruct (text_eqb name a) eqn:E; cbn.
      + rewrite IH. apply text_eqb_eq in E. subst. destruct (text_eqb a k) eqn:F; auto.
        rewrite (text_eqb_sym k a), F. auto.
      + destruct (text_eqb k a) eqn:F; auto. apply text_eqb_eq in F. subst. rewrite E. auto. }
  split.
  - intros k w. rewrite D. destruct (text_eqb name k) eqn:E; [discriminate|]. intros H.
    destruct (A _ _ H) as [vv [J K]]. exists vv. split; auto.
    apply opened_In in J as [vv0 [J ->]]. apply opened_In. exists vv0. split; auto. apply md_del_In. split; auto.
    intros ->. rewrite text_eqb_refl in E. discriminate.
  - intros k vv J. rewrite D. apply opened_In in J as [vv0 [J ->]]. apply md_del_In in J as [J K].
    destruct (text_eqb name k) eqn:E; [apply text_eqb_eq in E; congruence|].
    apply (B k (options k vv0)). apply opened_In. eauto.
Qed.

Theorem combinations_cover n : forall md order combs, List.length md = n -> NoDup (map fst md) ->
  param_combinations n md order = Ok combs -> covers md combs.
Proof.
  induction n as [|n IH]; intros md order combs L N H; [discriminate|].
  cbn [param_combinations] in H.
  assert (G : (exists name vv, md = [(name, vv)] /\ (do vals <- default_first name vv; Ok (map (fun v => [(name, v)]) vals)) = Ok combs) \/
    (do c <- choose_param md order;
     let '(name, order') := c in
     do combs <- param_combinations n (md_del name md) order';
     do vals <- default_first name (md_get name md);
     Ok (flat_map (fun comb => map (fun v => dset name v comb) vals) combs)) = Ok combs).
  { destruct md as [|[a b] [|y md]]; auto. left. eauto. }
  clear H. destruct G as [[name [vv [-> H]]]|H].
  - apply bind_ok in H as [vals [D H]]. inversion H; subst. apply single_covers. auto.
  - apply bind_ok in H as [[name o] [C H]]. apply bind_ok in H as [cs [R H]]. apply bind_ok in H as [vals [D H]].
    inversion H; subst; clear H. destruct (choose_In _ _ _ _ C) as [I _].
    assert (L' : List.length (md_del name md) = n) by (pose proof (md_del_length _ _ N I); lia).
    specialize (IH _ _ _ L' (md_del_NoDup _ _ N) R). destruct IH as [S Cm F Ne].
    destruct (default_first_ok _ _ _ D) as [d [x [r [Dd [E [P Q]]]]]]. constructor.
    + intros c J. apply in_flat_map in J as [c' [J K]]. apply in_map_iff in K as [v [<- K]].
      destruct (S _ J) as [S1 S2]. split; [|apply dset_NoDup; auto]. apply combination_del; auto.
      eapply Permutation_in; eauto.
    + intros c K. assert (exists v, dget name c = Some v) as [v Hv].
      { apply (proj2 K name (options name (md_get name md))). apply opened_In.
        eexists. split; [apply md_get_In; auto|auto]. }
      destruct (Cm _ (combination_drop _ _ _ _ N K Hv)) as [c' [J T]].
      exists (dset name v c'). split.
      * apply in_flat_map. exists c'. split; auto. apply in_map_iff. exists v. split; auto.
        destruct (proj1 K _ _ Hv) as [vv [Iv Iw]]. apply opened_In in Iv as [vv0 [Iv ->]].
        rewrite (md_unique _ _ _ _ N Iv (md_get_In _ _ I)) in Iw. eapply Permutation_in; [symmetry; eauto|auto].
      * intros k. rewrite dget_dset. destruct (text_eqb name k) eqn:G; [apply text_eqb_eq in G; subst; auto|].
        rewrite T. unfold ddel. clear -G. induction c as [|[a b] c IH]; cbn; auto.
        destruct (text_eqb name a) eqn:E1; cbn.
        -- rewrite IH. apply text_eqb_eq in E1. subst. rewrite (text_eqb_sym k a), G. auto.
        -- destruct (text_eqb k a); auto.
    + subst vals. destruct cs as [|c0 cs]; [congruence|]. cbn. intros c J. inversion J; subst.
      intros k v. rewrite dget_dset. destruct (text_eqb name k) eqn:G.
      * apply text_eqb_eq in G. subst k. intros K. inversion K; subst. eauto.
      * apply (F c0); auto.
    + subst vals. destruct cs; [congruence|]. discriminate.
Qed.

Theorem combinations_apart n : forall md order combs, List.length md = n -> NoDup (map fst md) ->
  (forall k vv, In (k, vv) md -> NoDup vv) ->
  param_combinations n md order = Ok combs -> apart combs.
Proof.
  induction n as [|n IH]; intros md order combs L N U H; [discriminate|].
  cbn [param_combinations] in H.
  assert (G : (exists name vv, md = [(name, vv)] /\ (do vals <- default_first name vv; Ok (map (fun v => [(name, v)]) vals)) = Ok combs) \/
    (do c <- choose_param md order;
     let '(name, order') := c in
     do combs <- param_combinations n (md_del name md) order';
     do vals <- default_first name (md_get name md);
     Ok (flat_map (fun comb => map (fun v => dset name v comb) vals) combs)) = Ok combs).
  { destruct md as [|[a b] [|y md]]; auto. left. eauto. }
  assert (O : forall k vv, NoDup vv -> NoDup (options k vv)).
  { intros k vv V. destruct vv; auto. repeat constructor. intros []. }
  clear H. destruct G as [[name [vv [-> H]]]|H].
  - apply bind_ok in H as [vals [D H]]. inversion H; subst. apply single_apart.
    destruct (default_first_ok _ _ _ D) as [d [x [r [Dd [E [P Q]]]]]].
    eapply Permutation_NoDup; [symmetry; eauto|]. apply O, (U name). left. auto.
  - apply bind_ok in H as [[name o] [C H]]. apply bind_ok in H as [cs [R H]]. apply bind_ok in H as [vals [D H]].
    inversion H; subst; clear H. destruct (choose_In _ _ _ _ C) as [I _].
    assert (L' : List.length (md_del name md) = n) by (pose proof (md_del_length _ _ N I); lia).
    apply product_apart.
    + destruct (default_first_ok _ _ _ D) as [d [x [r [Dd [E [P Q]]]]]].
      eapply Permutation_NoDup; [symmetry; eauto|]. apply O, (U name). apply md_get_In. auto.
    + apply (IH _ _ _ L' (md_del_NoDup _ _ N)) with (2 := R). intros k vv J. apply md_del_In in J as [J _]. eauto.
    + intros c J. destruct (combinations_cover _ _ _ _ L' (md_del_NoDup _ _ N) R) as [S _ _ _].
      destruct (S _ J) as [[A _] _]. intros K. apply dget_None in K; auto. destruct (dget name c) eqn:G; auto.
      destruct (A _ _ G) as [vv [M _]]. apply In_keys in M. rewrite opened_keys in M. apply md_del_keys in M. intuition.
Qed.

(** with an order that covers the missing names, nothing fails *)
Lemma pop_front_total md order : (exists x, In x order /\ In x (map fst md)) -> exists k o, pop_front md order = Ok (k, o).
Proof.
  induction order as [|y order IH]; intros [x [I J]]; [destruct I|]. cbn.
  destruct (md_has y md) eqn:E; eauto. apply IH. destruct I as [->|I]; eauto.
  apply md_has_In in J. congruence.
Qed.
Lemma choose_total md order : md <> [] -> incl (map fst md) order -> exists k o, choose_param md order = Ok (k, o).
Proof.
  intros N C. destruct md as [|[a b] md]; [congruence|].
  assert (I : In a order) by (apply C; left; auto).
  unfold choose_param. destruct order as [|y order]; [destruct I|].
  set (o := y :: order) in *. destruct (md_has (List.last o []) _) eqn:E; eauto.
  apply pop_front_total. exists a. split; [|left; auto].
  destruct (removelast_In a [] _ I) as [H|]; auto. exfalso. rewrite <- H in E.
  assert (md_has a ((a, b) :: md) = true) by (apply md_has_In; left; auto). congruence.
Qed.
Lemma default_first_total k vv d : dget k DEFAULT_VALUES = Some d -> py_eq d d = true -> vv = [] \/ In d vv ->
  exists vals, default_first k vv = Ok vals.
Proof.
  intros D R H. unfold default_first, dgetE. rewrite D. cbn [bind].
  destruct (remove_first_some d (match vv with [] => [d] | _ => vv end)) as [x [r E]].
  - exists d. split; auto. destruct H as [->|H]; [left; auto|]. destruct vv; [destruct H|auto].
  - rewrite E. eauto.
Qed.
Theorem combinations_total n : forall md order, List.length md = n -> n <> 0%nat -> NoDup (map fst md) ->
  incl (map fst md) order ->
  (forall k vv, In (k, vv) md -> exists d, dget k DEFAULT_VALUES = Some d /\ py_eq d d = true /\ (vv = [] \/ In d vv)) ->
  exists combs, param_combinations n md order = Ok combs.
Proof.
  induction n as [|n IH]; intros md order L Z N C V; [congruence|].
  assert (T : forall k, In k (map fst md) -> exists vals, default_first k (md_get k md) = Ok vals).
  { intros k I. destruct (V _ _ (md_get_In _ _ I)) as [d [D [R H]]]. eapply default_first_total; eauto. }
  cbn [param_combinations].
  assert (G : (exists a b, md = [(a, b)]) \/ (List.length md <> 1%nat /\ forall X (f : text -> list pyval -> X) (g : X),
     match md with [(name, vv)] => f name vv | _ => g end = g)).
  { destruct md as [|[a b] [|y md]]; [discriminate| |]; eauto. right. cbn. split; [lia|]. auto. }
  destruct G as [[a [b ->]]|[L1 G]].
  - destruct (T a) as [vals Hv]; [left; auto|]. unfold md_get in Hv. cbn in Hv. rewrite text_eqb_refl in Hv.
    rewrite Hv. cbn. eauto.
  - rewrite G. destruct (choose_total md order) as [k [o Hc]]; auto; [destruct md; [discriminate|congruence]|].
    rewrite Hc. cbn [bind]. destruct (choose_In _ _ _ _ Hc) as [I J].
    pose proof (md_del_length _ _ N I) as L'.
    destruct (IH (md_del k md) o) as [combs Hcs]; auto; try lia.
    + apply md_del_NoDup; auto.
    + intros x Ix. apply md_del_keys in Ix as [Ix Nx]. destruct (J x); auto. congruence.
    + intros x vv Ix. apply md_del_In in Ix as [Ix _]. eauto.
    + rewrite Hcs. cbn [bind]. destruct (T k I) as [vals ->]. cbn. eauto.
Qed.
