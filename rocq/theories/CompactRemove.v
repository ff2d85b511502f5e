(** Removing what is not critical (C75). *)
From Coq Require Import ZifyBool ZifyNat.
From Verif Require Import Base BaseFacts Coord CoordFacts XlMethods Params Compact
  SpecCoord SpecCoordFacts SpecParams BuildFacts BuildInv ParamsFacts ParamsProofs SpecAttempts AttemptsFacts
  AttemptsProofs SpecCompact CompactProofs.
Local Open Scope Z_scope.

Lemma chosen (f : text * pyval -> res bool) : forall q : dict, (forall kv, In kv q -> exists b, f kv = Ok b) ->
  exists kept, mapM f q = Ok kept /\
    forall k, In k (map (fun x => fst (fst x)) (filter (fun x => snd x) (combine q kept))) <-> exists v, In (k, v) q /\ f (k, v) = Ok true.
Proof.
  induction q as [|[k0 v0] q IH]; intros H.
  - exists []. split; auto. intros k. cbn. split; [intros []|intros (v & [] & _)].
  - destruct (H (k0, v0)) as [b B]; [left; auto|]. destruct IH as (kept & M & G); [intros; apply H; right; auto|].
    exists (b :: kept). cbn [mapM]. rewrite B. cbn [bind]. rewrite M. cbn [bind]. split; auto. intros k. cbn [combine filter snd].
    destruct b.
    + cbn [map In fst]. rewrite G. split.
      * intros [<-|(v & I & F)]; [exists v0; auto|exists v; auto].
      * intros (v & [E|I] & F); [inversion E; auto|right; exists v; auto].
    + rewrite G. split; [intros (v & I & F); exists v; split; cbn; auto|]. intros (v & [E|I] & F); [inversion E; subst; congruence|exists v; auto].
Qed.

Lemma removed_all ks : forall p k, dgetN k (fold_left remove_param ks p) = if text_in k ks then VNone else dgetN k p.
Proof.
  induction ks as [|a ks IH]; intros p k; cbn [fold_left]; auto. rewrite IH. unfold remove_param. rewrite dgetN_dset.
  destruct (text_eqb a k) eqn:E.
  - apply text_eqb_eq in E. subst. replace (text_in k (k :: ks)) with true by (symmetry; apply text_in_In; cbn; auto). destruct (text_in k ks); auto.
  - apply text_eqb_neq in E. destruct (text_in k ks) eqn:T.
    + replace (text_in k (a :: ks)) with true; auto. symmetry. apply text_in_In. right. apply text_in_In. auto.
    + replace (text_in k (a :: ks)) with false; auto. symmetry. destruct (text_in k (a :: ks)) eqn:T'; auto. apply text_in_In in T' as [X|X]; [congruence|]. apply text_in_In in X. congruence.
Qed.
Lemma removed_keys ks : forall p : dict, incl ks (map fst p) -> map fst (fold_left remove_param ks p) = map fst p.
Proof.
  induction ks as [|a ks IH]; intros p I; cbn [fold_left]; auto. unfold remove_param. rewrite IH; rewrite dset_keys; auto; try (apply I; left; auto).
  intros x X. apply I. right. auto.
Qed.

Definition numbered (q : dict) (n : nat) : Prop :=
  map fst q = PARAM_NAMES /\ (forall k l, In k PARAM_NAMES -> dgetN k q = VList l -> k <> n_missing_value -> (List.length l <= n)%nat) /\
  exists l, dgetN n_headers_coord q = VList l /\ List.length l = n.
Lemma numbered_ns q n : numbered q n -> get_num_series q = Some n.
Proof.
  intros (K & A & (l & E & L)). apply num_series_eq.
  - intros k l' I N. destruct (in_p q K _ _ I) as [KP E']. eapply A; eauto.
  - exists n_headers_coord, l. split; [|split; [discriminate|auto]]. rewrite <- E. apply p_in; auto. apply text_in_In; reflexivity.
Qed.
Lemma numbered_set q n k v : numbered q n -> In k PARAM_NAMES -> k <> n_headers_coord -> (forall l, v = VList l -> (List.length l <= n)%nat) -> numbered (dset k v q) n.
Proof.
  intros (K & A & (l & E & L)) KP NH V. split; [|split].
  - rewrite dset_keys; auto. rewrite K. auto.
  - intros k' l' KP' E' N. rewrite dgetN_dset in E'. destruct (text_eqb k k'); [apply V; auto|eapply A; eauto].
  - exists l. rewrite dgetN_dset. replace (text_eqb k n_headers_coord) with false by (symmetry; apply text_eqb_neq; auto). auto.
Qed.
Lemma set_none q m k : numbered q (S m) -> In k OPTIONAL -> set_item q k VNone = (dset k (VList (repeat VNone (S m))) q, Ok tt).
Proof.
  intros N K. pose proof (numbered_ns _ _ N) as NS. unfold set_item. cbn [truthy]. rewrite andb_false_r.
  assert (X : text_eqb k n_headers_coord = false /\ exists vv, valid_values k = Ok vv /\ valid_param_value VNone vv = true /\ apply_to_all k VNone (Some (S m)) q vv = Ok (VList (repeat VNone (S m)))).
  { unfold OPTIONAL in K. repeat (destruct K as [<-|K]; [split; [reflexivity|]; eexists; split; [reflexivity|]; split; reflexivity|]). destruct K. }
  destruct X as (H1 & vv & H2 & H3 & H4). rewrite H1. unfold set_general. rewrite NS. cbn [valid_param_list bind]. rewrite H2. cbn [bind]. rewrite H3. cbn [negb]. rewrite H4. reflexivity.
Qed.
Lemma restored ks : forall q m, numbered q (S m) -> incl ks OPTIONAL -> exists q', restore_optional ks q = (q', Ok tt) /\ numbered q' (S m) /\
  forall k, dgetN k q' = if text_in k ks then VList (repeat VNone (S m)) else dgetN k q.
Proof.
  induction ks as [|a ks IH]; intros q m N I.
  - exists q. split; auto.
  - assert (A : In a OPTIONAL) by (apply I; left; auto). cbn [restore_optional]. rewrite (set_none q m a N A).
    assert (AP : In a PARAM_NAMES /\ a <> n_headers_coord).
    { clear -A. unfold OPTIONAL in A. repeat (destruct A as [<-|A]; [split; [apply text_in_In; reflexivity|discriminate]|]). destruct A. }
    destruct (IH (dset a (VList (repeat VNone (S m))) q) m) as (q' & R & N' & G).
    + apply numbered_set; try tauto. intros l E. inversion E. cbn [List.length]. rewrite repeat_length. lia.
    + intros x X. apply I. right. auto.
    + exists q'. split; auto. split; auto. intros k. rewrite G, dgetN_dset.
      destruct (text_eqb a k) eqn:E.
      * apply text_eqb_eq in E. subst. replace (text_in k (k :: ks)) with true by (symmetry; apply text_in_In; cbn; auto). destruct (text_in k ks); auto.
      * apply text_eqb_neq in E. destruct (text_in k ks) eqn:T.
        -- replace (text_in k (a :: ks)) with true; auto. symmetry. apply text_in_In. right. apply text_in_In. auto.
        -- replace (text_in k (a :: ks)) with false; auto. symmetry. destruct (text_in k (a :: ks)) eqn:T'; auto. apply text_in_In in T' as [X|X]; [congruence|]. apply text_in_In in X. congruence.
Qed.

Lemma no_differences_spec v : comparable v -> exists b, no_differences v = Ok b /\
  (b = false <-> exists x l, v = VList (x :: l) /\ ~ is_list_value x /\ Exists (fun y => py_eq y x = false) l).
Proof.
  intros C. assert (SC : ~ is_list_value v -> exists b, Ok true = Ok b /\ (b = false <-> exists x l, v = VList (x :: l) /\ ~ is_list_value x /\ Exists (fun y => py_eq y x = false) l)).
  { intros NL. exists true. split; auto. split; [discriminate|]. intros (x & l & -> & _). exfalso. apply NL. eexists; reflexivity. }
  destruct v; try (apply SC; intros [? Y]; discriminate). clear SC. destruct (C l eq_refl) as [NE K]. destruct l as [|x l]; [congruence|].
  cbn [no_differences py_index nth_error bind]. destruct (is_list x) eqn:IL.
  - exists true. split; auto. split; [discriminate|]. intros (x' & l' & E & NL & _). inversion E; subst. exfalso. apply NL. destruct x'; try discriminate. eexists; reflexivity.
  - destruct K as [(x' & l' & E)|F]; [inversion E; subst; discriminate|].
    replace (existsb unhashable (x :: l)) with false.
    + exists (is_repeated (VList (x :: l))). split; auto. split.
      * intros R. exists x, l. split; auto. inversion F as [|? ? (NL & _ & RX) F']; subst. split; auto. apply not_repeated in R. inversion R; subst; auto. congruence.
      * intros (x' & l' & E & NL & EX). inversion E; subst. destruct (is_repeated _) eqn:R; auto. pose proof (repeated_all _ _ R) as A.
        apply Exists_exists in EX as (y & Y1 & Y2). rewrite Forall_forall in A. rewrite (A y Y1) in Y2. discriminate.
    + symmetry. destruct (existsb unhashable (x :: l)) eqn:E; auto. apply existsb_exists in E as (y & Y1 & Y2). rewrite Forall_forall in F. destruct (F y Y1) as (A & B & _).
      destruct y; try discriminate; exfalso; [apply A|apply B]; eexists; reflexivity.
Qed.

Lemma c75 p n differents : parameters_object p -> series_count p n -> (1 <= n)%nat ->
  (exists hs, dgetN (pname "headers_coord") p = VList hs /\ List.length hs = n) ->
  (differents = false -> forall k, comparable (dgetN k p)) ->
  exists q, remove_non_critical p differents = (q, Ok tt) /\ only_critical_left p q n differents.
Proof.
  intros OBJ [SC _] N1 HS CM. change (map fst p = PARAM_NAMES) in OBJ. destruct n as [|m]; [lia|].
  set (f := fun kv : text * pyval => if non_critical (fst kv) then if differents then Ok true else no_differences (snd kv) else Ok false).
  destruct (chosen f p) as (kept & M & G).
  { intros [k v] I. unfold f. cbn [fst snd]. destruct (non_critical k); eauto. destruct differents; eauto.
    destruct (in_p p OBJ _ _ I) as [_ <-]. destruct (no_differences_spec _ (CM eq_refl k)) as (b & B & _). eauto. }
  set (ks := map (fun x => fst (fst x)) (filter (fun x => snd x) (combine p kept))) in *.
  set (rs := filter (fun k => negb (text_in k USE_DEFAULT) && negb (text_in k GUESSED)) ks).
  assert (GK : forall k, In k ks <-> In k PARAM_NAMES /\ non_critical k = true /\ (differents = true \/ no_differences (dgetN k p) = Ok true)).
  { intros k. rewrite G. unfold f. cbn [fst snd]. split.
    - intros (v & I & F). destruct (in_p p OBJ _ _ I) as [K <-]. split; auto. destruct (non_critical k); [|discriminate]. split; auto. destruct differents; auto.
    - intros (K & C & D). exists (dgetN k p). split; [apply p_in; auto|]. rewrite C. destruct differents; auto. destruct D; [discriminate|auto]. }
  assert (GR : forall k, In k rs <-> In k ks /\ text_in k USE_DEFAULT = false /\ text_in k GUESSED = false).
  { intros k. unfold rs. rewrite filter_In, andb_true_iff, !negb_true_iff. reflexivity. }
  set (q0 := fold_left remove_param rs p).
  assert (IR : incl rs (map fst p)) by (intros k K; rewrite OBJ; apply GR in K as [K _]; apply GK in K; tauto).
  assert (NQ : numbered q0 (S m)).
  { split; [unfold q0; rewrite removed_keys; auto|]. split.
    - intros k l K E NM. unfold q0 in E. rewrite removed_all in E. destruct (text_in k rs); [discriminate|]. apply (SC k l); auto. rewrite <- E. apply p_in; auto.
    - destruct HS as (hs & E & L). exists hs. split; auto. unfold q0. rewrite removed_all. destruct (text_in n_headers_coord rs) eqn:T; auto.
      apply text_in_In, GR in T as [T _]. apply GK in T as (_ & T & _). discriminate. }
  destruct (restored OPTIONAL q0 m NQ (incl_refl _)) as (q & R & NQ' & GQ).
  exists q. split.
  - unfold remove_non_critical, get_non_critical_params. unfold f in M. rewrite M. cbn [bind]. fold ks. fold rs. fold q0. exact R.
  - assert (V : forall k, dgetN k q = if text_in k OPTIONAL then VList (repeat VNone (S m)) else if text_in k rs then VNone else dgetN k p).
    { intros k. rewrite GQ. destruct (text_in k OPTIONAL); auto. unfold q0. apply removed_all. }
    constructor.
    + exact (proj1 NQ').
    + intros k K. rewrite V. assert (X : text_in k OPTIONAL = false /\ (non_critical k = false \/ text_in k USE_DEFAULT = true \/ text_in k GUESSED = true)).
      { unfold kept_names, critical_names in K. cbn [app map] in K. repeat (destruct K as [<-|K]; [split; [reflexivity|first [left; reflexivity|right; left; reflexivity|right; right; reflexivity]]|]). destruct K. }
      destruct X as [X1 X2]. rewrite X1. destruct (text_in k rs) eqn:T; auto. apply text_in_In, GR in T as (T1 & T2 & T3). apply GK in T1 as (_ & T1 & _).
      destruct X2 as [X|[X|X]]; congruence.
    + intros k K. rewrite V. replace (text_in k OPTIONAL) with true; auto. symmetry. apply text_in_In. exact K.
    + intros k K D. rewrite V. assert (X : text_in k OPTIONAL = false /\ In k PARAM_NAMES /\ non_critical k = true /\ text_in k USE_DEFAULT = false /\ text_in k GUESSED = false).
      { unfold removed_names in K. cbn [map] in K. repeat (destruct K as [<-|K]; [repeat (split; [first [reflexivity|apply text_in_In; reflexivity]|]); reflexivity|]). destruct K. }
      destruct X as (X1 & X2 & X3 & X4 & X5). rewrite X1. replace (text_in k rs) with true; auto. symmetry. apply text_in_In, GR. split; auto. apply GK. split; auto. split; auto.
      destruct differents; auto. destruct D as [D|D]; [discriminate|]. destruct (no_differences_spec _ (CM eq_refl k)) as (b & B & BD). right. rewrite B. destruct b; auto.
      exfalso. apply D. destruct (proj1 BD eq_refl) as (x & l & E). exists x, l. auto.
    + intros k K D SD. subst differents. rewrite V. replace (text_in k OPTIONAL) with false.
      2:{ unfold removed_names in K. cbn [map] in K. repeat (destruct K as [<-|K]; [reflexivity|]). destruct K. }
      destruct (text_in k rs) eqn:T; auto. apply text_in_In, GR in T as (T1 & _). apply GK in T1 as (_ & _ & [T|T]); [discriminate|].
      destruct (no_differences_spec _ (CM eq_refl k)) as (b & B & BD). rewrite T in B. inversion B; subst b. destruct SD as (x & l & E). exfalso. discriminate (proj2 BD (ex_intro _ x (ex_intro _ l E))).
Qed.

(** ** values that cannot be compared *)
Lemma mapM_raises {A B} (f : A -> res B) x : forall l, (exists a, In a l /\ f a = Err x) -> (forall a, In a l -> (exists b, f a = Ok b) \/ f a = Err x) -> mapM f l = Err x.
Proof.
  induction l as [|a l IH]; intros (y & I & E) F; [destruct I|]. cbn [mapM]. destruct (F a (or_introl eq_refl)) as [[b Eb]|Eb]; rewrite Eb; [|reflexivity].
  cbn [bind]. rewrite IH; [reflexivity| |intros; apply F; right; auto]. destruct I as [->|I]; [congruence|eauto].
Qed.
Lemma unhashable_iff v : unhashable v = true <-> is_list_value v \/ a_dict v.
Proof.
  split.
  - destruct v; try discriminate; intros _; [left|right]; eexists; reflexivity.
  - intros [[l ->]|[l ->]]; reflexivity.
Qed.
Lemma no_differences_out v : v <> VList [] -> (exists b, no_differences v = Ok b) \/ no_differences v = Err EType.
Proof.
  destruct v as [| | | | | |l| |]; cbn; eauto. destruct l as [|x l]; [congruence|]. intros _. cbn. destruct (is_list x); eauto. destruct (unhashable x || existsb unhashable l); eauto.
Qed.
Lemma c75_uneven p k x l : parameters_object p -> ~ In k critical_names -> dgetN k p = VList (x :: l) -> ~ is_list_value x ->
  Exists (fun y => is_list_value y \/ a_dict y) (x :: l) -> (forall k', dgetN k' p <> VList []) ->
  remove_non_critical p false = (p, Err EType).
Proof.
  intros O NC E NL EX NE. unfold remove_non_critical, get_non_critical_params. rewrite (mapM_raises _ EType); [reflexivity| |].
  - exists (k, VList (x :: l)). split.
    + unfold dgetN in E. destruct (dget k p) eqn:D; [|discriminate]. subst p0. apply dget_In. exact D.
    + cbn [fst snd]. replace (non_critical k) with true.
      2:{ symmetry. unfold non_critical. apply negb_true_iff. destruct (text_in k (map fst CRITICAL)) eqn:T; auto. apply text_in_In in T. exfalso. apply NC. revert T. unfold critical_names. cbn. intuition. }
      unfold no_differences. cbn [py_index nth_error bind]. replace (is_list x) with false by (destruct x; auto; exfalso; apply NL; eexists; reflexivity).
      replace (existsb unhashable (x :: l)) with true; auto. symmetry. apply existsb_exists. apply Exists_exists in EX as (y & I & Y). exists y. split; auto. apply unhashable_iff. exact Y.
  - intros [k0 v0] I. cbn [fst snd]. destruct (non_critical k0); [|left; eauto]. apply no_differences_out. intros ->.
    apply (NE k0). unfold dgetN. rewrite (dget_NoDup _ _ _ (AttemptsProofs.object_NoDup _ O) I). reflexivity.
Qed.
