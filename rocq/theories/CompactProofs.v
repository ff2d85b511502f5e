(** The compact representation of a Parameters object (C74). *)
From Coq Require Import ZifyBool ZifyNat.
From Verif Require Import Base BaseFacts Coord CoordFacts XlMethods Params Compact
  SpecCoord SpecCoordFacts SpecParams SpecScope HeaderFacts ComposedFacts ScopeFacts ScopeExact BuildFacts BuildInv ParamsFacts ParamsProofs ParamsProofs2 SpecAttempts AttemptsFacts
  SpecEnd BuildAccept SpecCompact.
Local Open Scope Z_scope.

(** ** The dictionary *)
Definition item (o : option pyval) (k : text) : dict := match o with Some u => [(k, u)] | None => [] end.
Lemma item_keys o k : incl (map fst (item o k)) [k].
Proof. destruct o; intros x X; cbn in *; auto. Qed.
Lemma keys_app (a b : dict) : map fst (a ++ b) = map fst a ++ map fst b.
Proof. apply map_app. Qed.
Lemma dget_app k a b : dget k (a ++ b) = match dget k a with Some v => Some v | None => dget k b end.
Proof. induction a as [|[k' v] a IH]; cbn; auto. destruct (text_eqb k k'); auto. Qed.

Lemma compact_made f : forall q : dict, NoDup (map fst q) ->
  (forall k v, In (k, v) q -> exists o, f (k, v) = Ok (item o k)) ->
  exists parts, mapM f q = Ok parts /\ NoDup (map fst (List.concat parts)) /\ incl (map fst (List.concat parts)) (map fst q) /\
    forall k v, In (k, v) q -> f (k, v) = Ok (item (dget k (List.concat parts)) k).
Proof.
  induction q as [|[k v] q IH]; intros ND H.
  - exists []. cbn. split; auto. split; [constructor|]. split; [intros x []|]. intros k v [].
  - inversion ND as [|? ? NI ND']; subst. destruct (IH ND') as (parts & M & N & I & G); [intros; apply H; right; auto|].
    destruct (H k v (or_introl eq_refl)) as (o & O). exists (item o k :: parts). cbn [mapM]. rewrite O. cbn [bind]. rewrite M. cbn [bind].
    assert (NK : dget k (List.concat parts) = None) by (apply dget_None; intros X; apply NI, I, X).
    split; auto. cbn [List.concat]. split; [|split].
    + rewrite keys_app. destruct o; cbn; auto. constructor; auto.
    + rewrite keys_app. intros x X. apply in_app_iff in X as [X|X]; [left; apply item_keys in X as [X|[]]; auto|right; auto].
    + intros k' v' [E|X].
      * inversion E; subst. rewrite O, dget_app. destruct o as [u|]; cbn [item dget]; [rewrite text_eqb_refl; auto|rewrite NK; auto].
      * rewrite (G _ _ X), dget_app. assert (k' <> k) by (intros ->; apply NI; eapply In_keys; eauto).
        destruct o as [u|]; cbn [item dget]; auto. rewrite (proj2 (text_eqb_neq _ _)); auto.
Qed.

Lemma missing_or k : In k PARAM_NAMES -> text_in k OPTIONAL = true \/
  text_in k OPTIONAL = false /\ match vget k VALID_VALUES with Some vv => negb (none_in vv) | None => false end = true.
Proof.
  intros K. unfold PARAM_NAMES in K. repeat (destruct K as [<-|K]; [first [left; reflexivity|right; split; reflexivity]|]). destruct K.
Qed.
Lemma default_kinds k : In k PARAM_NAMES -> text_in k USE_DEFAULT = true -> dget k DEFAULT_VALUES = Some (dgetN k DEFAULT_VALUES).
Proof.
  intros K. unfold PARAM_NAMES in K. repeat (destruct K as [<-|K]; [first [intros; reflexivity|discriminate]|]). destruct K.
Qed.
Definition a_default (k : text) (v : pyval) : bool := text_in k USE_DEFAULT && py_eq (dgetN k DEFAULT_VALUES) v.
Lemma default_test k v : In k PARAM_NAMES -> is_default k v =
  if is_repeated v then (if text_in k USE_DEFAULT then do x <- py_index v 0; Ok (a_default k x) else Ok false) else Ok (a_default k v).
Proof.
  intros K. unfold is_default, a_default. destruct (text_in k USE_DEFAULT) eqn:E; [|destruct (is_repeated v); reflexivity].
  unfold dgetE. rewrite (default_kinds _ K E). cbn [bind andb]. destruct (is_repeated v); reflexivity.
Qed.

(** what becomes of a list of values *)
Definition squeezed (k : text) (x : pyval) (l : list pyval) : option pyval :=
  if is_repeated (VList (x :: l)) then
    if text_in k OPTIONAL && is_none x then None else if a_default k x then None else Some x
  else if a_default k (VList (x :: l)) then None else Some (VList (x :: l)).
Lemma compact_list p k x l : In k PARAM_NAMES -> dgetN k p = VList (x :: l) -> compact_one p k (VList (x :: l)) = Ok (item (squeezed k x l) k).
Proof.
  intros K E. unfold compact_one, is_missing. rewrite E. cbn [is_none andb]. unfold is_optional. rewrite (default_test _ _ K). unfold squeezed.
  destruct (is_repeated (VList (x :: l))) eqn:R.
  - cbn [py_index nth_error]. destruct (text_in k OPTIONAL) eqn:O; cbn [bind andb].
    + destruct (is_none x); [reflexivity|]. unfold a_default. destruct (text_in k USE_DEFAULT); cbn [bind andb]; auto. destruct (py_eq _ x); reflexivity.
    + unfold a_default. destruct (text_in k USE_DEFAULT); cbn [bind andb]; auto. destruct (py_eq _ x); reflexivity.
  - cbn [is_none]. rewrite andb_false_r. cbn [bind]. destruct (a_default k _); reflexivity.
Qed.
Lemma compact_none p k : In k PARAM_NAMES -> dgetN k p = VNone -> compact_one p k VNone = Ok [].
Proof.
  intros K E. unfold compact_one, is_missing. rewrite E. cbn [is_none andb]. destruct (missing_or k K) as [O|[O M]]; [|rewrite M; reflexivity].
  destruct (match vget k VALID_VALUES with Some vv => negb (none_in vv) | None => false end); auto.
  unfold is_optional. cbn [is_repeated]. rewrite O. reflexivity.
Qed.
Lemma compact_scalar p k v : In k PARAM_NAMES -> dgetN k p = v -> ~ is_list_value v -> v <> VNone ->
  compact_one p k v = Ok (item (if a_default k v then None else Some v) k).
Proof.
  intros K E L N. unfold compact_one, is_missing. rewrite E. replace (is_none v) with false by (destruct v; auto; congruence). cbn [andb].
  unfold is_optional. rewrite (default_test _ _ K). replace (is_repeated v) with false by (destruct v; auto; exfalso; apply L; eexists; reflexivity).
  replace (is_none v) with false by (destruct v; auto; congruence). rewrite andb_false_r. cbn [bind]. destruct (a_default k v); reflexivity.
Qed.

Section Object.
Variable p : dict.
Hypothesis OBJ : map fst p = PARAM_NAMES.
Lemma p_nodup : NoDup (map fst p).
Proof. rewrite OBJ. apply names_nodup. Qed.
Lemma p_in k : In k PARAM_NAMES -> In (k, dgetN k p) p.
Proof. intros K. apply dget_In. rewrite <- OBJ in K. apply dgetN_in; auto. Qed.
Lemma in_p k v : In (k, v) p -> In k PARAM_NAMES /\ dgetN k p = v.
Proof. intros I. split; [rewrite <- OBJ; eapply In_keys; eauto|]. apply dgetN_some. apply dget_NoDup; auto. apply p_nodup. Qed.

Lemma compact_all : (forall k, dgetN k p <> VList []) ->
  exists c, compact_repr p = Ok c /\ NoDup (map fst c) /\ incl (map fst c) PARAM_NAMES /\
    forall k, In k PARAM_NAMES -> compact_one p k (dgetN k p) = Ok (item (dget k c) k).
Proof.
  intros NE. destruct (compact_made (fun kv => compact_one p (fst kv) (snd kv)) p p_nodup) as (parts & M & N & I & G).
  - intros k v X. cbn [fst snd]. destruct (in_p _ _ X) as [K E]. destruct v; try (eexists; apply compact_scalar; auto; [intros [? Y]|]; discriminate).
    + exists None. apply compact_none; auto.
    + destruct l as [|x l]; [exfalso; eapply NE; eauto|]. eexists. apply compact_list; auto.
  - exists (List.concat parts). unfold compact_repr. rewrite M. cbn [bind]. split; auto. split; auto. split; [rewrite <- OBJ; auto|].
    intros k K. apply (G k (dgetN k p)). apply p_in; auto.
Qed.

Lemma item_inj o o' k : Ok (item o k) = Ok (item o' k) -> o = o'.
Proof. destruct o, o'; cbn; intros E; inversion E; auto. Qed.

Section Dict.
Variable c : dict.
Hypothesis IT : forall k, In k PARAM_NAMES -> compact_one p k (dgetN k p) = Ok (item (dget k c) k).
Lemma c_list k x l : In k PARAM_NAMES -> dgetN k p = VList (x :: l) -> dget k c = squeezed k x l.
Proof. intros K E. specialize (IT k K). rewrite E, (compact_list _ _ _ _ K E) in IT. symmetry. eapply item_inj; eauto. Qed.
Lemma c_none k : In k PARAM_NAMES -> dgetN k p = VNone -> dget k c = None.
Proof. intros K E. specialize (IT k K). rewrite E, (compact_none _ _ K E) in IT. symmetry. apply (item_inj None _ k). auto. Qed.
Lemma c_scalar k v : In k PARAM_NAMES -> dgetN k p = v -> ~ is_list_value v -> v <> VNone -> dget k c = if a_default k v then None else Some v.
Proof. intros K E L N. specialize (IT k K). rewrite E, (compact_scalar _ _ _ K E L N) in IT. symmetry. eapply item_inj; eauto. Qed.
End Dict.
End Object.

(** ** What the dictionary says *)
Lemma default_in k : In k PARAM_NAMES -> text_in k USE_DEFAULT = true ->
  In (k, dgetN k DEFAULT_VALUES) [(pname "time_alignment", VInt 0); (pname "missing_value", VList usual_markers)].
Proof.
  intros K. unfold PARAM_NAMES in K. repeat (destruct K as [<-|K]; [first [intros; left; reflexivity|intros; right; left; reflexivity|discriminate]|]). destruct K.
Qed.
Lemma repeated_all x l : is_repeated (VList (x :: l)) = true -> Forall (fun y => py_eq y x = true) l.
Proof. cbn [is_repeated forallb]. intros H. apply andb_true_iff in H as [_ H]. apply Forall_forall. apply forallb_forall. auto. Qed.
Lemma not_repeated x l : is_repeated (VList (x :: l)) = false -> Exists (fun y => py_eq y x = false) (x :: l).
Proof.
  unfold is_repeated. generalize (x :: l) at 1 2. intros q. induction q as [|y q IH]; cbn [forallb]; [discriminate|]. intros H.
  destruct (py_eq y x) eqn:E; [right; auto|left; auto].
Qed.
Lemma c74_says p : parameters_object p -> (forall k, dgetN k p <> VList []) ->
  exists c, compact_repr p = Ok c /\ NoDup (map fst c) /\ incl (map fst c) (map fst p) /\
    forall k v, In (k, v) p -> match dget k c with Some u => compacted v u | None => left_out k v end.
Proof.
  intros OBJ NE. destruct (compact_all p OBJ NE) as (c & M & N & I & IT). exists c. split; auto. split; auto. split; [rewrite OBJ; exact I|].
  intros k v X. destruct (in_p p OBJ _ _ X) as [K E].
  assert (SC : ~ is_list_value v -> v <> VNone -> match dget k c with Some u => compacted v u | None => left_out k v end).
  { intros L NN. rewrite (c_scalar p c IT k v K E L NN). destruct (a_default k v) eqn:D; [|apply cp_one; auto].
    apply andb_true_iff in D as [D1 D2]. eapply lt_default; [apply default_in; auto|apply cp_one; auto|auto]. }
  destruct v; try (apply SC; [intros [? Y]|]; discriminate); clear SC.
  - rewrite (c_none p c IT k K E). apply lt_missing. auto.
  - destruct l as [|x l]; [exfalso; eapply NE; eauto|]. rewrite (c_list p c IT k x l K E). unfold squeezed.
    destruct (is_repeated (VList (x :: l))) eqn:R.
    + assert (CP : compacted (VList (x :: l)) x) by (eapply cp_same; [reflexivity|apply repeated_all; auto]).
      destruct (text_in k OPTIONAL && is_none x) eqn:O.
      * apply andb_true_iff in O as [O1 O2]. destruct x; try discriminate. apply lt_optional; auto. apply text_in_In in O1. exact O1.
      * destruct (a_default k x) eqn:D; auto. apply andb_true_iff in D as [D1 D2]. eapply lt_default; [apply default_in; auto|exact CP|auto].
    + assert (CP : compacted (VList (x :: l)) (VList (x :: l))) by (eapply cp_each; [reflexivity|exists x, l; split; auto; apply not_repeated; auto]).
      destruct (a_default k (VList (x :: l))) eqn:D; auto. apply andb_true_iff in D as [D1 D2]. eapply lt_default; [apply default_in; auto|exact CP|auto].
Qed.
