(** Proofs about equality of values and of Parameters (C68). *)
From Coq Require Import ZifyBool ZifyNat.
From Verif Require Import Base BaseFacts Params SpecParams SpecAttempts SpecEqual.
From Coq Require Import Floats.SpecFloat.
Local Open Scope Z_scope.

(** induction on values inside lists and dictionaries *)
Section Ind.
Variable P : pyval -> Prop.
Hypothesis H1 : P VNone.
Hypothesis H2 : forall b, P (VBool b).
Hypothesis H3 : forall z, P (VInt z).
Hypothesis H4 : forall f, P (VFloat f).
Hypothesis H5 : forall t, P (VStr t).
Hypothesis H6 : forall d, P (VDate d).
Hypothesis H7 : forall l, Forall P l -> P (VList l).
Hypothesis H8 : forall d, Forall (fun kv => P (snd kv)) d -> P (VDict d).
Hypothesis H9 : forall t, P (VType t).
Fixpoint value_ind (v : pyval) : P v :=
  match v with
  | VNone => H1 | VBool b => H2 b | VInt z => H3 z | VFloat f => H4 f | VStr t => H5 t | VDate d => H6 d | VType t => H9 t
  | VList l => H7 l ((fix go l := match l return Forall P l with [] => Forall_nil _ | x :: l' => Forall_cons _ (value_ind x) (go l') end) l)
  | VDict d => H8 d ((fix go d := match d return Forall (fun kv => P (snd kv)) d with [] => Forall_nil _ | x :: d' => Forall_cons x (value_ind (snd x)) (go d') end) d)
  end.
End Ind.

(** ** Numbers *)
Lemma digits_log m : Zpos (digits2_pos m) = Z.log2 (Zpos m) + 1.
Proof.
  induction m as [m IH|m IH|]; cbn [digits2_pos]; auto.
  - rewrite Pos2Z.inj_succ, IH. rewrite (Pos2Z.inj_xI m). rewrite Z.log2_succ_double by lia. lia.
  - rewrite Pos2Z.inj_succ, IH. rewrite (Pos2Z.inj_xO m). rewrite Z.log2_double by lia. lia.
Qed.
Lemma mul_pow_sign a b k : 0 <= k -> Zpos a = Zpos b * 2 ^ k -> Z.log2 (Zpos a) = Z.log2 (Zpos b) + k.
Proof. intros K E. rewrite E. rewrite Z.log2_mul_pow2 by lia. lia. Qed.
Lemma canonical_digits m e : canonical_mantissa 53 1024 m e = true -> fexp 53 1024 (Z.log2 (Zpos m) + 1 + e) = e.
Proof. unfold canonical_mantissa. intros H. apply Zeq_bool_eq in H. rewrite digits_log in H. auto. Qed.
Lemma canonical_unique m e m' e' : canonical_mantissa 53 1024 m e = true -> canonical_mantissa 53 1024 m' e' = true ->
  same_number (Zpos m) e (Zpos m') e' -> m = m' /\ e = e'.
Proof.
  intros C C' E. apply canonical_digits in C, C'. unfold same_number in E.
  assert (L : Z.log2 (Zpos m) + e = Z.log2 (Zpos m') + e').
  { destruct (Z.le_ge_cases e e') as [L|L].
    - rewrite Z.min_l in E by lia. replace (e - e) with 0 in E by lia. rewrite Z.mul_1_r in E. apply mul_pow_sign in E; lia.
    - rewrite Z.min_r in E by lia. replace (e' - e') with 0 in E by lia. rewrite Z.mul_1_r in E. symmetry in E. apply mul_pow_sign in E; lia. }
  assert (EE : e = e') by (rewrite <- C, <- C'; f_equal; lia). subst e'. split; auto.
  rewrite Z.min_l in E by lia. rewrite Z.sub_diag in E. lia.
Qed.
Lemma same_sign (s : bool) m e (s' : bool) m' e' : same_number (if s then Zneg m else Zpos m) e (if s' then Zneg m' else Zpos m') e' -> s = s' /\ same_number (Zpos m) e (Zpos m') e'.
Proof.
  unfold same_number. pose proof (Z.pow_nonneg 2 (e - Z.min e e') ltac:(lia)). pose proof (Z.pow_nonneg 2 (e' - Z.min e e') ltac:(lia)).
  assert (0 < 2 ^ (e - Z.min e e')) by (apply Z.pow_pos_nonneg; lia). assert (0 < 2 ^ (e' - Z.min e e')) by (apply Z.pow_pos_nonneg; lia).
  intros E. destruct s, s'; try (exfalso; nia); split; auto. change (Zneg m) with (- Zpos m) in E. change (Zneg m') with (- Zpos m') in E. lia.
Qed.
Lemma same_zero m e e' : same_number m e 0 e' -> m = 0.
Proof. unfold same_number. assert (0 < 2 ^ (e - Z.min e e')) by (apply Z.pow_pos_nonneg; lia). nia. Qed.
Lemma same_sym m e m' e' : same_number m e m' e' -> same_number m' e' m e.
Proof. unfold same_number. rewrite (Z.min_comm e' e). auto. Qed.
Lemma pow_split m e b : b <= e -> forall c, c <= b -> m * 2 ^ (e - c) = m * 2 ^ (e - b) * 2 ^ (b - c).
Proof. intros L c Lc. rewrite <- Z.mul_assoc, <- Z.pow_add_r by lia. do 2 f_equal. lia. Qed.
(** at any exponent below both *)
Lemma same_at m e m' e' b : b <= e -> b <= e' -> (same_number m e m' e' <-> m * 2 ^ (e - b) = m' * 2 ^ (e' - b)).
Proof.
  intros L L'. unfold same_number. set (c := Z.min e e'). rewrite (pow_split m e c ltac:(lia) b ltac:(lia)), (pow_split m' e' c ltac:(lia) b ltac:(lia)).
  assert (0 < 2 ^ (c - b)) by (apply Z.pow_pos_nonneg; lia). split; intros E; [rewrite E; auto|]. apply Z.mul_cancel_r in E; lia.
Qed.
Lemma same_trans m e m' e' m'' e'' : same_number m e m' e' -> same_number m' e' m'' e'' -> same_number m e m'' e''.
Proof.
  intros A B. set (b := Z.min e (Z.min e' e'')). rewrite (same_at _ _ _ _ b) in A by lia. rewrite (same_at _ _ _ _ b) in B by lia. rewrite (same_at _ _ _ _ b) by lia. congruence.
Qed.
Lemma same_refl m e : same_number m e m e. Proof. reflexivity. Qed.

Lemma float_Z f z : float_eq_Z f z = true <-> exists m e, number_of (VFloat f) m e /\ same_number m e z 0.
Proof.
  destruct f as [s|s| |s m e]; cbn [float_eq_Z].
  - rewrite Z.eqb_eq. split; [intros ->; exists 0, 0; split; [constructor|reflexivity]|]. intros (m & e & N & E). inversion N; subst. apply same_sym, same_zero in E. auto.
  - split; [discriminate|]. intros (m & e & N & _). inversion N.
  - split; [discriminate|]. intros (m & e & N & _). inversion N.
  - set (sm := if s then Zneg m else Zpos m). assert (Q : (if 0 <=? e then sm * 2 ^ e =? z else sm =? z * 2 ^ (- e)) = true <-> same_number sm e z 0).
    { unfold same_number. destruct (0 <=? e) eqn:P; rewrite Z.eqb_eq.
      - rewrite Z.min_r by lia. rewrite !Z.sub_0_r, Z.pow_0_r, Z.mul_1_r. tauto.
      - rewrite Z.min_l by lia. rewrite Z.sub_diag, Z.pow_0_r, Z.mul_1_r. replace (0 - e) with (- e) by lia. tauto. }
    rewrite Q. split; [intros E; exists sm, e; split; auto; constructor|]. intros (m' & e' & N & E). inversion N; subst. auto.
Qed.
Lemma float_float f g : valid_binary 53 1024 f = true -> valid_binary 53 1024 g = true -> (SFeqb f g = true <-> equal_values (VFloat f) (VFloat g)).
Proof.
  intros V W. split.
  - assert (PC : forall a b, Pos.compare_cont Eq a b = Eq -> a = b) by (intros a b; apply Pos.compare_eq).
    unfold SFeqb, SFcompare. intros E. destruct f as [s|[]| |[] m e], g as [s'|[]| |[] m' e']; try discriminate E; try apply ev_infinity.
    + apply (ev_number _ _ 0 0 0 0); [apply no_zero|apply no_zero|reflexivity].
    + destruct (Z.compare_spec e e') as [X|X|X]; try discriminate E. subst e'. destruct (Pos.compare_cont Eq m m') eqn:Y; try discriminate E. apply PC in Y. subst m'.
      eapply ev_number; [apply no_float|apply no_float|apply same_refl].
    + destruct (Z.compare_spec e e') as [X|X|X]; try discriminate E. subst e'. destruct (Pos.compare_cont Eq m m') eqn:Y; try discriminate E. apply PC in Y. subst m'.
      eapply ev_number; [apply no_float|apply no_float|apply same_refl].
  - intros E. inversion E as [|a b m e m' e' N N' SN| s | | | | |]; subst; [|destruct s; reflexivity].
    destruct f as [s|s| |s mf ef], g as [s'|s'| |s' mg eg]; inversion N; inversion N'; subst; auto.
    + apply same_sym, same_zero in SN. destruct s'; discriminate.
    + apply same_zero in SN. destruct s; discriminate.
    + apply same_sign in SN. destruct SN as [-> SN]. cbn [valid_binary] in V, W. unfold bounded in V, W. apply andb_true_iff in V, W.
      destruct (canonical_unique _ _ _ _ (proj1 V) (proj1 W) SN) as [-> ->]. unfold SFeqb, SFcompare. rewrite Z.compare_refl. destruct s'; cbn; rewrite Pos.compare_cont_refl; auto.
Qed.

Lemma number_det a m e m' e' : number_of a m e -> number_of a m' e' -> m = m' /\ e = e'.
Proof. intros N N'. inversion N; subst; inversion N'; subst; auto. Qed.
Lemma equal_numbers a b m e m' e' : number_of a m e -> number_of b m' e' -> (equal_values a b <-> same_number m e m' e').
Proof.
  intros N N'. split; [|intros; eapply ev_number; eauto].
  intros E. inversion E as [|x y m1 e1 m2 e2 A B SN|s|t|d|t|l l' F|d d' F G]; subst; try solve [inversion N].
  destruct (number_det _ _ _ _ _ N A) as [-> ->]. destruct (number_det _ _ _ _ _ N' B) as [-> ->]. auto.
Qed.
Lemma ints_same x y : same_number x 0 y 0 <-> x = y.
Proof. unfold same_number. change (2 ^ (0 - Z.min 0 0)) with 1. lia. Qed.

(** ** Dictionaries *)
Lemma find_dget p k (y : dict) :
  (fix find (y : list (text * pyval)) : bool := match y with [] => false | (k', q) :: y' => if text_eqb k k' then py_eq p q else find y' end) y
  = match dget k y with Some q => py_eq p q | None => false end.
Proof. induction y as [|[k' q] y IH]; auto. cbn [dget]. destruct (text_eqb k k'); auto. Qed.
Lemma eq_dicts x y : py_eq (VDict x) (VDict y) = Nat.eqb (List.length x) (List.length y) &&
  forallb (fun kv => match dget (fst kv) y with Some q => py_eq (snd kv) q | None => false end) x.
Proof.
  cbn [py_eq]. f_equal. induction x as [|[k p] x IH]; auto. cbn [forallb fst snd]. rewrite IH. f_equal. apply find_dget.
Qed.
Lemma eq_lists : forall x y, Forall (fun a => forall b, proper a -> proper b -> (py_eq a b = true <-> equal_values a b)) x -> Forall proper x -> Forall proper y ->
  (py_eq (VList x) (VList y) = true <-> Forall2 equal_values x y).
Proof.
  induction x as [|a x IH]; intros [|b y] F P Q; cbn [py_eq]; try (split; [discriminate|intros H; inversion H]).
  - split; auto.
  - inversion F; subst. inversion P; subst. inversion Q; subst. rewrite andb_true_iff. specialize (IH y). cbn [py_eq] in IH. rewrite IH by auto.
    match goal with H : forall b, _ |- _ => rewrite H by auto end. split; [intros [A B]; constructor; auto|intros H; inversion H; auto].
Qed.
Lemma nodup_dget (d : dict) k v : NoDup (map fst d) -> In (k, v) d -> dget k d = Some v.
Proof.
  induction d as [|[k' v'] d IH]; intros N I; [destruct I|]. cbn [map fst] in N. inversion N; subst. cbn [dget]. destruct I as [E|I].
  - injection E as -> ->. rewrite text_eqb_refl. auto.
  - destruct (text_eqb k k') eqn:E; auto. apply text_eqb_eq in E. subst. exfalso. match goal with H : ~ In _ _ |- _ => apply H end. apply in_map_iff. exists (k', v). auto.
Qed.

Lemma bool_number b : number_of (VBool b) (bZ b) 0. Proof. apply no_bool. Qed.
Ltac none := split; [discriminate|let E := fresh in intros E; inversion E; subst;
  repeat match goal with N : number_of _ _ _ |- _ => solve [inversion N] end].
Lemma eq_iff a : forall b, proper a -> proper b -> (py_eq a b = true <-> equal_values a b).
Proof.
  induction a as [|x|x|f|t|d|l F|d F|t] using value_ind; intros b P Q.
  - destruct b; cbn [py_eq]; try solve [none]. split; auto using ev_none.
  - destruct b as [|y|y|f|t|d|l|d|t]; cbn [py_eq]; try solve [none].
    + rewrite (equal_numbers _ _ _ _ _ _ (bool_number x) (bool_number y)), ints_same. destruct x, y; cbn; intuition discriminate.
    + rewrite (equal_numbers _ _ _ _ _ _ (bool_number x) (no_int y)), ints_same. lia.
    + rewrite float_Z. split.
      * intros (m & e & N & E). eapply ev_number; eauto using bool_number. apply same_sym. auto.
      * intros E. inversion E; subst. match goal with A : number_of (VBool _) _ _, B : number_of (VFloat _) ?m ?e |- _ => exists m, e; inversion A; subst end. split; auto. apply same_sym. auto.
  - destruct b as [|y|y|f|t|d|l|d|t]; cbn [py_eq]; try solve [none].
    + rewrite (equal_numbers _ _ _ _ _ _ (no_int x) (bool_number y)), ints_same. lia.
    + rewrite (equal_numbers _ _ _ _ _ _ (no_int x) (no_int y)), ints_same. lia.
    + rewrite float_Z. split.
      * intros (m & e & N & E). eapply ev_number; eauto using no_int. apply same_sym. auto.
      * intros E. inversion E; subst. match goal with A : number_of (VInt _) _ _, B : number_of (VFloat _) ?m ?e |- _ => exists m, e; inversion A; subst end. split; auto. apply same_sym. auto.
  - destruct b as [|y|y|g|t|d|l|d|t]; cbn [py_eq]; try solve [none].
    + rewrite float_Z. split.
      * intros (m & e & N & E). eapply ev_number; eauto using bool_number.
      * intros E. inversion E; subst. match goal with A : number_of (VBool _) _ _, B : number_of (VFloat _) ?m ?e |- _ => exists m, e; inversion A; subst end. split; auto.
    + rewrite float_Z. split.
      * intros (m & e & N & E). eapply ev_number; eauto using no_int.
      * intros E. inversion E; subst. match goal with A : number_of (VInt _) _ _, B : number_of (VFloat _) ?m ?e |- _ => exists m, e; inversion A; subst end. split; auto.
    + inversion P; inversion Q; subst. apply float_float; auto.
  - destruct b; cbn [py_eq]; try solve [none]. rewrite text_eqb_eq. split; [intros ->; constructor|intros E; inversion E; subst; auto; match goal with N : number_of _ _ _ |- _ => inversion N end].
  - destruct b as [|y|y|g|t|d'|l|d'|t]; cbn [py_eq]; try solve [none]. unfold dt_eqb. rewrite !andb_true_iff, !Z.eqb_eq. destruct d, d'. cbn. split.
    + intros [[[-> ->] ->] ->]. constructor.
    + intros E. inversion E; subst; auto. match goal with N : number_of _ _ _ |- _ => inversion N end.
  - destruct b as [|y|y|g|t|d'|l'|d'|t]; try solve [cbn [py_eq]; none]. inversion P; inversion Q; subst. rewrite eq_lists by auto. split; [constructor; auto|].
    intros E. inversion E; subst; auto. match goal with N : number_of _ _ _ |- _ => inversion N end.
  - destruct b as [|y|y|g|t|d'|l'|d'|t]; try solve [cbn [py_eq]; none]. inversion P as [| | | | | | | |x Nd Pd]; inversion Q as [| | | | | | | |x' Nd' Pd']; subst.
    rewrite eq_dicts, andb_true_iff, Nat.eqb_eq, forallb_forall. rewrite Forall_forall in F. split.
    + intros [L G].
      assert (Inc : incl (map fst d) (map fst d')).
      { intros k I. apply in_map_iff in I. destruct I as ([k' v] & <- & I). specialize (G _ I). cbn [fst snd] in *.
        destruct (dget k' d') as [q|] eqn:D; [|discriminate]. apply dget_In in D. apply in_map_iff. exists (k', q). auto. }
      assert (Inc' : incl (map fst d') (map fst d)). { apply NoDup_length_incl; auto. rewrite !map_length. lia. }
      constructor; [intros k; split; auto|]. intros k v v' I I'. specialize (G _ I). cbn [fst snd] in G. rewrite (nodup_dget d' k v') in G by auto.
      apply (F (k, v)) in G; eauto.
    + intros E. assert (E' : (forall k, In k (map fst d) <-> In k (map fst d')) /\ (forall k v v', In (k, v) d -> In (k, v') d' -> equal_values v v')).
      { inversion E; subst; auto. match goal with N : number_of _ _ _ |- _ => inversion N end. }
      destruct E' as [K V]. split.
      * rewrite <- (map_length fst d), <- (map_length fst d'). apply Nat.le_antisymm; apply NoDup_incl_length; auto; intros k; apply K.
      * intros [k v] I. cbn [fst snd]. assert (I' : In k (map fst d')) by (apply K; apply in_map_iff; exists (k, v); auto).
        apply in_map_iff in I'. destruct I' as ([k' v'] & EK & I'). cbn [fst] in EK. subst k'. rewrite (nodup_dget d' k v') by auto. apply (F (k, v)); cbn [snd]; eauto.
  - destruct b as [|y|y|g|t'|d'|l'|d'|t']; cbn [py_eq]; try solve [none]. split.
    + intros E. destruct t, t'; try discriminate; constructor.
    + intros E. inversion E; subst; [match goal with N : number_of _ _ _ |- _ => inversion N end|]. destruct t'; auto.
Qed.

(** ** Equivalence *)
Lemma equal_sym a : forall b, equal_values a b -> equal_values b a.
Proof.
  induction a as [|x|x|f|t|d|l F|d F|t] using value_ind; intros b E; inversion E; subst;
    try solve [match goal with A : number_of ?a _ _, B : number_of b _ _, C : same_number _ _ _ _ |- equal_values b ?a => eapply ev_number; [exact B|exact A|apply same_sym; exact C] end]; try solve [constructor].
  - constructor. match goal with G : Forall2 _ _ _ |- _ => clear E; induction G end; constructor; inversion F; subst; auto.
  - match goal with K : forall k, In k (map fst d) <-> _, V : forall k v v', In (k, v) d -> _ |- _ => constructor; [intros k; rewrite K; tauto|] end.
    intros k v v' I I'. rewrite Forall_forall in F. apply (F (k, v')); auto. cbn [snd]. eauto.
Qed.
Lemma equal_trans a : forall b c, equal_values a b -> equal_values b c -> equal_values a c.
Proof.
  assert (NN : forall a b c m e m' e', number_of a m e -> number_of b m' e' -> same_number m e m' e' -> equal_values b c -> equal_values a c).
  { intros x y z m e m' e' A B C E. inversion E; subst; try solve [inversion B].
    match goal with D : number_of y ?m1 ?e1, C' : same_number ?m1 ?e1 _ _ |- _ => destruct (number_det _ _ _ _ _ B D) as [-> ->] end.
    eapply ev_number; eauto. eapply same_trans; eauto. }
  induction a as [|x|x|f|t|d|l F|d F|t] using value_ind; intros b c E E'; inversion E; subst; auto;
    try (match goal with A : number_of _ _ _, B : number_of b _ _ |- _ => eapply NN; [exact A|exact B|eassumption|auto] end).
  - inversion E' as [|? ? ? ? ? ? N| | | | |l1 l2 G2|]; subst; [inversion N|]. constructor.
    match goal with G : Forall2 _ l l' |- _ => clear E E'; revert l2 G2; induction G end; intros z G'; inversion G'; subst; constructor; inversion F; subst; eauto.
  - inversion E' as [|? ? ? ? ? ? N| | | | | |d1 d2 K2 V2]; subst; [inversion N|]. match goal with K : forall k, In k (map fst d) <-> _ |- _ => rename K into K1 end.
    match goal with V : forall k v v', In (k, v) d -> _ |- _ => rename V into V1 end.
    constructor; [intros k; rewrite K1; auto|]. intros k v w I I'. assert (M : In k (map fst d')) by (apply K1; apply in_map_iff; exists (k, v); auto).
    apply in_map_iff in M. destruct M as ([k' u] & EK & M). cbn [fst] in EK. subst k'. rewrite Forall_forall in F. apply (F (k, v) I u w); eauto.
Qed.
Lemma equal_refl a : proper a -> without_nan a -> equal_values a a.
Proof.
  induction a as [|x|x|f|t|d|l F|d F|t] using value_ind; intros P W; try solve [constructor].
  - eapply ev_number; try apply no_bool. apply same_refl.
  - eapply ev_number; try apply no_int. apply same_refl.
  - inversion W; subst. destruct f as [s|s| |s m e]; try congruence; [|constructor|].
    + eapply ev_number; try apply no_zero. apply same_refl.
    + eapply ev_number; try apply no_float. apply same_refl.
  - constructor. inversion P; inversion W; subst. clear P W. induction l; constructor; repeat match goal with G : Forall _ (_ :: _) |- _ => inversion G; clear G; subst end; auto.
  - inversion P as [| | | | | | | |x Nd Pd]; inversion W as [| | | | | | | |y Wd]; subst. constructor; [tauto|]. intros k v v' I I'.
    assert (v = v') by (apply (nodup_dget d k v) in I; auto; apply (nodup_dget d k v') in I'; auto; congruence). subst v'.
    rewrite Forall_forall in F. apply (F (k, v)); cbn [snd]; eauto.
Qed.
(** a value equal to itself has no NaN in it *)
Lemma equal_self a : equal_values a a -> without_nan a.
Proof.
  induction a as [|x|x|f|t|d|l F|d F|t] using value_ind; intros E; try solve [constructor].
  - constructor. intros ->. inversion E; subst. match goal with N : number_of _ _ _ |- _ => inversion N end.
  - constructor. inversion E; subst; [match goal with N : number_of _ _ _ |- _ => inversion N end|]. clear E.
    induction l; constructor; repeat match goal with G : Forall _ (_ :: _) |- _ => inversion G; clear G; subst | G : Forall2 _ (_ :: _) _ |- _ => inversion G; clear G; subst end; auto.
  - constructor. inversion E; subst; [match goal with N : number_of _ _ _ |- _ => inversion N end|]. intros k v I. rewrite Forall_forall in F. apply (F (k, v)); cbn [snd]; eauto.
Qed.

(** ** Parameters *)
Lemma names_nodup (p : dict) : parameters_object p -> NoDup (map fst p).
Proof. intros ->. repeat constructor; cbn; intuition discriminate. Qed.
Lemma params_iff p q : proper_parameters p -> proper_parameters q ->
  (params_eq p q = true <-> forall k v w, In (k, v) p -> In (k, w) q -> equal_values v w).
Proof.
  intros [O V] [O' V']. pose proof (names_nodup _ O) as N. pose proof (names_nodup _ O') as N'. unfold params_eq. rewrite andb_true_iff, !forallb_forall. split.
  - intros [A _] k v w I I'. specialize (A _ I). cbn [fst snd] in A. unfold dgetN in A. rewrite (nodup_dget q k w) in A by auto. apply eq_iff in A; eauto.
  - assert (Ex : forall x y : dict, map fst x = map fst y -> forall k v, In (k, v) x -> exists w, In (k, w) y).
    { intros x y M k v I. assert (J : In k (map fst y)) by (rewrite <- M; apply in_map_iff; exists (k, v); auto). apply in_map_iff in J. destruct J as ([k' w] & E & J). cbn [fst] in E. subst. eauto. }
    intros A. split; intros [k v] I; cbn [fst snd]; unfold dgetN.
    + destruct (Ex p q ltac:(congruence) _ _ I) as (w & J). rewrite (nodup_dget q k w) by auto. apply eq_iff; eauto.
    + destruct (Ex q p ltac:(congruence) _ _ I) as (w & J). rewrite (nodup_dget p k w) by auto. apply eq_iff; eauto.
Qed.
