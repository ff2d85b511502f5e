(** Facts about the foundations of Base.v. *)
From Coq Require Import ZifyBool ZifyNat ZifyN.
From Coq Require FinFun.
From Coq Require Import DecimalFacts DecimalPos DecimalN.
From Verif Require Import Base.
Local Open Scope Z_scope.
Ltac Zify.zify_post_hook ::= Z.div_mod_to_equations.

(** ** Results *)
Lemma bind_ok {A B} (r : res A) (f : A -> res B) b :
  bind r f = Ok b <-> exists a, r = Ok a /\ f a = Ok b.
Proof.
  destruct r as [a|x]; cbn; split.
  - intros H; exists a; split; auto.
  - intros [a' [E H]]; inversion E; subst; auto.
  - discriminate.
  - intros [a' [E _]]; discriminate.
Qed.

Lemma bind_err {A B} (r : res A) (f : A -> res B) x :
  bind r f = Err x <-> r = Err x \/ exists a, r = Ok a /\ f a = Err x.
Proof.
  destruct r as [a|y]; cbn; split.
  - intros H; right; exists a; auto.
  - intros [E|[a' [E H]]]; [discriminate|]; inversion E; subst; auto.
  - intros H; left; congruence.
  - intros [E|[a' [E _]]]; congruence.
Qed.

Lemma assert_ok b : assert_ b = Ok tt <-> b = true.
Proof. destruct b; cbn; split; congruence. Qed.
Lemma assert_ok' b u : assert_ b = Ok u <-> b = true.
Proof. destruct b, u; cbn; split; congruence. Qed.

Ltac inv_bind H :=
  let a := fresh "a" in let E := fresh "E" in
  apply bind_ok in H; destruct H as [a [E H]].

Lemma mapM_ok {A B} (f : A -> res B) l ys :
  mapM f l = Ok ys <-> Forall2 (fun x y => f x = Ok y) l ys.
Proof.
  revert ys; induction l as [|x l IH]; intros ys; cbn.
  - split; intros H; [inversion H; constructor | inversion H; auto].
  - split.
    + intros H. inv_bind H. inv_bind H. inversion H; subst.
      constructor; auto. apply IH; auto.
    + intros H. inversion H as [|? y ? ys' H1 H2]; subst.
      rewrite H1; cbn. apply IH in H2. rewrite H2; auto.
Qed.

Lemma mapM_length {A B} (f : A -> res B) l ys : mapM f l = Ok ys -> List.length ys = List.length l.
Proof. intros H. apply mapM_ok in H. induction H; cbn; congruence. Qed.

Lemma mapM_pure {A B} (f : A -> res B) (g : A -> B) l :
  (forall x, In x l -> f x = Ok (g x)) -> mapM f l = Ok (map g l).
Proof.
  induction l as [|x l IH]; intros H; cbn; auto.
  rewrite (H x) by (left; auto). cbn. rewrite IH; auto. intros y Hy; apply H; right; auto.
Qed.

Lemma mapM_ext {A B} (f g : A -> res B) l :
  (forall x, In x l -> f x = g x) -> mapM f l = mapM g l.
Proof.
  induction l as [|x l IH]; intros H; cbn; auto.
  rewrite (H x) by (left; auto). rewrite IH; auto. intros y Hy; apply H; right; auto.
Qed.

Lemma mapM_app {A B} (f : A -> res B) l1 l2 :
  mapM f (l1 ++ l2) = do a <- mapM f l1; do b <- mapM f l2; Ok (a ++ b).
Proof.
  induction l1 as [|x l IH]; cbn.
  - destruct (mapM f l2); auto.
  - destruct (f x); cbn; auto. rewrite IH. destruct (mapM f l); cbn; auto.
    destruct (mapM f l2); cbn; auto.
Qed.

Lemma foldM_app {A S} (f : S -> A -> res S) l1 l2 s :
  foldM f (l1 ++ l2) s = do s' <- foldM f l1 s; foldM f l2 s'.
Proof.
  revert s; induction l1 as [|x l IH]; intros s; cbn; auto.
  destruct (f s x); cbn; auto.
Qed.

Lemma foldM_inv {A S} (f : S -> A -> res S) (P : S -> Prop) l s s' :
  (forall s x s', In x l -> P s -> f s x = Ok s' -> P s') ->
  P s -> foldM f l s = Ok s' -> P s'.
Proof.
  revert s; induction l as [|x l IH]; intros s Hf Hs H; cbn in H.
  - inversion H; subst; auto.
  - inv_bind H. apply (IH a); auto.
    + intros s1 x1 s2 Hx; apply Hf; right; auto.
    + apply (Hf s x a); auto; left; auto.
Qed.

(** foldM over unit: every step succeeds *)
Lemma foldM_unit {A} (f : A -> res unit) l :
  foldM (fun _ x => f x) l tt = Ok tt <-> forall x, In x l -> f x = Ok tt.
Proof.
  induction l as [|x l IH]; cbn.
  - split; auto; intros _ x [].
  - destruct (f x) as [[]|e] eqn:E; cbn.
    + rewrite IH. split.
      * intros H y [->|Hy]; auto.
      * intros H y Hy; auto.
    + split; [discriminate|]. intros H. rewrite H in E by auto. discriminate.
Qed.

(** ** Texts *)
Lemma ch_eqb_eq a b : ch_eqb a b = true <-> a = b.
Proof. apply Ascii.eqb_eq. Qed.
Lemma ch_eqb_refl a : ch_eqb a a = true.
Proof. apply Ascii.eqb_refl. Qed.
Lemma ch_eqb_neq a b : ch_eqb a b = false <-> a <> b.
Proof. apply Ascii.eqb_neq. Qed.
Lemma ch_eqb_sym a b : ch_eqb a b = ch_eqb b a.
Proof. apply Ascii.eqb_sym. Qed.

Lemma text_eqb_eq a b : text_eqb a b = true <-> a = b.
Proof.
  revert b; induction a as [|x a IH]; intros [|y b]; cbn; try (split; congruence).
  rewrite andb_true_iff, ch_eqb_eq, IH. split; [intros [-> ->]; auto | intros E; inversion E; auto].
Qed.
Lemma text_eqb_refl a : text_eqb a a = true.
Proof. apply text_eqb_eq; auto. Qed.
Lemma text_eqb_neq a b : text_eqb a b = false <-> a <> b.
Proof.
  split.
  - intros H E. subst. rewrite text_eqb_refl in H. discriminate.
  - intros H. destruct (text_eqb a b) eqn:E; auto. apply text_eqb_eq in E. contradiction.
Qed.
Lemma text_eqb_sym a b : text_eqb a b = text_eqb b a.
Proof.
  destruct (text_eqb a b) eqn:E.
  - apply text_eqb_eq in E; subst. symmetry; apply text_eqb_refl.
  - symmetry. apply text_eqb_neq. apply text_eqb_neq in E. auto.
Qed.

Lemma text_in_In t l : text_in t l = true <-> In t l.
Proof.
  unfold text_in. rewrite existsb_exists. split.
  - intros [x [H E]]. apply text_eqb_eq in E; subst; auto.
  - intros H. exists t. split; auto. apply text_eqb_refl.
Qed.

Lemma text_dec (a b : text) : {a = b} + {a <> b}.
Proof. apply (list_eq_dec ascii_dec). Qed.

Lemma ch_in_In c t : ch_in c t = true <-> In c t.
Proof.
  unfold ch_in. rewrite existsb_exists. split.
  - intros [x [H E]]. apply ch_eqb_eq in E; subst; auto.
  - intros H; exists c; split; auto. apply ch_eqb_refl.
Qed.

Lemma take_drop_while f t : take_while f t ++ drop_while f t = t.
Proof. induction t as [|c t IH]; cbn; auto. destruct (f c); cbn; congruence. Qed.
Lemma take_while_all f t : forallb f (take_while f t) = true.
Proof. induction t as [|c t IH]; cbn; auto. destruct (f c) eqn:E; cbn; auto. rewrite E; auto. Qed.
Lemma take_while_app f a b :
  forallb f a = true -> match b with [] => True | c :: _ => f c = false end ->
  take_while f (a ++ b) = a.
Proof.
  intros Ha Hb. induction a as [|c a IH]; cbn in *.
  - destruct b; cbn; auto. rewrite Hb; auto.
  - apply andb_true_iff in Ha. destruct Ha as [H1 H2]. rewrite H1, IH; auto.
Qed.
Lemma drop_while_app f a b :
  forallb f a = true -> match b with [] => True | c :: _ => f c = false end ->
  drop_while f (a ++ b) = b.
Proof.
  intros Ha Hb. induction a as [|c a IH]; cbn in *.
  - destruct b; cbn; auto. rewrite Hb; auto.
  - apply andb_true_iff in Ha. destruct Ha as [H1 H2]. rewrite H1, IH; auto.
Qed.
Lemma drop_while_head f t c r : drop_while f t = c :: r -> f c = false.
Proof.
  induction t as [|x t IH]; cbn; [discriminate|]. destruct (f x) eqn:E; auto.
  intros H; inversion H; subst; auto.
Qed.

(** a text without spaces at either end is its own strip *)
Definition tight (t : text) : Prop :=
  match t with [] => True | c :: _ => is_space c = false end /\
  match rev t with [] => True | c :: _ => is_space c = false end.
Lemma drop_while_none f t :
  match t with [] => True | c :: _ => f c = false end -> drop_while f t = t.
Proof. destruct t as [|c t]; cbn; auto. intros ->; auto. Qed.
Lemma strip_tight t : tight t -> strip t = t.
Proof.
  intros [H1 H2]. unfold strip. rewrite (drop_while_none is_space t H1).
  rewrite (drop_while_none is_space (rev t) H2). apply rev_involutive.
Qed.
Lemma tight_nospace t : forallb (fun c => negb (is_space c)) t = true -> tight t.
Proof.
  intros H. rewrite forallb_forall in H.
  split.
  - destruct t as [|c t]; auto. apply negb_true_iff. apply H. left; auto.
  - destruct (rev t) as [|c r] eqn:E; auto. apply negb_true_iff. apply H.
    apply in_rev. rewrite E. left; auto.
Qed.

(** ** Decimal texts *)
Lemma code_range c : 0 <= code c < 256.
Proof.
  unfold code. pose proof (N_ascii_bounded c). lia.
Qed.

Lemma digits_val_app a b acc :
  fold_left (fun acc c => acc * 10 + digit_val c) (a ++ b) acc =
  fold_left (fun acc c => acc * 10 + digit_val c) b
    (fold_left (fun acc c => acc * 10 + digit_val c) a acc).
Proof. apply fold_left_app. Qed.

Lemma uint_text_acc u : forall acc,
  fold_left (fun acc c => acc * 10 + digit_val c) (uint_text u) (Zpos acc)
  = Zpos (Pos.of_uint_acc u acc).
Proof.
  induction u; intros acc; cbn [uint_text fold_left Pos.of_uint_acc]; auto;
    rewrite <- IHu; f_equal;
    match goal with |- context [digit_val ?c] =>
      let v := eval vm_compute in (digit_val c) in change (digit_val c) with v end; lia.
Qed.

Lemma uint_text_val u : digits_val (uint_text u) = Z.of_N (N.of_uint u).
Proof.
  unfold digits_val, N.of_uint.
  induction u; cbn [uint_text fold_left Pos.of_uint]; auto;
    change (Z.of_N (N.pos ?p)) with (Zpos p);
    try (rewrite <- IHu; reflexivity);
    rewrite <- uint_text_acc; reflexivity.
Qed.

Lemma uint_text_digits u : forallb is_digit (uint_text u) = true.
Proof. induction u; cbn [uint_text forallb]; auto. Qed.

Lemma to_uint_nonnil n : N.to_uint n <> Decimal.Nil.
Proof.
  destruct n; cbn; [discriminate|]. apply DecimalPos.Unsigned.to_uint_nonnil.
Qed.

Lemma Z_text_nonneg z : 0 <= z -> Z_text z = uint_text (N.to_uint (Z.to_N z)).
Proof. destruct z; intros H; auto. lia. Qed.
Lemma Z_text_digits z : 0 <= z -> forallb is_digit (Z_text z) = true.
Proof. intros H. rewrite Z_text_nonneg by auto. apply uint_text_digits. Qed.
Lemma Z_text_val z : 0 <= z -> digits_val (Z_text z) = z.
Proof.
  intros H. rewrite Z_text_nonneg, uint_text_val by auto.
  rewrite DecimalN.Unsigned.of_to. lia.
Qed.
Lemma Z_text_nonempty z : Z_text z <> [].
Proof.
  assert (U : forall n, uint_text (N.to_uint n) <> []).
  { intros n. pose proof (to_uint_nonnil n). destruct (N.to_uint n); cbn; congruence. }
  destruct z; cbn [Z_text]; auto. discriminate.
Qed.
Lemma Z_text_inj a b : 0 <= a -> 0 <= b -> Z_text a = Z_text b -> a = b.
Proof. intros Ha Hb H. rewrite <- (Z_text_val a), <- (Z_text_val b), H; auto. Qed.

(** ** Integer ranges *)
Lemma zrange_length a b : List.length (zrange a b) = Z.to_nat (b + 1 - a).
Proof. unfold zrange. rewrite map_length, seq_length. auto. Qed.
Lemma zrange_In a b x : In x (zrange a b) <-> a <= x <= b.
Proof.
  unfold zrange. rewrite in_map_iff. split.
  - intros [i [E H]]. apply in_seq in H. lia.
  - intros H. exists (Z.to_nat (x - a)). split; [lia|]. apply in_seq. lia.
Qed.
Lemma zrange_nil a b : b < a -> zrange a b = [].
Proof. intros H. unfold zrange. replace (Z.to_nat (b + 1 - a)) with 0%nat by lia. auto. Qed.
Lemma zrange_cons a b : a <= b -> zrange a b = a :: zrange (a + 1) b.
Proof.
  intros H. unfold zrange.
  replace (Z.to_nat (b + 1 - a)) with (S (Z.to_nat (b + 1 - (a + 1)))) by lia.
  cbn [seq map]. f_equal; [lia|]. rewrite <- seq_shift, map_map. apply map_ext. intros; lia.
Qed.
Lemma zrange_nth a b i : (i < Z.to_nat (b + 1 - a))%nat ->
  nth_error (zrange a b) i = Some (a + Z.of_nat i).
Proof.
  intros H. unfold zrange. rewrite nth_error_map.
  rewrite nth_error_nth' with (d := 0%nat) by (rewrite seq_length; auto).
  rewrite seq_nth by auto. reflexivity.
Qed.
Lemma zrange_app a b c : a <= b + 1 -> b <= c -> zrange a c = zrange a b ++ zrange (b + 1) c.
Proof.
  intros H1 H2. remember (Z.to_nat (b + 1 - a)) as n eqn:En. revert a H1 En.
  induction n as [|n IH]; intros a H1 En.
  - rewrite (zrange_nil a b) by lia. cbn. f_equal. lia.
  - rewrite (zrange_cons a c), (zrange_cons a b) by lia. cbn. f_equal. apply IH; lia.
Qed.
Lemma zrange_snoc a b : a <= b -> zrange a b = zrange a (b - 1) ++ [b].
Proof.
  intros H. rewrite (zrange_app a (b - 1) b) by lia. f_equal.
  replace (b - 1 + 1) with b by lia. rewrite zrange_cons, zrange_nil by lia. auto.
Qed.
Lemma zrange_NoDup a b : NoDup (zrange a b).
Proof.
  unfold zrange. apply FinFun.Injective_map_NoDup; [|apply seq_NoDup].
  intros x y H. lia.
Qed.

(** ** Dates *)
Lemma dt_eqb_eq a b : dt_eqb a b = true <-> a = b.
Proof.
  destruct a, b; unfold dt_eqb; cbn. rewrite !andb_true_iff, !Z.eqb_eq.
  split; [intros [[[-> ->] ->] ->]; auto | intros E; inversion E; auto].
Qed.
Lemma dt_eqb_refl a : dt_eqb a a = true.
Proof. apply dt_eqb_eq; auto. Qed.

(** ** Dictionaries *)
Lemma dget_dset_same k v d : dget k (dset k v d) = Some v.
Proof.
  induction d as [|[k' v'] d IH]; cbn.
  - rewrite text_eqb_refl; auto.
  - destruct (text_eqb k k') eqn:E; cbn; rewrite E; auto.
Qed.
Lemma dget_dset_other k k' v d : k <> k' -> dget k' (dset k v d) = dget k' d.
Proof.
  intros H. induction d as [|[k2 v2] d IH]; cbn.
  - destruct (text_eqb k' k) eqn:E; auto. apply text_eqb_eq in E. congruence.
  - destruct (text_eqb k k2) eqn:E; cbn.
    + apply text_eqb_eq in E; subst. destruct (text_eqb k' k2) eqn:E2; auto.
      apply text_eqb_eq in E2. congruence.
    + destruct (text_eqb k' k2); auto.
Qed.
Lemma dget_dset k k' v d :
  dget k' (dset k v d) = if text_eqb k k' then Some v else dget k' d.
Proof.
  destruct (text_eqb k k') eqn:E.
  - apply text_eqb_eq in E; subst. apply dget_dset_same.
  - apply text_eqb_neq in E. apply dget_dset_other; auto.
Qed.
Lemma dgetN_dset k k' v d :
  dgetN k' (dset k v d) = if text_eqb k k' then v else dgetN k' d.
Proof. unfold dgetN. rewrite dget_dset. destruct (text_eqb k k'); auto. Qed.
Lemma dgetE_dset k k' v d :
  dgetE k' (dset k v d) = if text_eqb k k' then Ok v else dgetE k' d.
Proof. unfold dgetE. rewrite dget_dset. destruct (text_eqb k k'); auto. Qed.
Lemma dgetE_ok k d v : dgetE k d = Ok v <-> dget k d = Some v.
Proof. unfold dgetE. destruct (dget k d); split; congruence. Qed.
Lemma dget_In k d v : dget k d = Some v -> In (k, v) d.
Proof.
  induction d as [|[k' v'] d IH]; cbn; [discriminate|].
  destruct (text_eqb k k') eqn:E.
  - intros H; inversion H; subst. apply text_eqb_eq in E; subst; auto.
  - intros H; right; auto.
Qed.
Lemma dget_None k d : dget k d = None <-> ~ In k (map fst d).
Proof.
  induction d as [|[k' v'] d IH]; cbn; [split; auto|].
  destruct (text_eqb k k') eqn:E.
  - apply text_eqb_eq in E; subst. split; [discriminate|]. intros H; exfalso; auto.
  - apply text_eqb_neq in E. rewrite IH. split; [intros H [H2|H2]; congruence | auto].
Qed.
Lemma dget_NoDup k v d : NoDup (map fst d) -> In (k, v) d -> dget k d = Some v.
Proof.
  induction d as [|[k' v'] d IH]; cbn; [intros _ []|].
  intros H [E|Hi].
  - inversion E; subst. rewrite text_eqb_refl; auto.
  - inversion H; subst. destruct (text_eqb k k') eqn:E; auto.
    apply text_eqb_eq in E; subst. exfalso. apply H2. apply in_map_iff. exists (k', v); auto.
Qed.
Lemma dset_keys k v d : In k (map fst d) -> map fst (dset k v d) = map fst d.
Proof.
  induction d as [|[k' v'] d IH]; cbn; [intros []|].
  destruct (text_eqb k k') eqn:E; cbn; auto.
  intros [H|H]; [subst; rewrite text_eqb_refl in E; discriminate|]. rewrite IH; auto.
Qed.
Lemma dset_keys_new k v d : ~ In k (map fst d) -> map fst (dset k v d) = map fst d ++ [k].
Proof.
  induction d as [|[k' v'] d IH]; cbn; auto.
  intros H. destruct (text_eqb k k') eqn:E.
  - apply text_eqb_eq in E; subst. exfalso; auto.
  - cbn. rewrite IH; auto.
Qed.
Lemma dset_NoDup k v d : NoDup (map fst d) -> NoDup (map fst (dset k v d)).
Proof.
  intros H. destruct (in_dec text_dec k (map fst d)) as [Hi|Hn].
  - rewrite dset_keys; auto.
  - rewrite dset_keys_new by auto.
    rewrite <- (rev_involutive (map fst d ++ [k])). apply NoDup_rev.
    rewrite rev_app_distr. cbn. constructor; [rewrite <- in_rev; auto | apply NoDup_rev; auto].
Qed.
Lemma dset_In_keys k v d k' : In k' (map fst (dset k v d)) <-> k' = k \/ In k' (map fst d).
Proof.
  destruct (in_dec text_dec k (map fst d)) as [Hi|Hn].
  - rewrite dset_keys by auto. split; [auto | intros [->|H]; auto].
  - rewrite dset_keys_new by auto. rewrite in_app_iff. cbn. intuition.
Qed.
