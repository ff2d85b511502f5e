(** Proofs for C93. *)
From Coq Require Import ZifyBool ZifyNat.
From Verif Require Import Base BaseFacts Coord XlMethods Params Attempts SpecParams SpecAttempts ParamsProofs AttemptsFacts AttemptsProofs EndBuild SpecOrder.
Local Open Scope Z_scope.

Definition selected (f : text -> bool) : missing_dict :=
  let flags := [VBool true; VBool false] in
  filter (fun x => f (fst x)) [ (pname "alignment", [VStr (pname "vertical"); VStr (pname "horizontal")]); (pname "continuity", flags); (pname "blank_rows", flags); (pname "missings", flags);
    (pname "time_alignment", [VInt (-1); VInt 0; VInt 1]); (pname "time_multicolumn", flags); (pname "time_composed", flags) ].
(** the loops, computed *)
Fixpoint from_front {A} (f : A -> bool) (ls : list A) : option (A * list A) :=
  match ls with [] => None | x :: ls' => if f x then Some (x, ls') else from_front f ls' end.
Fixpoint turns {A} (f : A -> bool) (n : nat) (ls : list A) : list A :=
  match n with
  | O => []
  | S n' => match rev ls with
            | [] => []
            | x :: _ => if f x then turns f n' (removelast ls) ++ [x]
                        else match from_front f (removelast ls) with Some (y, ls') => turns f n' ls' ++ [y] | None => [] end
            end
  end.
Lemma from_front_some {A} (f : A -> bool) : forall ls x ls', from_front f ls = Some (x, ls') -> exists before, ls = before ++ x :: ls' /\ f x = true /\ forall z, In z before -> f z = false.
Proof.
  induction ls as [|y ls IH]; intros x ls' H; [discriminate|]. cbn in H. destruct (f y) eqn:E.
  - injection H as -> ->. exists []. split; auto. split; auto. intros z [].
  - apply IH in H as (before & -> & F & B). exists (y :: before). split; auto. split; auto. intros z [<-|I]; auto.
Qed.
Lemma from_front_none {A} (f : A -> bool) : forall ls, from_front f ls = None -> forall z, In z ls -> f z = false.
Proof. induction ls as [|y ls IH]; intros H z I; [destruct I|]. cbn in H. destruct (f y) eqn:E; [discriminate|]. destruct I as [<-|I]; auto. Qed.
Lemma turns_ok {A} (f : A -> bool) (P : A -> Prop) : (forall x, f x = true <-> P x) -> forall n ls, (List.length ls <= n)%nat -> loops_of P ls (turns f n ls).
Proof.
  intros FP. assert (NP : forall x, f x = false -> ~ P x) by (intros x E X; apply FP in X; congruence).
  induction n as [|n IH]; intros ls L; [destruct ls; [|cbn in L; lia]; apply no_loop; intros x []|].
  cbn [turns]. destruct (rev ls) as [|x t] eqn:R.
  - assert (ls = []) by (rewrite <- (rev_involutive ls), R; reflexivity). subst. apply no_loop. intros x [].
  - assert (E : ls = rev t ++ [x]) by (rewrite <- (rev_involutive ls), R; reflexivity). subst ls. rewrite removelast_last. rewrite app_length in L. cbn in L. destruct (f x) eqn:F.
    + apply last_inside; [apply FP; auto|]. apply IH. lia.
    + destruct (from_front f (rev t)) as [[y ls']|] eqn:G.
      * apply from_front_some in G as (before & G & Fy & B). rewrite G in *. rewrite <- app_assoc. cbn [app]. apply first_inside; auto; [apply FP; auto|]. apply IH. rewrite app_length in L. cbn in L. lia.
      * apply no_loop. intros z I. apply in_app_iff in I as [I|[<-|[]]]; auto. apply NP. eapply from_front_none; eauto.
Qed.
Definition in_order (f : text -> bool) := turns (fun x : text * list pyval => f (fst x)) 7 by_likeliness.
Lemma from_front_ext {A} (f g : A -> bool) : forall ls, (forall x, In x ls -> f x = g x) -> from_front f ls = from_front g ls.
Proof. induction ls as [|y ls IH]; intros H; auto. cbn. rewrite <- (H y) by (left; auto). destruct (f y); auto. apply IH. intros; apply H; right; auto. Qed.
Lemma turns_ext {A} (f g : A -> bool) : forall n ls, (forall x, In x ls -> f x = g x) -> turns f n ls = turns g n ls.
Proof.
  induction n as [|n IH]; intros ls H; auto. cbn [turns]. destruct (rev ls) as [|x t] eqn:R; auto.
  assert (E : ls = rev t ++ [x]) by (rewrite <- (rev_involutive ls), R; reflexivity). subst ls. rewrite removelast_last.
  assert (H' : forall z, In z (rev t) -> f z = g z) by (intros; apply H, in_app_iff; auto). rewrite <- (H x) by (apply in_app_iff; right; left; auto).
  rewrite (IH _ H'), <- (from_front_ext f g _ H'). destruct (f x); auto. destruct (from_front f (rev t)) as [[y ls']|] eqn:G; auto.
  apply from_front_some in G as (before & G & _). rewrite (IH ls'); auto. intros z I. apply H'. rewrite G. apply in_app_iff. right. right. auto.
Qed.
(** seven flags instead of a function *)
Definition flag (b1 b2 b3 b4 b5 b6 b7 : bool) (k : text) : bool :=
  if text_eqb k (pname "alignment") then b1 else if text_eqb k (pname "continuity") then b2 else if text_eqb k (pname "blank_rows") then b3 else if text_eqb k (pname "missings") then b4 else
  if text_eqb k (pname "time_alignment") then b5 else if text_eqb k (pname "time_composed") then b6 else b7.
Definition flags_of (f : text -> bool) : text -> bool :=
  flag (f (pname "alignment")) (f (pname "continuity")) (f (pname "blank_rows")) (f (pname "missings")) (f (pname "time_alignment")) (f (pname "time_composed")) (f (pname "time_multicolumn")).
Lemma selected_flags f : selected f = selected (flags_of f).
Proof. unfold selected. apply filter_ext_in. intros x I. cbn in I. repeat destruct I as [<-|I]; try destruct I; reflexivity. Qed.
Lemma order_flags f : in_order f = in_order (flags_of f).
Proof. unfold in_order. apply turns_ext. intros x I. cbn in I. repeat destruct I as [<-|I]; try destruct I; reflexivity. Qed.
Lemma combos_order f : selected f <> [] ->
  (do combs <- param_combinations (List.length (selected f)) (selected f) LIKELINESS_ORDER; Ok (map (fun c => map (fun k => dget k c) (map fst (in_order f))) combs))
  = Ok (map (map (fun kv => Some (snd kv))) (loops (in_order f))).
Proof.
  rewrite selected_flags, order_flags. unfold flags_of. generalize (f (pname "alignment")) (f (pname "continuity")) (f (pname "blank_rows")) (f (pname "missings")) (f (pname "time_alignment")) (f (pname "time_composed")) (f (pname "time_multicolumn")).
  intros [] [] [] [] [] [] []; intros N; first [exfalso; apply N; reflexivity | clear N; match goal with |- _ = ?r => vm_cast_no_check (eq_refl r) end].
Qed.
Lemma nothing_in_order f : selected f = [] -> in_order f = [].
Proof.
  rewrite selected_flags, order_flags. unfold flags_of. generalize (f (pname "alignment")) (f (pname "continuity")) (f (pname "blank_rows")) (f (pname "missings")) (f (pname "time_alignment")) (f (pname "time_composed")) (f (pname "time_multicolumn")).
  intros [] [] [] [] [] [] []; intros H; try discriminate H. vm_compute. reflexivity.
Qed.
Lemma selected_dict f : missings_dict (map fst (selected f)) = Ok (selected f).
Proof.
  rewrite selected_flags. unfold flags_of. generalize (f (pname "alignment")) (f (pname "continuity")) (f (pname "blank_rows")) (f (pname "missings")) (f (pname "time_alignment")) (f (pname "time_composed")) (f (pname "time_multicolumn")).
  intros [] [] [] [] [] [] []; vm_compute; reflexivity.
Qed.
Lemma loops_keys : forall ls c, In c (loops ls) -> map fst c = map fst ls.
Proof.
  induction ls as [|[k vs] ls IH]; intros c I; [destruct I as [<-|[]]; reflexivity|]. cbn [loops] in I. apply in_flat_map in I as (v & _ & I). apply in_map_iff in I as (c' & <- & I). cbn [map fst]. f_equal. auto.
Qed.
Lemma read_back (g : text -> option pyval) : forall c, map g (map fst c) = map (fun kv => Some (snd kv)) c -> forall k v, In (k, v) c -> g k = Some v.
Proof.
  induction c as [|[k v] c IH]; intros E k' v' I; [destruct I|]. cbn [map fst snd] in E. injection E as E1 E2. destruct I as [I|I]; [injection I as <- <-; auto|eauto].
Qed.
Lemma Forall2_of_maps {A B C} (f : A -> C) (g : B -> C) : forall la lb, map f la = map g lb -> Forall2 (fun a b => f a = g b) la lb.
Proof. induction la as [|a la IH]; intros [|b lb] E; try discriminate; constructor; injection E; auto. Qed.

Section Order.
Variables (p : dict) (n : nat) (missing : list (text * list pyval)).
Hypothesis PO : parameters_object p.
Hypothesis NS : get_num_series p = Some (S n).
Hypothesis TS : to_search p missing.
Definition open (k : text) : bool := match dget k p with Some VNone => true | _ => false end.
Lemma open_missing k vv d : In (k, vv, d) searchable -> is_missing p k = open k.
Proof.
  intros S0. apply Bool.eq_iff_eq_true. pose proof (missing_iff p missing TS k) as MI. unfold get_missings in MI. rewrite filter_In in MI. destruct TS as (_ & A & _). rewrite A in MI.
  assert (K : In k (map fst p)) by (destruct (searchable_not_optional _ _ _ S0) as (K1 & _); rewrite PO; exact K1). destruct (searchable_not_optional _ _ _ S0) as (_ & O & _).
  unfold open. destruct (dget k p) as [v|] eqn:D.
  - destruct v; split; intros X; try discriminate; auto; try (apply MI; split; auto; fail); destruct (proj1 MI (conj K X)) as [Y _]; congruence.
  - split; intros X; [|discriminate]. destruct (proj1 MI (conj K X)) as [Y _]. congruence.
Qed.
Lemma others k : In k (map fst p) -> (forall vv d, ~ In (k, vv, d) searchable) -> is_missing p k = false.
Proof.
  intros K N. destruct (is_missing p k) eqn:E; auto. exfalso. assert (I : In k (get_missings p)) by (apply filter_In; auto). apply (missing_iff p missing TS) in I. destruct TS as (_ & _ & T3).
  apply in_map_iff in I as ([k' vv] & Ek & I). cbn in Ek. subst. destruct (T3 _ _ I) as (d & S0). exact (N _ _ S0).
Qed.
Lemma missings_selected : missings_dict (get_missings p) = Ok (selected open).
Proof.
  assert (G : get_missings p = map fst (selected open)).
  { set (names := map (fun x : text * list pyval * pyval => fst (fst x)) searchable). unfold get_missings.
    assert (X : filter (is_missing p) (map fst p) = filter (fun k => text_in k names && flags_of open k) (map fst p)).
    { apply filter_ext_in. intros k I. destruct (text_in k names) eqn:T.
      - apply text_in_In in T. apply in_map_iff in T as ([[k' vv] d] & E & J). cbn [fst] in E. subst k'. cbn [andb]. rewrite (open_missing k vv d J).
        cbn in J. repeat (destruct J as [J|J]; [injection J as <- <- <-; reflexivity|]). destruct J.
      - cbn [andb]. apply others; auto. intros vv d J. assert (Y : text_in k names = true) by (apply text_in_In, in_map_iff; exists (k, vv, d); auto). congruence. }
    rewrite X, PO, (selected_flags open). unfold names, flags_of. generalize (open (pname "alignment")) (open (pname "continuity")) (open (pname "blank_rows")) (open (pname "missings")) (open (pname "time_alignment")) (open (pname "time_composed")) (open (pname "time_multicolumn")).
    intros [] [] [] [] [] [] []; vm_compute; reflexivity. }
  rewrite G. apply selected_dict.
Qed.
Lemma values_pairs ks cs combs l : Forall2 (fun c c' => map (fun k => dget k c) ks = map (fun kv : text * pyval => Some (snd kv)) c') combs cs -> Forall2 (fun c a => attempt_fun p c = Ok a) combs l ->
  (forall c, In c combs -> combination missing c /\ NoDup (map fst c)) -> (forall c', In c' cs -> map fst c' = ks) -> Forall2 (has_values (S n)) l cs.
Proof.
  intros CO. revert l. induction CO as [|c c' combs cs E CO IH]; intros l R S0 LK; inversion R as [|? a ? l' Q R']; subst; constructor.
  - intros k v I. destruct (S0 c (or_introl eq_refl)) as [K N]. destruct (attempt_fun_ok p n missing (object_NoDup p PO) NS TS _ _ N K Q) as [_ [_ [W _]]].
    rewrite W. rewrite <- (LK c' (or_introl eq_refl)) in E. rewrite (read_back (fun k => dget k c) c' E k v I). reflexivity.
  - apply IH; auto; intros; [apply S0|apply LK]; right; auto.
Qed.
Lemma attempts_order l : discover_parameters p = Ok l -> Forall2 (has_values (S n)) l (loops (in_order open)).
Proof.
  intros H. pose proof missings_selected as MS.
  destruct (discover_cases p n missing NS TS _ H) as [[E ->]|[md [combs [Ne [M [C R]]]]]].
  - assert (SE : selected open = []). { assert (G : get_missings p = []) by (destruct (get_missings p) as [|k g] eqn:G; auto; exfalso; assert (I : In k (get_missings p)) by (rewrite G; left; auto); apply (missing_iff p missing TS) in I; rewrite E in I; destruct I). rewrite G in MS. injection MS as <-. reflexivity. }
    rewrite (nothing_in_order _ SE). repeat constructor. intros k v [].
  - rewrite M in MS. injection MS as ->. assert (SN : selected open <> []). { intros X. rewrite X in C. discriminate. }
    pose proof (combos_order open SN) as CO. rewrite C in CO. cbn [bind] in CO. assert (CO2 := f_equal (fun x => match x with Ok y => y | Err _ => [] end) CO). cbv beta iota in CO2. clear CO. rename CO2 into CO. apply Forall2_of_maps in CO.
    destruct (combos_facts p missing (object_NoDup p PO) TS _ _ M C) as [S0 _]. apply mapM_Forall2 in R.
    assert (LK := loops_keys (in_order open)).
    exact (values_pairs _ _ _ _ CO R S0 LK).
Qed.
End Order.
Lemma c93 p l n : parameters_object p -> series_count p n -> (0 < n)%nat -> ~ unset p (pname "missing_value") ->
  discover_parameters p = Ok l -> exists r, loops_of (not_said p) by_likeliness r /\ Forall2 (has_values n) l (loops r).
Proof.
  intros PO SC Z M H. apply num_count in SC. destruct n; [lia|]. destruct (can_search _ _ _ PO SC M H) as [missing TS]. exists (in_order (open p)). split; [|apply (attempts_order p n missing); auto].
  apply turns_ok; [|cbn; lia]. intros x. unfold open, not_said. destruct (dget (fst x) p) as [[]|]; split; congruence.
Qed.
Lemma split_first {A} (P : A -> Prop) : forall (b b' : list A) x x' t t', (forall z, In z b -> ~ P z) -> (forall z, In z b' -> ~ P z) -> P x -> P x' -> b ++ x :: t = b' ++ x' :: t' -> x = x' /\ t = t'.
Proof.
  induction b as [|y b IH]; intros [|y' b'] x x' t t' B B' X X' E; cbn in E.
  - injection E as -> ->. auto.
  - injection E as -> _. destruct (B' y' (or_introl eq_refl) X).
  - injection E as -> _. destruct (B x' (or_introl eq_refl) X').
  - injection E as _ E. apply (IH b'); auto; intros z I; [apply B|apply B']; right; auto.
Qed.
Lemma loops_of_det {A} (P : A -> Prop) : forall ls r, loops_of P ls r -> forall r', loops_of P ls r' -> r = r'.
Proof.
  induction 1 as [ls N|ls x r X L IH|b x ls y r Y B X L IH]; intros r' H.
  - inversion H as [? N'|ls' x' r0 X' L'|b' x' ls' y' r0 Y' B' X' L']; subst; auto; exfalso; apply (N x'); auto; apply in_app_iff; right; left; auto.
  - inversion H as [? N' E|ls' x' r0 X' L' E|b' x' ls' y' r0 Y' B' X' L' E]; subst.
    + exfalso. apply (N' x); auto. apply in_app_iff. right. left. auto.
    + apply app_inj_tail in E as [-> ->]. f_equal. auto.
    + exfalso. rewrite app_comm_cons, app_assoc in E. apply app_inj_tail in E as [_ ->]. auto.
  - inversion H as [? N' E|ls' x' r0 X' L' E|b' x' ls' y' r0 Y' B' X' L' E]; subst.
    + exfalso. apply (N' x); auto. apply in_app_iff. right. left. auto.
    + exfalso. rewrite app_comm_cons, app_assoc in E. apply app_inj_tail in E as [_ ->]. auto.
    + destruct (split_first P b' b x' x _ _ B' B X' X E) as [-> F]. apply app_inj_tail in F as [-> ->]. f_equal. auto.
Qed.
