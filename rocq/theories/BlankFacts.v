(** Removal of blank headers (C52). *)
From Coq Require Import ZifyBool ZifyNat ZifyN Sorting.Sorted.
From Verif Require Import Base BaseFacts Coord XlMethods Params CoordFacts
  SpecCoord SpecParams SpecCoordFacts BuildInv ParamsFacts ParamsProofs.
Local Open Scope Z_scope.

Lemma no_value_truthy v : truthy v = false <-> no_value v.
Proof.
  unfold no_value. destruct v as [|[]|z|f|[|]|d|[|]|[|]|t]; cbn; split; try discriminate; intros H; auto 10;
  repeat (destruct H as [H|H]; try discriminate H); try (destruct H; discriminate).
  - apply negb_false_iff in H. right; right; left. f_equal. lia.
  - inversion H; auto.
  - destruct f; try discriminate. eauto 10.
  - destruct H as [s H]. inversion H; subst; auto.
Qed.
Lemma read_named w t r c : cell_named t r c -> read_coord w t = Ok (cell w r c).
Proof.
  intros H. apply cell_named_iff in H. unfold read_coord. rewrite H. cbn [bind fst snd].
  unfold read. apply parse_range in H. unfold cell_ok, max_column.
  replace ((1 <=? r) && (1 <=? c) && (c <=? 18278)) with true; auto. lia.
Qed.
Lemma named_unique t r c r' c' : cell_named t r c -> cell_named t r' c' -> r = r' /\ c = c'.
Proof. rewrite !cell_named_iff. intros A B. rewrite A in B. inversion B; auto. Qed.
Lemma header_value w t r c : cell_named t r c ->
  (truthy (cell w r c) = true <-> cell_has_value (cell w) (VStr t)).
Proof.
  intros H. unfold cell_has_value. split.
  - intros T. exists t, r, c. split; auto. split; auto. intros X. apply no_value_truthy in X. congruence.
  - intros [t' [r' [c' [E [H' X]]]]]. inversion E; subst t'. destruct (named_unique _ _ _ _ _ H H'); subst.
    destruct (truthy (cell w r' c')) eqn:T; auto. apply no_value_truthy in T. contradiction.
Qed.
Lemma any_value_ok w cs : Forall names_a_cell cs ->
  exists b, any_value w cs = Ok b /\ (b = true <-> exists x, In x cs /\ cell_has_value (cell w) x).
Proof.
  intros F. unfold any_value.
  assert (G : exists vs, mapM (fun c => do t <- as_text c; read_coord w t) cs = Ok vs /\
     (existsb truthy vs = true <-> exists x, In x cs /\ cell_has_value (cell w) x)).
  { induction F as [|x cs [t [r [c [-> H]]]] F IH].
    - exists []. split; auto. cbn. split; [discriminate|intros [x [[] _]]].
    - destruct IH as [vs [M IH]]. exists (cell w r c :: vs). split.
      + cbn [mapM as_text bind]. rewrite (read_named _ _ _ _ H). cbn [bind]. rewrite M. auto.
      + cbn [existsb]. rewrite orb_true_iff, IH. rewrite (header_value w t r c H). split.
        * intros [A|[x [A B]]]; [exists (VStr t); cbn; auto|exists x; cbn; auto].
        * intros [x [[<-|A] B]]; eauto. }
  destruct G as [vs [M G]]. rewrite M. cbn [bind]. eauto.
Qed.
Lemma blank_ok w h comp : names_a_cell h -> composed_cells comp ->
  exists b, blank_header w h comp = Ok b /\ (b = false <-> has_header (cell w) h comp).
Proof.
  intros [t [r [c [-> H]]]] C. unfold blank_header. cbn [as_text bind].
  rewrite (read_named _ _ _ _ H). cbn [bind]. pose proof (header_value w t r c H) as HV.
  unfold has_header. destruct C as [->|[cs [-> F]]].
  - cbn [truthy negb bind]. eexists. split; [reflexivity|]. rewrite andb_true_r, negb_false_iff, HV.
    split; auto. intros [A|[cs [x [A _]]]]; [auto|discriminate].
  - destruct (any_value_ok w cs F) as [b [M A]].
    destruct (truthy (VList cs)) eqn:T; cbn [negb bind].
    + rewrite M. cbn [bind]. eexists. split; [reflexivity|].
      rewrite andb_false_iff, !negb_false_iff, HV, A. split.
      * intros [X|[x [X1 X2]]]; auto. right. exists cs, x. auto.
      * intros [X|[cs' [x [X0 [X1 X2]]]]]; auto. inversion X0; subst. right. eauto.
    + eexists. split; [reflexivity|]. rewrite andb_true_r, negb_false_iff, HV. split; auto.
      intros [X|[cs' [x [X0 [X1 X2]]]]]; auto. inversion X0; subst. destruct cs'; [destruct X1|discriminate].
Qed.

(** keep the elements whose mark is true *)
Fixpoint keep {A} (mask : list bool) (l : list A) : list A :=
  match mask, l with
  | b :: mask', x :: l' => if b then x :: keep mask' l' else keep mask' l'
  | _, _ => []
  end.
Definition drop_entry (j : nat) (kv : text * pyval) : text * pyval :=
  (fst kv, match snd kv with VList l => VList (remove_at j l) | v => v end).
Lemma remove_series_ok p j m : one_per_series p (S m) -> (j < S m)%nat -> get_num_series p = Some (S m) ->
  remove_series p j = Ok (map (drop_entry j) p).
Proof.
  intros U J G. unfold remove_series. rewrite G. apply mapM_pure. intros [k v] Hkv. cbn [fst snd].
  unfold drop_entry. cbn [fst snd]. destruct v; auto. rewrite (U _ _ Hkv), Nat.eqb_refl.
  rewrite (proj2 (Nat.ltb_lt _ _) J). auto.
Qed.
Lemma remove_at_length {A} j (l : list A) : (j < List.length l)%nat -> List.length (remove_at j l) = (List.length l - 1)%nat.
Proof. intros H. unfold remove_at. rewrite app_length, firstn_length, skipn_length. lia. Qed.
Lemma drop_uniform p j m : one_per_series p (S m) -> (j < S m)%nat -> one_per_series (map (drop_entry j) p) m.
Proof.
  intros U J k l H. apply in_map_iff in H. destruct H as [[k' v] [E H]]. unfold drop_entry in E. cbn [fst snd] in E.
  inversion E; subst k'. destruct v; try discriminate. inversion H2; subst l. specialize (U _ _ H).
  rewrite remove_at_length; lia.
Qed.
Lemma dgetN_map_drop j k p : dgetN k (map (drop_entry j) p) =
  match dgetN k p with VList l => VList (remove_at j l) | v => v end.
Proof.
  unfold dgetN. induction p as [|[k' v] p IH]; auto. cbn [map drop_entry fst snd dget].
  destruct (text_eqb k k'); auto.
Qed.
Lemma uniform_num p m : one_per_series p m -> (exists l, In (n_headers_coord, VList l) p) -> get_num_series p = Some m.
Proof.
  intros U [l H]. apply num_series_eq.
  - intros k l' H' _. rewrite (U _ _ H'). auto.
  - exists n_headers_coord, l. split; auto. split; [discriminate|]. apply (U _ _ H).
Qed.
Definition shown (w : worksheet) (hc : pyval * pyval) (b : bool) : Prop := b = true <-> has_header (cell w) (fst hc) (snd hc).
Lemma remove_loop w : forall hs cs idx removed p,
  List.length hs = List.length cs -> Forall names_a_cell hs -> Forall composed_cells cs -> (removed <= idx)%nat ->
  one_per_series p ((idx - removed) + List.length hs) -> (exists l, In (n_headers_coord, VList l) p) ->
  exists p' mask, remove_blank_loop w idx removed hs cs p = Ok p' /\
    Forall2 (shown w) (combine hs cs) mask /\
    forall k, dgetN k p' = match dgetN k p with
                | VList l => VList (firstn (idx - removed) l ++ keep mask (skipn (idx - removed) l))
                | v => v end.
Proof.
  induction hs as [|h hs IH]; intros [|c cs] idx removed p L FH FC R U HD; try discriminate.
  - exists p, []. cbn [remove_blank_loop combine keep]. split; auto. split; [constructor|].
    intros k. destruct (dgetN k p) eqn:E; auto. f_equal.
    assert (LL : List.length l = (idx - removed)%nat).
    { cbn in U. rewrite Nat.add_0_r in U. eapply U. apply dget_In. unfold dgetN in E.
      destruct (dget k p) eqn:E'; [subst; exact E'|discriminate]. }
    rewrite firstn_all2 by lia. rewrite app_nil_r. auto.
  - inversion FH as [|? ? F1 F2]; subst. inversion FC as [|? ? F3 F4]; subst. cbn [remove_blank_loop].
    destruct (blank_ok w h c F1 F3) as [b [E1 E2]]. rewrite E1. cbn [bind]. cbn [List.length] in *.
    destruct b.
    + assert (U' : one_per_series p (S (idx - removed + List.length hs))) by (rewrite <- plus_n_Sm in U; auto).
      rewrite (remove_series_ok p (idx - removed) (idx - removed + List.length hs)); auto; [|lia|].
      2:{ apply uniform_num; auto. }
      cbn [bind].
      destruct (IH cs (S idx) (S removed) (map (drop_entry (idx - removed)) p)) as [p' [mask [A [B C]]]]; auto; try lia.
      { cbn [Nat.sub]. apply drop_uniform; auto. lia. }
      { destruct HD as [l HD]. exists (remove_at (idx - removed) l). apply in_map_iff. exists (n_headers_coord, VList l). auto. }
      exists p', (false :: mask). split; auto. split.
      { cbn [combine]. constructor; auto. split; [discriminate|]. intros X. apply E2 in X. discriminate. }
      intros k. rewrite C, dgetN_map_drop. destruct (dgetN k p) eqn:E; auto. f_equal. cbn [Nat.sub].
      assert (LL : List.length l = S (idx - removed + List.length hs)).
      { eapply U'. apply dget_In. unfold dgetN in E. destruct (dget k p) eqn:E'; [subst; exact E'|discriminate]. }
      unfold remove_at. set (j := (idx - removed)%nat) in *.
      assert (LF : List.length (firstn j l) = j) by (rewrite firstn_length; lia).
      rewrite firstn_app, skipn_app, LF, Nat.sub_diag, firstn_O, skipn_O, app_nil_r.
      rewrite (firstn_all2 (firstn j l)) by lia. rewrite (skipn_all2 (firstn j l)) by lia. cbn [app]. f_equal.
      destruct (skipn j l) as [|x r] eqn:ES.
      * apply (f_equal (@List.length _)) in ES. rewrite skipn_length in ES. cbn in ES. lia.
      * cbn [keep]. f_equal.
        assert (SS : skipn (S j) l = skipn 1 (skipn j l)).
        { clear. revert l. induction j as [|j IH]; intros l; auto. destruct l; auto. cbn [skipn] in *. apply IH. }
        rewrite SS, ES. auto.
    + destruct (IH cs (S idx) removed p) as [p' [mask [A [B C]]]]; auto; try lia.
      { replace (S idx - removed + List.length hs)%nat with (idx - removed + S (List.length hs))%nat by lia. auto. }
      exists p', (true :: mask). split; auto. split.
      { cbn [combine]. constructor; auto. split; auto. intros _. apply E2; auto. }
      intros k. rewrite C. destruct (dgetN k p) eqn:E; auto. f_equal.
      assert (LL : List.length l = (idx - removed + S (List.length hs))%nat).
      { eapply U. apply dget_In. unfold dgetN in E. destruct (dget k p) eqn:E'; [subst; exact E'|discriminate]. }
      replace (S idx - removed)%nat with (S (idx - removed)) by lia.
      set (j := (idx - removed)%nat) in *.
      destruct (skipn j l) as [|x r] eqn:ES.
      * apply (f_equal (@List.length _)) in ES. rewrite skipn_length in ES. cbn in ES. lia.
      * assert (SS : skipn (S j) l = r /\ firstn (S j) l = firstn j l ++ [x]).
        { clear -ES. revert l ES. induction j as [|j IH]; intros l ES.
          - cbn in ES. subst l. auto.
          - destruct l as [|y l]; [discriminate|]. cbn [skipn] in ES. destruct (IH l ES) as [A B].
            split; [exact A|]. cbn [firstn app] in *. rewrite <- B. auto. }
        destruct SS as [-> ->]. cbn [keep]. rewrite <- app_assoc. auto.
Qed.

(** positions marked *)
Fixpoint marked (i : nat) (mask : list bool) : list nat :=
  match mask with
  | [] => []
  | b :: mask' => if b then i :: marked (S i) mask' else marked (S i) mask'
  end.
Lemma marked_In mask : forall i j, In j (marked i mask) <-> exists k, j = (i + k)%nat /\ nth_error mask k = Some true.
Proof.
  induction mask as [|b mask IH]; intros i j; cbn [marked].
  - split; [intros []|intros [k [_ H]]; destruct k; discriminate].
  - assert (G : In j (marked (S i) mask) <-> exists k, j = (i + S k)%nat /\ nth_error (b :: mask) (S k) = Some true).
    { rewrite IH. split; intros [k [A B]]; exists k; split; auto; lia. }
    destruct b.
    + cbn [In]. rewrite G. split.
      * intros [<-|[k [A B]]]; [exists O; split; [lia|auto]|exists (S k); auto].
      * intros [[|k] [A B]]; [left; lia|right; eauto].
    + rewrite G. split.
      * intros [k [A B]]. exists (S k). auto.
      * intros [[|k] [A B]]; [discriminate|eauto].
Qed.
Lemma marked_sorted mask : forall i, StronglySorted lt (marked i mask).
Proof.
  induction mask as [|b mask IH]; intros i; cbn [marked]; [constructor|].
  destruct b; auto. constructor; auto. apply Forall_forall. intros j Hj. apply marked_In in Hj.
  destruct Hj as [k [-> _]]. lia.
Qed.
Lemma keep_selects {A} mask : forall (l l0 : list A), List.length mask = List.length l ->
  map Some (keep mask l) = map (nth_error (l0 ++ l)) (marked (List.length l0) mask).
Proof.
  induction mask as [|b mask IH]; intros [|x l] l0 L; try discriminate; auto.
  cbn [keep marked].
  assert (G : map Some (keep mask l) = map (nth_error (l0 ++ x :: l)) (marked (S (List.length l0)) mask)).
  { specialize (IH l (l0 ++ [x])). rewrite app_length in IH. cbn [List.length] in IH.
    rewrite Nat.add_1_r in IH. rewrite <- app_assoc in IH. apply IH. cbn in L. lia. }
  destruct b; auto. cbn [map]. rewrite <- G. f_equal.
  rewrite nth_error_app2 by lia. rewrite Nat.sub_diag. auto.
Qed.
Lemma c52 w p hs cs n :
  dget (pname "headers_coord") p = Some (VList hs) -> dget (pname "composed_headers_coord") p = Some (VList cs) ->
  Forall names_a_cell hs -> Forall composed_cells cs -> one_per_series p n ->
  exists p' idx, remove_blank_headers w p = Ok p' /\
    StronglySorted lt idx /\
    (forall i, In i idx <-> exists h comp, nth_error hs i = Some h /\ nth_error cs i = Some comp /\
       has_header (cell w) h comp) /\
    forall k, match dgetN k p with
              | VList l => exists l', dgetN k p' = VList l' /\ selects idx l l'
              | v => dgetN k p' = v
              end.
Proof.
  intros H1 H2 FH FC U.
  change (pname "headers_coord") with n_headers_coord in *. change (pname "composed_headers_coord") with n_composed in *.
  assert (L1 : List.length hs = n) by (eapply U, dget_In; eauto).
  assert (L2 : List.length cs = n) by (eapply U, dget_In; eauto).
  destruct (remove_loop w hs cs 0 0 p) as [p' [mask [A [B C]]]]; auto; [congruence| | |].
  { cbn. rewrite L1. auto. }
  { exists hs. apply dget_In; auto. }
  exists p', (marked 0 mask). split; [|split; [|split]].
  - unfold remove_blank_headers. rewrite (dgetN_some _ _ _ H1), (dgetN_some _ _ _ H2). auto.
  - apply marked_sorted.
  - intros i. rewrite marked_In.
    assert (G : forall l mask, Forall2 (shown w) l mask -> forall i b, nth_error mask i = Some b ->
       exists hc, nth_error l i = Some hc /\ shown w hc b).
    { clear. intros l mask F. induction F as [|x b l mask H F IH]; intros i b' E; [destruct i; discriminate|].
      destruct i; [inversion E; subst; exists x; auto|]. apply IH; auto. }
    assert (CL : forall (hs cs : list pyval) i h c, nth_error (combine hs cs) i = Some (h, c) -> nth_error hs i = Some h /\ nth_error cs i = Some c).
    { clear. induction hs as [|h hs IH]; intros [|c cs] [|i] h' c' E; try discriminate; [inversion E; auto|apply (IH cs i); auto]. }
    split.
    + intros [k [E1 E2]]. cbn in E1. subst k. destruct (G _ _ B _ _ E2) as [[h c] [E3 E4]].
      apply CL in E3. destruct E3. exists h, c. split; auto. split; auto. apply E4. auto.
    + intros [h [c [E1 [E2 E3]]]]. exists i. split; auto.
      assert (LM : List.length mask = List.length (combine hs cs)) by (clear -B; induction B; cbn; auto).
      destruct (nth_error mask i) as [b|] eqn:E.
      * destruct (G _ _ B _ _ E) as [[h' c'] [E4 E5]]. apply CL in E4. destruct E4.
        f_equal. apply E5. cbn. congruence.
      * apply nth_error_None in E. rewrite LM, combine_length in E.
        assert (nth_error hs i <> None) by congruence. apply nth_error_Some in H. lia.
  - intros k. specialize (C k). cbn [Nat.sub firstn skipn app] in C. destruct (dgetN k p) eqn:E; auto.
    exists (keep mask l). split; auto. unfold selects.
    apply (keep_selects mask l []).
    assert (LM : List.length mask = List.length (combine hs cs)) by (clear -B; induction B; cbn; auto).
    rewrite LM, combine_length.
    assert (List.length l = n). { eapply U. apply dget_In. unfold dgetN in E. destruct (dget k p) eqn:E'; [subst; exact E'|discriminate]. }
    lia.
Qed.
