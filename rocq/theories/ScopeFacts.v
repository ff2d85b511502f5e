(** Context scope (C04) and consecutive cells (C05). *)
From Coq Require Import ZifyBool ZifyNat ZifyN Sorting.Sorted Sorting.Permutation.
From Verif Require Import Base BaseFacts Coord XlMethods Params CoordFacts SpecCoord SpecParams SpecCoordFacts HeaderFacts.
Local Open Scope Z_scope.

(** ** Comparison of column letters *)
Lemma text_leb_col c c' : 1 <= c <= 18278 -> 1 <= c' <= 18278 ->
  letters_of_column c = letters_of_column c' ->
  text_leb (col_letters c) (col_letters c') = (c <=? c').
Proof.
  intros H H' L.
  destruct (col_letters_shape c H) as [[a [E [A ?]]]|[[a [b [E [A [B ?]]]]]|[a [b [d [E [A [B [D ?]]]]]]]]];
  destruct (col_letters_shape c' H') as [[a' [E' [A' ?]]]|[[a' [b' [E' [A' [B' ?]]]]]|[a' [b' [d' [E' [A' [B' [D' ?]]]]]]]]];
  unfold letters_of_column in L;
  (destruct (c <=? 26) eqn:?; destruct (c <=? 702) eqn:?; destruct (c' <=? 26) eqn:?; destruct (c' <=? 702) eqn:?;
   try discriminate L; try (exfalso; lia));
  rewrite E, E'; cbn [text_leb];
  repeat match goal with |- context [code (letter_of ?x)] =>
    let F := fresh in assert (F : code (letter_of x) = 64 + x) by (apply letter_of_spec; auto); rewrite !F; clear F end;
  lia.
Qed.

Lemma forallb_false_ex {A} (f : A -> bool) l : forallb f l = false -> exists x, In x l /\ f x = false.
Proof.
  induction l as [|x l IH]; cbn; [discriminate|]. destruct (f x) eqn:E; cbn; intros H.
  - destruct (IH H) as [y [? ?]]; exists y; auto.
  - exists x; auto.
Qed.

Lemma scope_row (t : text) (cs : list text) cells r c : names_cells cs cells -> (2 <= List.length cells)%nat ->
  cell_named t r c -> in_one_row cells ->
  exists b, coord_in_scope t cs = Ok b /\ (b = true <-> concerns_row cells r c).
Proof.
  intros N L H [row R].
  assert (LL : List.length cs = List.length cells).
  { clear -N. induction N; cbn; auto. }
  apply names_cells_iff in N. apply cell_named_iff in H.
  unfold coord_in_scope. rewrite LL. replace (Nat.leb 2 (List.length cells)) with true by (symmetry; apply Nat.leb_le; auto).
  cbn [assert_ bind]. rewrite N. cbn [bind].
  destruct cells as [|[r0 c0] cells]; [cbn in L; lia|].
  assert (r0 = row) by (apply (R (r0, c0)); left; auto). subst r0.
  replace (forallb (fun p => fst p =? row) ((row, c0) :: cells)) with true.
  2:{ symmetry. apply forallb_forall. intros p Hp. apply R in Hp. lia. }
  rewrite H. cbn [bind fst snd]. eexists. split; [reflexivity|]. rewrite andb_true_iff, existsb_exists. split.
  - intros [A [p [B C]]]. exists row. repeat split; auto; [lia|]. exists p. split; auto. lia.
  - intros [row' [A [B [p [C D]]]]]. pose proof (A (row, c0) (or_introl eq_refl)). cbn in H0. subst row'.
    split; [lia|]. exists p. split; auto. lia.
Qed.

Lemma scope_column (t : text) (cs : list text) cells r c : names_cells cs cells -> (2 <= List.length cells)%nat ->
  cell_named t r c -> ~ in_one_row cells -> in_one_column cells ->
  (forall p, In p cells -> letters_of_column (snd p) = letters_of_column c) ->
  exists b, coord_in_scope t cs = Ok b /\ (b = true <-> concerns_column cells r c).
Proof.
  intros N L H NR [col R] LC.
  assert (LL : List.length cs = List.length cells).
  { clear -N. induction N; cbn; auto. }
  pose proof N as N0.
  apply names_cells_iff in N. apply cell_named_iff in H.
  unfold coord_in_scope. rewrite LL. replace (Nat.leb 2 (List.length cells)) with true by (symmetry; apply Nat.leb_le; auto).
  cbn [assert_ bind]. rewrite N. cbn [bind].
  destruct cells as [|[r0 c0] cells]; [cbn in L; lia|].
  assert (c0 = col) by (apply (R (r0, c0)); left; auto). subst c0.
  replace (forallb (fun p => fst p =? r0) ((r0, col) :: cells)) with false.
  2:{ symmetry. apply not_true_is_false. intros F. apply NR. exists r0. rewrite forallb_forall in F.
      intros p Hp. apply F in Hp. lia. }
  replace (forallb (fun p => snd p =? col) ((r0, col) :: cells)) with true.
  2:{ symmetry. apply forallb_forall. intros p Hp. apply R in Hp. lia. }
  rewrite H. cbn [bind fst snd]. eexists. split; [reflexivity|].
  assert (RC : 1 <= c <= 18278) by (apply parse_range in H; tauto).
  assert (RCol : 1 <= col <= 18278).
  { inversion N0 as [|? ? ? ? Hn]; subst. cbn [fst snd] in Hn. apply cell_named_iff in Hn. apply parse_range in Hn. tauto. }
  rewrite text_leb_col; auto. 2:{ apply (LC (r0, col)); left; auto. }
  rewrite andb_true_iff, existsb_exists. split.
  - intros [A [p [B C]]]. exists col. repeat split; auto; [lia|]. exists p. split; auto. lia.
  - intros [col' [A [B [p [C D]]]]]. pose proof (A (r0, col) (or_introl eq_refl)). cbn in H0. subst col'.
    split; [lia|]. exists p. split; auto. lia.
Qed.

Lemma concerns_row_one_row cells r c : concerns_row cells r c -> in_one_row cells.
Proof. intros [row [A _]]. exists row; auto. Qed.

(** ** The context parameter *)
Lemma as_texts_strs ts : as_texts (VList (map VStr ts)) = Ok ts.
Proof. induction ts as [|t ts IH]; cbn in *; auto. rewrite IH. auto. Qed.

Lemma value_unpack v cells : value_cells v cells ->
  exists ts, unpack_header_ranges v = Ok (VList (map VStr ts)) /\ names_cells ts cells.
Proof.
  intros H. destruct H as [t cells H|es css N F].
  - destruct (entry_unpack _ _ H) as [ts [A B]]. exists ts. split; auto. eapply unpack_header_text; eauto.
  - destruct (entries_expand _ _ F) as [tss [A B]]. exists (List.concat tss). split; auto.
    apply unpack_header_list; auto.
Qed.

(** insertion sort, longest first *)
Definition longer (a b : text * list text) : Prop := (List.length (snd b) <= List.length (snd a))%nat.
Lemma insert_perm x l : Permutation (insert_desc x l) (x :: l).
Proof.
  induction l as [|y l IH]; cbn [insert_desc]; auto.
  destruct (Nat.ltb _ _); auto. rewrite IH. apply perm_swap.
Qed.
Lemma insert_sorted x l : StronglySorted longer l -> StronglySorted longer (insert_desc x l).
Proof.
  induction l as [|y l IH]; cbn [insert_desc]; intros S.
  - constructor; auto.
  - destruct (Nat.ltb (List.length (snd y)) (List.length (snd x))) eqn:E.
    + constructor; auto. apply StronglySorted_inv in S as [S1 S2]. constructor; [unfold longer; lia|].
      eapply Forall_impl; [|exact S2]. unfold longer. intros; lia.
    + apply StronglySorted_inv in S as [S1 S2]. constructor; auto.
      eapply Permutation_Forall; [symmetry; apply insert_perm|]. constructor; auto. unfold longer. lia.
Qed.
Lemma sort_desc_gen l acc : StronglySorted longer acc ->
  Permutation (fold_left (fun acc x => insert_desc x acc) l acc) (l ++ acc) /\
  StronglySorted longer (fold_left (fun acc x => insert_desc x acc) l acc).
Proof.
  revert acc. induction l as [|x l IH]; intros acc S; cbn; auto.
  destruct (IH (insert_desc x acc) (insert_sorted x acc S)) as [A B]. split; auto.
  rewrite A, insert_perm. symmetry. apply Permutation_middle.
Qed.
Lemma sort_desc_perm l : Permutation (sort_desc l) l.
Proof. unfold sort_desc. destruct (sort_desc_gen l [] (SSorted_nil _)) as [A _]. rewrite app_nil_r in A. auto. Qed.
Lemma sort_desc_sorted l : StronglySorted longer (sort_desc l).
Proof. apply sort_desc_gen. constructor. Qed.

(** when the in-scope test agrees with [P] *)
Lemma context_scan (f : text * list text -> res bool) (P : text * list text -> Prop) l acc :
  (forall x, In x l -> exists b, f x = Ok b /\ (b = true <-> P x)) ->
  exists kept dropped,
    foldM (fun acc it => do b <- f it; Ok (if b : bool then acc ++ [VStr (fst it)] else acc)) l acc
      = Ok (acc ++ map (fun it => VStr (fst it)) kept) /\
    Permutation (kept ++ dropped) l /\ Forall P kept /\ Forall (fun x => ~ P x) dropped /\
    (forall R, StronglySorted R l -> StronglySorted R kept).
Proof.
  revert acc. induction l as [|x l IH]; intros acc H.
  - exists [], []. cbn. rewrite app_nil_r. auto 6.
  - destruct (H x (or_introl eq_refl)) as [b [Hb Pb]]. cbn [foldM]. rewrite Hb. cbn [bind].
    destruct b.
    + destruct (IH (acc ++ [VStr (fst x)])) as [k [d [A [B [C [D E]]]]]]; [intros; apply H; right; auto|].
      exists (x :: k), d. rewrite A, <- app_assoc. cbn. repeat split; auto.
      * constructor; auto. tauto.
      * intros R S. apply StronglySorted_inv in S as [S1 S2]. constructor; auto.
        rewrite Forall_forall in *. intros y Hy. apply S2. eapply Permutation_in; [exact B|].
        apply in_app_iff; auto.
    + destruct (IH acc) as [k [d [A [B [C [D E]]]]]]; [intros; apply H; right; auto|].
      exists k, (x :: d). rewrite A. repeat split; auto.
      * rewrite <- Permutation_middle. auto.
      * constructor; auto. intros PX. apply Pb in PX. discriminate.
      * intros R S. apply StronglySorted_inv in S as [S1 S2]. auto.
Qed.

Lemma process_context_gen (P : list (Z * Z) -> Z -> Z -> Prop)
  (entries : list ctx_entry) hs cells :
  Forall (fun e => value_cells (snd (fst e)) (snd e)) entries ->
  names_cells hs cells ->
  (forall e ts h p, In e entries -> names_cells ts (snd e) -> In p cells -> cell_named h (fst p) (snd p) ->
     exists b, coord_in_scope h ts = Ok b /\ (b = true <-> P (snd e) (fst p) (snd p))) ->
  exists rows,
    process_context (VDict (map fst entries)) (map VStr hs) = Ok (VList (map VList rows)) /\
    Forall2 (fun row p => exists kept dropped : list ctx_entry,
        row = map (fun e => VStr (fst (fst e))) kept /\
        Permutation (kept ++ dropped) entries /\
        Forall (fun e => P (snd e) (fst p) (snd p)) kept /\
        Forall (fun e => ~ P (snd e) (fst p) (snd p)) dropped /\
        StronglySorted (fun a b => (List.length (snd b) <= List.length (snd a))%nat) kept) rows cells.
Proof.
  intros F N S.
  assert (U : exists un, mapM (fun kv => do u <- unpack_header_ranges (snd kv); do ts <- as_texts u; Ok (fst kv, ts)) (map fst entries) = Ok un
              /\ Forall2 (fun u e => fst u = fst (fst e) /\ names_cells (snd u) (snd e)) un entries).
  { clear S. induction F as [|e es He F IH]; cbn [map mapM].
    - exists []. auto.
    - destruct IH as [un [A B]]. destruct (value_unpack _ _ He) as [ts [C D]].
      rewrite C. cbn [bind]. rewrite as_texts_strs. cbn [bind].
      match goal with |- context [mapM ?g ?l] => change (mapM g l) with (mapM (fun kv => do u <- unpack_header_ranges (snd kv); do ts <- as_texts u; Ok (fst kv, ts)) (map fst es)) end.
      rewrite A. cbn [bind]. eexists. split; [reflexivity|]. constructor; auto. }
  destruct U as [un [U1 U2]].
  (* pair each sorted item with its entry *)
  assert (Pair : forall l, Permutation l un -> exists es, Permutation es entries /\
      Forall2 (fun u e => fst u = fst (fst e) /\ names_cells (snd u) (snd e)) l es).
  { intros l Hl. apply Permutation_sym in Hl.
    destruct (Permutation_Forall2 Hl U2) as [es [A B]]. exists es. split; auto. apply Permutation_sym; auto. }
  unfold process_context. rewrite U1. cbn [bind].
  set (ordered := sort_desc un).
  assert (R : forall h p, In p cells -> cell_named h (fst p) (snd p) ->
    exists row, (do hs <- foldM (fun acc it => do t <- as_text (VStr h); do b <- coord_in_scope t (snd it);
                                     Ok (if b : bool then acc ++ [VStr (fst it)] else acc)) ordered [];
                 Ok (VList hs)) = Ok (VList row) /\
    exists kept dropped : list ctx_entry,
        row = map (fun e => VStr (fst (fst e))) kept /\
        Permutation (kept ++ dropped) entries /\
        Forall (fun e => P (snd e) (fst p) (snd p)) kept /\
        Forall (fun e => ~ P (snd e) (fst p) (snd p)) dropped /\
        StronglySorted (fun a b => (List.length (snd b) <= List.length (snd a))%nat) kept).
  { intros h p Hp Hh.
    set (Q := fun u : text * list text => coord_in_scope h (snd u) = Ok true).
    destruct (context_scan (fun it => coord_in_scope h (snd it)) Q ordered []) as [k [d [A [B [C [D E]]]]]].
    { intros x Hx. assert (Hx' : In x un) by (eapply Permutation_in; [apply sort_desc_perm|exact Hx]).
      assert (exists e, In e entries /\ names_cells (snd x) (snd e)).
      { clear -U2 Hx'. induction U2; [contradiction|]. destruct Hx' as [<-|Hx'].
        - exists y. split; [left; auto|tauto].
        - destruct (IHU2 Hx') as [e [? ?]]. exists e; split; auto. right; auto. }
      destruct H as [e [He Ne]]. destruct (S e (snd x) h p He Ne Hp Hh) as [b [Hb _]].
      exists b. split; auto. unfold Q. rewrite Hb. split; congruence. }
    exists (map (fun it => VStr (fst it)) k). cbn [as_text bind].
    match goal with |- context [foldM ?g ordered []] => replace (foldM g ordered []) with (Ok (map (fun it : text * list text => VStr (fst it)) k)) end.
    split; [reflexivity|].
    destruct (Pair (k ++ d)) as [es [P1 P2]].
    { rewrite B. apply sort_desc_perm. }
    apply Forall2_app_inv_l in P2. destruct P2 as [ek [ed [Fk [Fd ->]]]].
    exists ek, ed.
    assert (Imp : forall (u : text * list text) (e : ctx_entry), In e entries -> names_cells (snd u) (snd e) -> (Q u <-> P (snd e) (fst p) (snd p))).
    { intros u e He Ne. destruct (S e (snd u) h p He Ne Hp Hh) as [b [Hb Pb]]. unfold Q. rewrite Hb. rewrite <- Pb.
      split; congruence. }
    assert (In_k : forall e, In e ek -> In e entries) by (intros; eapply Permutation_in; [exact P1|]; apply in_app_iff; auto).
    assert (In_d : forall e, In e ed -> In e entries) by (intros; eapply Permutation_in; [exact P1|]; apply in_app_iff; auto).
    split; [|split; [auto|split; [|split]]].
    - clear -Fk. induction Fk; cbn; auto. f_equal; auto. f_equal. tauto.
    - clear -Fk C Imp In_k. induction Fk; constructor.
      + inversion C; subst. apply (Imp x y); auto; [apply In_k; left; auto|tauto].
      + inversion C; subst. apply IHFk; auto. intros; apply In_k; right; auto.
    - clear -Fd D Imp In_d. induction Fd; constructor.
      + inversion D; subst. rewrite <- (Imp x y); auto; [apply In_d; left; auto|tauto].
      + inversion D; subst. apply IHFd; auto. intros; apply In_d; right; auto.
    - pose proof (E _ (sort_desc_sorted un)) as SS. clear -SS Fk.
      assert (LE : forall (u : text * list text) (e : ctx_entry), names_cells (snd u) (snd e) -> List.length (snd u : list text) = List.length (snd e)).
      { intros u e N. induction N; cbn; auto. }
      induction Fk as [|u e k ek [H1 H2] Fk IH]; constructor.
      + apply IH. apply StronglySorted_inv in SS; tauto.
      + apply StronglySorted_inv in SS as [_ SS]. clear IH H1. induction Fk as [|u' e' k ek [H3 H4] Fk IH]; constructor.
        * inversion SS; subst. unfold longer in H1. rewrite (LE u e), (LE u' e') in H1; auto.
        * apply IH. inversion SS; auto. }
  clear U1 Pair S.
  assert (G : exists rows, mapM (fun h => do hs <- foldM (fun acc it =>
                           do t <- as_text h;
                           do b <- coord_in_scope t (snd it);
                           Ok (if b : bool then acc ++ [VStr (fst it)] else acc))
                         ordered [];
                Ok (VList hs)) (map VStr hs) = Ok (map VList rows) /\
     Forall2 (fun row p => exists kept dropped : list ctx_entry,
        row = map (fun e => VStr (fst (fst e))) kept /\
        Permutation (kept ++ dropped) entries /\
        Forall (fun e => P (snd e) (fst p) (snd p)) kept /\
        Forall (fun e => ~ P (snd e) (fst p) (snd p)) dropped /\
        StronglySorted (fun a b => (List.length (snd b) <= List.length (snd a))%nat) kept) rows cells).
  { induction N as [|h p hs cells Hh N IH].
    - exists []. auto.
    - destruct IH as [rows [A B]]. { intros; apply R; auto. right; auto. }
      destruct (R h p (or_introl eq_refl) Hh) as [row [C D]].
      exists (row :: rows). split; [|constructor; auto].
      cbn [map mapM]. rewrite C. cbn [bind]. rewrite A. auto. }
  destruct G as [rows [A B]]. exists rows. split; auto. rewrite A. auto.
Qed.

(** ** Consecutive cells *)
Ltac zdec := repeat match goal with |- context [?a =? ?b] =>
  first [replace (a =? b) with true by lia | replace (a =? b) with false by lia] end; cbn [negb].

Lemma run_row r c n ts : names_cells ts (map (fun k => (r, c + Z.of_nat k)) (seq 1 n)) ->
  consecutive_from r c (Some true) ts = Ok true.
Proof.
  revert c ts. induction n as [|n IH]; intros c ts N; cbn [seq map] in N; inversion N as [|? ? ? ? H1 H3]; subst; auto.
  cbn [consecutive_from]. cbn [fst snd] in H1. apply cell_named_iff in H1. rewrite H1. cbn [bind fst snd].

  zdec. 
  apply IH. rewrite <- seq_shift, map_map in H3.
  erewrite map_ext; [exact H3|]. intros k. cbn. f_equal. lia.
Qed.
Lemma run_col r c n ts : names_cells ts (map (fun k => (r + Z.of_nat k, c)) (seq 1 n)) ->
  consecutive_from r c (Some false) ts = Ok true.
Proof.
  revert r ts. induction n as [|n IH]; intros r ts N; cbn [seq map] in N; inversion N as [|? ? ? ? H1 H3]; subst; auto.
  cbn [consecutive_from]. cbn [fst snd] in H1. apply cell_named_iff in H1. rewrite H1. cbn [bind fst snd].

  zdec. 
  apply IH. rewrite <- seq_shift, map_map in H3.
  erewrite map_ext; [exact H3|]. intros k. cbn. f_equal. lia.
Qed.
Lemma run_row_inv r c ts cells : names_cells ts cells -> consecutive_from r c (Some true) ts = Ok true ->
  cells = map (fun k => (r, c + Z.of_nat k)) (seq 1 (List.length cells)).
Proof.
  intros N. revert c. induction N as [|t [r' c'] ts cells Ht N IH]; intros c H; auto.
  cbn [consecutive_from] in H. cbn [fst snd] in Ht. apply cell_named_iff in Ht. rewrite Ht in H. cbn [bind fst snd] in H.
  destruct (r' =? r) eqn:E1; cbn [negb] in H; [|discriminate].
  destruct (c + 1 =? c') eqn:E2; cbn [negb] in H; [|discriminate].
  apply IH in H. cbn [List.length seq map]. f_equal; [f_equal; lia|].
  rewrite H at 1. rewrite <- (seq_shift _ 1), map_map. apply map_ext. intros k. f_equal. lia.
Qed.
Lemma run_col_inv r c ts cells : names_cells ts cells -> consecutive_from r c (Some false) ts = Ok true ->
  cells = map (fun k => (r + Z.of_nat k, c)) (seq 1 (List.length cells)).
Proof.
  intros N. revert r. induction N as [|t [r' c'] ts cells Ht N IH]; intros r H; auto.
  cbn [consecutive_from] in H. cbn [fst snd] in Ht. apply cell_named_iff in Ht. rewrite Ht in H. cbn [bind fst snd] in H.
  destruct (c' =? c) eqn:E1; cbn [negb] in H; [|discriminate].
  destruct (r + 1 =? r') eqn:E2; cbn [negb] in H; [|discriminate].
  apply IH in H. cbn [List.length seq map]. f_equal; [f_equal; lia|].
  rewrite H at 1. rewrite <- (seq_shift _ 1), map_map. apply map_ext. intros k. f_equal. lia.
Qed.

Lemma consecutive_complete ts cells : names_cells ts cells -> row_run cells \/ column_run cells ->
  consecutive_cells ts = Ok true.
Proof.
  intros N [[r [c [n ->]]]|[r [c [n ->]]]]; destruct n as [|[|n]]; cbn [seq map] in N; inversion N as [|? ? ? ? H1 H3]; subst; auto;
  cbn [fst snd] in H1; apply cell_named_iff in H1.
  - inversion H3; subst. cbn [consecutive_cells]. rewrite H1. auto.
  - inversion H3 as [|? ? ? ? H2 H4]; subst. cbn [fst snd] in H2. apply cell_named_iff in H2.
    cbn [consecutive_cells]. rewrite H1. cbn [bind fst snd consecutive_from]. rewrite H2. cbn [bind fst snd].

  zdec. apply (run_row _ _ n). rewrite <- seq_shift, map_map in H4. erewrite map_ext; [exact H4|]. intros k. cbn. f_equal. lia.
  - inversion H3; subst. cbn [consecutive_cells]. rewrite H1. auto.
  - inversion H3 as [|? ? ? ? H2 H4]; subst. cbn [fst snd] in H2. apply cell_named_iff in H2.
    cbn [consecutive_cells]. rewrite H1. cbn [bind fst snd consecutive_from]. rewrite H2. cbn [bind fst snd].

  zdec. apply (run_col _ _ n). rewrite <- seq_shift, map_map in H4. erewrite map_ext; [exact H4|]. intros k. cbn. f_equal. lia.
Qed.

Lemma consecutive_sound ts cells : names_cells ts cells -> no_diagonal_start cells ->
  consecutive_cells ts = Ok true -> row_run cells \/ column_run cells.
Proof.
  intros N D H. destruct N as [|t [r c] ts cells Ht N].
  - left. exists 0, 0, 0%nat. auto.
  - cbn [consecutive_cells] in H. cbn [fst snd] in Ht. apply cell_named_iff in Ht. rewrite Ht in H. cbn [bind fst snd] in H.
    destruct N as [|t' [r' c'] ts cells Ht' N].
    + left. exists r, c, 1%nat. cbn. f_equal. f_equal. lia.
    + cbn [consecutive_from] in H. cbn [fst snd] in Ht'. apply cell_named_iff in Ht'. rewrite Ht' in H. cbn [bind fst snd] in H.
      cbn in D.
      destruct (r' =? r) eqn:E1.
      * destruct (c + 1 =? c') eqn:E2; [|discriminate]. left. exists r, c, (S (S (List.length cells))).
        cbn [seq map]. f_equal; [f_equal; lia|]. f_equal; [f_equal; lia|].
        rewrite (run_row_inv _ _ _ _ N H) at 1. rewrite <- (seq_shift _ 1), map_map. apply map_ext. intros k. f_equal; lia.
      * destruct (c' =? c) eqn:E2; [|exfalso; lia].
        destruct (r + 1 =? r') eqn:E3; [|discriminate]. right. exists r, c, (S (S (List.length cells))).
        cbn [seq map]. f_equal; [f_equal; lia|]. f_equal; [f_equal; lia|].
        rewrite (run_col_inv _ _ _ _ N H) at 1. rewrite <- (seq_shift _ 1), map_map. apply map_ext. intros k. f_equal; lia.
Qed.
