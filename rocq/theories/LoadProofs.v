(** Proofs of C57. *)
From Coq Require Import ZifyBool ZifyNat ZifyN.
From Verif Require Import Base BaseFacts Coord CoordFacts Params XlMethods Load SpecScrape SpecLoad.
Local Open Scope Z_scope.

Lemma printable_bound t : printable t -> bound_value (VStr t) = Ok (VStr t).
Proof.
  intros [L H]. unfold bound_value. assert (E : firstn text_limit t = t).
  { apply firstn_all2. unfold text_limit. lia. }
  rewrite E. destruct (existsb illegal_ch t) eqn:X; auto. exfalso.
  apply existsb_exists in X as [c [I C]]. specialize (H c I). unfold illegal_ch in C. lia.
Qed.
Lemma usual_bound v : usual_value v -> bound_value v = Ok v.
Proof. destruct v; intros H; try reflexivity. apply printable_bound. auto. Qed.
Lemma usual_cell_bound x : usual_cell x -> exists v, bound_value (cell_value x) = Ok v /\ shown x v.
Proof.
  intros H. exists (cell_value x). split.
  - apply usual_bound. destruct x; cbn in *; auto. split; [cbn; lia|intros c []].
  - destruct x; cbn; try constructor. destruct b; constructor.
Qed.

Lemma wait_enough k s : has_cells s -> wait_cells (S k) 0 0 s = Some (xs_rows s, xs_cols s).
Proof.
  intros [A B]. cbn [wait_cells Nat.mul Nat.eqb]. assert (E : Nat.eqb (xs_rows s * xs_cols s) 0 = false) by (apply Nat.eqb_neq; nia).
  destruct k; cbn [wait_cells]; rewrite E; auto.
Qed.
Lemma wait_never s : (xs_rows s = 0 \/ xs_cols s = 0)%nat -> forall k n m, (n = 0 \/ m = 0)%nat -> wait_cells k n m s = None.
Proof.
  intros E. induction k as [|k IH]; intros n m H; cbn [wait_cells];
    (replace (Nat.eqb (n * m) 0) with true by (symmetry; apply Nat.eqb_eq; destruct H; subst; lia)); auto.
Qed.

(** ** writing cell after cell *)
Lemma pair_dec (a b : nat * nat) : {a = b} + {a <> b}.
Proof. decide equality; apply Nat.eq_dec. Qed.
Section Fill.
Variables (f : worksheet -> nat * nat -> res worksheet) (val : nat -> nat -> pyval) (n m : nat).
Hypothesis Hf : forall w r c, (r < n)%nat -> (c < m)%nat -> f w (r, c) = Ok (write (Z.of_nat r + 1) (Z.of_nat c + 1) (val r c) w).

Lemma fill : forall l w, (forall r c, In (r, c) l -> (r < n)%nat /\ (c < m)%nat) ->
  exists w', foldM f l w = Ok w' /\ title w' = title w /\
    (forall r c, In (r, c) l -> Z.of_nat r + 1 <= max_row w' /\ Z.of_nat c + 1 <= max_col w') /\
    max_row w <= max_row w' /\ max_col w <= max_col w' /\
    (max_row w' <= Z.max (max_row w) (Z.of_nat n)) /\ (max_col w' <= Z.max (max_col w) (Z.of_nat m)) /\
    (forall r c, In (r, c) l -> cell w' (Z.of_nat r + 1) (Z.of_nat c + 1) = val r c) /\
    (forall r c, (forall i j, r = Z.of_nat i + 1 -> c = Z.of_nat j + 1 -> ~ In (i, j) l) -> cell w' r c = cell w r c).
Proof.
  induction l as [|[r c] l IH]; intros w Hl.
  - exists w. cbn. repeat split; auto; try lia; intros; contradiction.
  - destruct (Hl r c (or_introl eq_refl)) as [Hr Hc]. cbn [foldM]. rewrite Hf by auto. cbn [bind].
    destruct (IH (write (Z.of_nat r + 1) (Z.of_nat c + 1) (val r c) w)) as (w' & E & Ti & Mx & M1 & M2 & M3 & M4 & In_ & Out).
    { intros; apply Hl; right; auto. }
    cbn [write max_row max_col title cell] in *.
    exists w'. split; [auto|]. split; [auto|]. split; [|split; [lia|split; [lia|split; [lia|split; [lia|split]]]]].
    + intros i j [H|H]; [injection H as -> ->; lia|apply Mx; auto].
    + intros i j [H|H]; [|apply In_; auto]. injection H as -> ->.
      destruct (in_dec pair_dec (i, j) l) as [I|I]; [apply In_; auto|].
      rewrite Out. { rewrite !Z.eqb_refl. auto. }
      intros i' j' A B. assert (i' = i) by lia. assert (j' = j) by lia. subst. auto.
    + intros i j H. rewrite Out.
      * destruct ((i =? Z.of_nat r + 1) && (j =? Z.of_nat c + 1)) eqn:Q; auto. exfalso. apply andb_true_iff in Q as [Q1 Q2].
        apply (H r c); [lia|lia|left; auto].
      * intros i' j' A B I. apply (H i' j' A B). right. auto.
Qed.
End Fill.

Lemma cells_of_In n m r c : In (r, c) (cells_of n m) <-> (r < n)%nat /\ (c < m)%nat.
Proof.
  unfold cells_of. rewrite in_flat_map. split.
  - intros [x [A B]]. apply in_map_iff in B as [y [E B]]. injection E as -> ->. apply in_seq in A, B. lia.
  - intros [A B]. exists r. split; [apply in_seq; lia|]. apply in_map_iff. exists c. split; auto. apply in_seq. lia.
Qed.

Lemma filled (f : worksheet -> nat * nat -> res worksheet) (val : nat -> nat -> pyval) n m t :
  (forall w r c, (r < n)%nat -> (c < m)%nat -> f w (r, c) = Ok (write (Z.of_nat r + 1) (Z.of_nat c + 1) (val r c) w)) ->
  (1 <= n)%nat -> (1 <= m)%nat ->
  exists w, foldM f (cells_of n m) (new_ws t) = Ok w /\ title w = t /\ max_row w = Z.of_nat n /\ max_col w = Z.of_nat m /\
    (forall r c, (r < n)%nat -> (c < m)%nat -> cell w (Z.of_nat r + 1) (Z.of_nat c + 1) = val r c) /\
    (forall r c, ~ (1 <= r <= Z.of_nat n /\ 1 <= c <= Z.of_nat m) -> cell w r c = VNone).
Proof.
  intros Hf Hn Hm. destruct (fill f val n m Hf (cells_of n m) (new_ws t)) as (w & E & Ti & Mx & M1 & M2 & M3 & M4 & I & O).
  - intros r c H. apply cells_of_In. auto.
  - exists w. cbn [new_ws title max_row max_col cell] in *. split; [auto|]. split; [auto|].
    destruct (Mx (n - 1)%nat (m - 1)%nat) as [Q1 Q2]; [apply cells_of_In; lia|].
    split; [lia|]. split; [lia|]. split.
    + intros r c Hr Hc. apply I. apply cells_of_In. auto.
    + intros r c H. rewrite O; auto. intros i j -> -> J. apply cells_of_In in J. lia.
Qed.

Lemma sheet_kept s : usual_sheet s -> exists w, foldM (set_cell s) (cells_of (xs_rows s) (xs_cols s)) (new_ws (xs_name s)) = Ok w /\ kept_sheet s w.
Proof.
  intros [[H1 H2] [H3 H4]].
  destruct (filled (set_cell s) (fun r c => cell_value (xs_cell s r c)) (xs_rows s) (xs_cols s) (xs_name s)) as (w & E & T1 & R & C & I & O); auto.
  - intros w r c Hr Hc. unfold set_cell. replace (cell_ok _ _) with true by (unfold cell_ok, max_column; lia).
    rewrite usual_bound; auto. specialize (H4 r c Hr Hc). destruct (xs_cell s r c); cbn in *; auto. split; [cbn; lia|intros ? []].
  - exists w. split; [auto|]. split; [auto|]. split; [auto|]. split; [auto|]. split.
    + intros r c Hr Hc. rewrite I by auto. destruct (usual_cell_bound _ (H4 r c Hr Hc)) as [v [_ S1]].
      destruct (xs_cell s r c); cbn; try constructor. destruct b; constructor.
    + intros r c H. destruct (Z_le_dec 1 r), (Z_le_dec r (max_row w)), (Z_le_dec 1 c), (Z_le_dec c (max_col w)); auto;
        exfalso; apply H, O; lia.
Qed.

Lemma open_kept k : forall sheets wb, Forall usual_sheet sheets -> exists ws,
  open_sheets (S k) sheets wb = Some (Ok (wb ++ ws)) /\ Forall2 kept_sheet sheets ws.
Proof.
  induction sheets as [|s sheets IH]; intros wb H.
  - exists []. cbn. rewrite app_nil_r. split; auto.
  - inversion H; subst. cbn [open_sheets]. rewrite wait_enough by apply H2.
    destruct (sheet_kept s H2) as [w [E K]]. rewrite E. destruct (IH (wb ++ [w]) H3) as [ws [E2 F]].
    exists (w :: ws). rewrite E2, <- app_assoc. split; auto.
Qed.
Lemma open_waits s s2 : (xs_rows s = 0 \/ xs_cols s = 0)%nat -> forall s1 wb k, Forall usual_sheet s1 ->
  open_sheets k (s1 ++ s :: s2) wb = None.
Proof.
  intros E. induction s1 as [|a s1 IH]; intros wb k F.
  - cbn. rewrite wait_never; auto.
  - inversion F; subst. cbn [app open_sheets]. destruct k as [|k].
    + cbn. auto.
    + rewrite wait_enough by apply H1. destruct (sheet_kept a H1) as [w [-> _]]. apply IH. auto.
Qed.

(** ** no cell of an opened file is a date *)
Lemma cell_no_date x v : bound_value (cell_value x) = Ok v -> forall d, v <> VDate d.
Proof.
  intros H d ->. destruct x; unfold bound_value, cell_value in H; cbv zeta in H; try discriminate H;
    destruct (existsb illegal_ch _) in H; discriminate H.
Qed.
Definition no_dates (w : worksheet) : Prop := forall r c d, cell w r c <> VDate d.
Lemma fill_no_dates s : forall l w w', foldM (set_cell s) l w = Ok w' -> no_dates w -> no_dates w'.
Proof.
  induction l as [|[r c] l IH]; intros w w' H N; cbn in H; [injection H as <-; auto|].
  apply bind_ok in H as [w1 [H1 H]]. apply IH in H; auto. unfold set_cell in H1. destruct (cell_ok _ _); [|discriminate].
  apply bind_ok in H1 as [v [Hv H1]]. injection H1 as <-. intros i j d. cbn. destruct (_ && _).
  - apply cell_no_date with (d := d) in Hv. auto.
  - apply N.
Qed.
Lemma open_no_dates k : forall sheets wb wb', open_sheets k sheets wb = Some (Ok wb') -> Forall no_dates wb -> Forall no_dates wb'.
Proof.
  induction sheets as [|s sheets IH]; intros wb wb' H F; cbn in H; [injection H as <-; auto|].
  destruct (wait_cells k 0 0 s) as [[n m]|]; [|discriminate]. destruct (foldM _ _ _) as [w|x] eqn:E; [|discriminate].
  apply IH in H; auto. apply Forall_app. split; auto. constructor; auto. eapply fill_no_dates; eauto. intros r c d. cbn. discriminate.
Qed.

(** ** extensions *)
Lemma prefix_app (a b : text) : is_prefix a b = true <-> exists c, b = a ++ c.
Proof.
  revert b. induction a as [|x a IH]; intros b; cbn.
  - split; eauto.
  - destruct b as [|y b]; [split; [discriminate|intros [c H]; discriminate]|].
    rewrite andb_true_iff, IH. split.
    + intros [E [c ->]]. apply Ascii.eqb_eq in E. subst. eauto.
    + intros [c H]. injection H as -> ->. split; [apply Ascii.eqb_refl|eauto].
Qed.
Lemma ends_with_app s t : ends_with s t = true <-> exists n, t = n ++ s.
Proof.
  unfold ends_with. rewrite prefix_app. split; intros [c H].
  - exists (rev c). rewrite <- (rev_involutive t), H, rev_app_distr, rev_involutive. auto.
  - exists (rev c). rewrite H, rev_app_distr. auto.
Qed.
Lemma not_xlsx n : ends_with (T ".xlsx") (n ++ T ".xls") = false.
Proof. unfold ends_with. rewrite rev_app_distr. reflexivity. Qed.

(** ** the copying loop *)
Lemma copy_loop_same w : 1 <= max_row w -> 1 <= max_col w <= max_column -> (forall r c, usual_value (cell w r c)) ->
  exists w', copy_loop w = Ok w' /\ same_sheet (make_ws_copy w) w'.
Proof.
  intros Hr Hc Hv. unfold copy_loop.
  destruct (filled (copy_cell w) (fun r c => cell w (Z.of_nat r + 1) (Z.of_nat c + 1)) (Z.to_nat (max_row w)) (Z.to_nat (max_col w)) (title w))
    as (w' & E & T1 & R & C & I & O); try lia.
  - intros w0 r c H1 H2. unfold copy_cell. cbn [fst snd]. unfold max_column in *. rewrite parse_coord_text by lia. cbn [bind fst snd].
    rewrite usual_bound by auto. auto.
  - exists w'. split; [auto|]. unfold same_sheet. cbn. split; [auto|]. split; [lia|]. split; [lia|].
    intros r c. destruct ((1 <=? r) && (r <=? max_row w) && (1 <=? c) && (c <=? max_col w)) eqn:Q.
    + specialize (I (Z.to_nat (r - 1)) (Z.to_nat (c - 1))). replace (Z.of_nat (Z.to_nat (r - 1)) + 1) with r in I by lia.
      replace (Z.of_nat (Z.to_nat (c - 1)) + 1) with c in I by lia. symmetry. apply I; lia.
    + symmetry. apply O. lia.
Qed.
