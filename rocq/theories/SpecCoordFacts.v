(** The model's reading of coordinates is the specification's. *)
From Coq Require Import ZifyBool ZifyNat ZifyN Sorting.Sorted.
From Coq Require DecimalFacts DecimalN.
From Verif Require Import Base BaseFacts Coord XlMethods CoordFacts SpecCoord.
Local Open Scope Z_scope.

Lemma letter_number_iff c n :
  letter_number c n <-> is_letter c = true /\ n = code (up_ch c) - 64.
Proof.
  split.
  - intros [k [-> H]].
    assert (A : forallb (fun k => match nth_error (txt "ABCDEFGHIJKLMNOPQRSTUVWXYZ") k,
                 nth_error (txt "abcdefghijklmnopqrstuvwxyz") k with
                 | Some a, Some b => is_letter a && (Z.of_nat k + 1 =? code (up_ch a) - 64) &&
                    is_letter b && (Z.of_nat k + 1 =? code (up_ch b) - 64)
                 | _, _ => false end) (seq 0 26) = true) by (vm_compute; reflexivity).
    rewrite forallb_forall in A.
    assert (K : (k < 26)%nat).
    { destruct H as [H|H]; (assert (nth_error _ k <> None) as N by (rewrite H; discriminate); apply nth_error_Some in N; exact N). }
    specialize (A k). destruct (nth_error (txt "ABCDEFGHIJKLMNOPQRSTUVWXYZ") k);
    destruct (nth_error (txt "abcdefghijklmnopqrstuvwxyz") k);
    try (specialize (A ltac:(apply in_seq; lia)); discriminate).
    specialize (A ltac:(apply in_seq; lia)). rewrite !andb_true_iff, !Z.eqb_eq in A.
    destruct H as [H|H]; inversion H; subst; intuition.
  - intros [H ->]. exists (Z.to_nat (code (up_ch c) - 65)).
    pose proof (letter_val_range c H) as R. split; [lia|].
    pose proof (byte_check (fun c => negb (is_letter c) ||
      match nth_error (txt "ABCDEFGHIJKLMNOPQRSTUVWXYZ") (Z.to_nat (code (up_ch c) - 65)),
            nth_error (txt "abcdefghijklmnopqrstuvwxyz") (Z.to_nat (code (up_ch c) - 65)) with
      | Some a, Some b => ch_eqb a c || ch_eqb b c
      | _, _ => false end)) as B.
    specialize (B ltac:(vm_compute; reflexivity) c). cbn beta in B. rewrite H in B. cbn [negb orb] in B.
    destruct (nth_error (txt "ABCDEFGHIJKLMNOPQRSTUVWXYZ") (Z.to_nat (code (up_ch c) - 65))); [|discriminate].
    destruct (nth_error (txt "abcdefghijklmnopqrstuvwxyz") (Z.to_nat (code (up_ch c) - 65))); [|discriminate].
    apply orb_true_iff in B. rewrite !ch_eqb_eq in B. destruct B as [->| ->]; auto.
Qed.

Lemma digit_number_iff c k :
  nth_error (txt "0123456789") k = Some c <-> is_digit c = true /\ Z.of_nat k = digit_val c.
Proof.
  split.
  - intros H. assert (K : (k < 10)%nat).
    { assert (nth_error (txt "0123456789") k <> None) as N by (rewrite H; discriminate).
      apply nth_error_Some in N. exact N. }
    assert (A : forallb (fun k => match nth_error (txt "0123456789") k with
                 | Some a => is_digit a && (Z.of_nat k =? digit_val a)
                 | _ => false end) (seq 0 10) = true) by (vm_compute; reflexivity).
    rewrite forallb_forall in A. specialize (A k ltac:(apply in_seq; lia)). rewrite H in A.
    rewrite andb_true_iff, Z.eqb_eq in A. auto.
  - intros [H E]. replace k with (Z.to_nat (digit_val c)) by lia.
    pose proof (byte_check (fun c => negb (is_digit c) ||
      match nth_error (txt "0123456789") (Z.to_nat (digit_val c)) with
      | Some a => ch_eqb a c | _ => false end)) as B.
    specialize (B ltac:(vm_compute; reflexivity) c). cbn beta in B. rewrite H in B. cbn [negb orb] in B.
    destruct (nth_error (txt "0123456789") (Z.to_nat (digit_val c))); [|discriminate].
    apply ch_eqb_eq in B; subst; auto.
Qed.

Lemma rev_ind' {A} (P : list A -> Prop) : P [] -> (forall l x, P l -> P (l ++ [x])) -> forall l, P l.
Proof. intros; apply rev_ind; auto. Qed.

Lemma column_number_iff l c :
  column_number l c <-> l <> [] /\ forallb is_letter l = true /\ letters_val l = c.
Proof.
  split.
  - induction 1 as [x n H|t m x n H IH H2].
    + apply letter_number_iff in H. destruct H as [H ->]. cbn. rewrite H. repeat split; try congruence.
    + destruct IH as [N [F V]]. apply letter_number_iff in H2. destruct H2 as [H2 ->].
      repeat split.
      * destruct t; discriminate.
      * rewrite forallb_app, F. cbn. rewrite H2; auto.
      * unfold letters_val in *. rewrite fold_left_app. cbn [fold_left]. rewrite V. lia.
  - revert c. induction l as [|l x IH] using rev_ind'; intros c [N [F V]]; [congruence|].
    rewrite forallb_app in F. cbn in F. rewrite andb_true_r in F. apply andb_true_iff in F. destruct F as [F1 F2].
    unfold letters_val in V. rewrite fold_left_app in V. cbn [fold_left] in V. subst c.
    destruct l as [|y l'].
    + cbn. apply cn_one. apply letter_number_iff; auto.
    + set (m := fold_left (fun acc c => acc * 26 + (code (up_ch c) - 64)) (y :: l') 0).
      replace (m * 26 + (code (up_ch x) - 64)) with (26 * m + (code (up_ch x) - 64)) by lia.
      apply cn_more; [|apply letter_number_iff; auto]. apply IH. repeat split; auto. discriminate.
Qed.

Lemma decimal_iff d r :
  decimal d r <-> d <> [] /\ forallb is_digit d = true /\ digits_val d = r.
Proof.
  split.
  - induction 1 as [x n H|t m x n H IH H2].
    + apply digit_number_iff in H. destruct H as [H E]. cbn. rewrite H. repeat split; try congruence; try (unfold digits_val; cbn [fold_left]; lia).
    + destruct IH as [N [F V]]. apply digit_number_iff in H2. destruct H2 as [H2 E].
      repeat split.
      * destruct t; discriminate.
      * rewrite forallb_app, F. cbn. rewrite H2; auto.
      * unfold digits_val in *. rewrite fold_left_app. cbn [fold_left]. rewrite V. lia.
  - revert r. induction d as [|l x IH] using rev_ind'; intros c [N [F V]]; [congruence|].
    rewrite forallb_app in F. cbn in F. rewrite andb_true_r in F. apply andb_true_iff in F. destruct F as [F1 F2].
    unfold digits_val in V. rewrite fold_left_app in V. cbn [fold_left] in V. subst c.
    assert (K : digit_val x = Z.of_nat (Z.to_nat (digit_val x))).
    { unfold is_digit in F2. unfold digit_val. lia. }
    destruct l as [|y l'].
    + cbn. rewrite K. apply dec_one. apply digit_number_iff. split; auto.
    + set (m := fold_left (fun acc c => acc * 10 + digit_val c) (y :: l') 0).
      replace (m * 10 + digit_val x) with (10 * m + digit_val x) by lia. rewrite K.
      apply dec_more; [|apply digit_number_iff; split; auto]. apply IH. repeat split; auto. discriminate.
Qed.

Lemma cell_named_iff t r c : cell_named t r c <-> parse_coord t = Ok (r, c).
Proof.
  split.
  - intros [l [d [-> [HC [HL [HD HR]]]]]].
    apply column_number_iff in HC. apply decimal_iff in HD.
    destruct HC as [N1 [F1 <-]], HD as [N2 [F2 <-]].
    apply parse_parts; auto; [|lia]. destruct l; [congruence|cbn in *; lia].
  - intros H. pose proof (parse_range _ _ _ H) as R.
    destruct (parse_inv _ _ H) as [l [d [-> [Hl [Hd [Ln [Hn [Hz E]]]]]]]]. inversion E; subst.
    exists l, d. repeat split; auto; try lia.
    + apply column_number_iff. repeat split; auto. destruct l; cbn in Ln; [lia|congruence].
    + apply decimal_iff. auto.
Qed.

Lemma names_cells_iff ts cells : names_cells ts cells <-> mapM parse_coord ts = Ok cells.
Proof.
  unfold names_cells. rewrite mapM_ok. split; intros H; induction H as [|t [r c] ts cs H1 H2 IH];
    constructor; auto; apply cell_named_iff; auto.
Qed.

Lemma rect_cells_rectangle r1 c1 r2 c2 : rectangle r1 c1 r2 c2 (rect_cells r1 c1 r2 c2).
Proof.
  split; [|split].
  - intros; apply rect_cells_In.
  - pose proof (rect_cells_sorted r1 c1 r2 c2) as S.
    induction S as [|x l S IH F]; constructor; auto.
    intros H. rewrite Forall_forall in F. apply F in H. unfold row_major in H. lia.
  - apply rect_cells_sorted.
Qed.

(** the specification determines the list *)
Lemma sorted_unique (l1 l2 : list (Z * Z)) :
  StronglySorted before l1 -> StronglySorted before l2 ->
  (forall x, In x l1 <-> In x l2) -> l1 = l2.
Proof.
  revert l2. induction l1 as [|x l1 IH]; intros l2 S1 S2 H.
  - destruct l2 as [|y l2]; auto. exfalso. apply (proj2 (H y)). left; auto.
  - destruct l2 as [|y l2]; [exfalso; apply (proj1 (H x)); left; auto|].
    apply StronglySorted_inv in S1, S2. destruct S1 as [S1 F1], S2 as [S2 F2].
    rewrite Forall_forall in F1, F2.
    assert (x = y).
    { destruct (proj1 (H x) (or_introl eq_refl)) as [E|E]; auto.
      destruct (proj2 (H y) (or_introl eq_refl)) as [E2|E2]; auto.
      apply F2 in E. apply F1 in E2. unfold before in *. lia. }
    subst y. f_equal. apply IH; auto. intros z. split; intros Hz.
    + destruct (proj1 (H z) (or_intror Hz)) as [E|E]; auto. subst z.
      apply F1 in Hz. unfold before in Hz. lia.
    + destruct (proj2 (H z) (or_intror Hz)) as [E|E]; auto. subst z.
      apply F2 in Hz. unfold before in Hz. lia.
Qed.
Lemma rectangle_unique r1 c1 r2 c2 cells :
  rectangle r1 c1 r2 c2 cells -> cells = rect_cells r1 c1 r2 c2.
Proof.
  intros [H [_ S]]. apply sorted_unique; auto.
  - apply rect_cells_sorted.
  - intros [r c]. rewrite H, rect_cells_In. tauto.
Qed.

(** ** Canonical names *)
Lemma digit_in c : is_digit c = true -> exists f : Decimal.uint -> Decimal.uint,
  (forall u, uint_text (f u) = c :: uint_text u) /\
  (c <> "0"%char -> forall u, Decimal.unorm (f u) = f u).
Proof.
  intros H.
  assert (E : In c (T "0123456789")).
  { pose proof (byte_check (fun c => negb (is_digit c) || ch_in c (T "0123456789"))) as B.
    specialize (B ltac:(vm_compute; reflexivity) c). cbn beta in B. rewrite H in B.
    apply ch_in_In. exact B. }
  cbn in E.
  destruct E as [<-|[<-|[<-|[<-|[<-|[<-|[<-|[<-|[<-|[<-|[]]]]]]]]]]].
  - exists Decimal.D0; split; auto. congruence.
  - exists Decimal.D1; split; auto.
  - exists Decimal.D2; split; auto.
  - exists Decimal.D3; split; auto.
  - exists Decimal.D4; split; auto.
  - exists Decimal.D5; split; auto.
  - exists Decimal.D6; split; auto.
  - exists Decimal.D7; split; auto.
  - exists Decimal.D8; split; auto.
  - exists Decimal.D9; split; auto.
Qed.
Lemma text_uint d : forallb is_digit d = true -> exists u, uint_text u = d.
Proof.
  induction d as [|c d IH]; cbn.
  - exists Decimal.Nil; auto.
  - intros H. apply andb_true_iff in H. destruct H as [H1 H2]. destruct (IH H2) as [u Hu].
    destruct (digit_in c H1) as [f [Hf _]]. exists (f u). rewrite Hf, Hu; auto.
Qed.
Lemma Z_text_digits_val d : forallb is_digit d = true -> d <> [] -> hd_error d <> Some "0"%char ->
  Z_text (digits_val d) = d.
Proof.
  intros H N Z. rewrite Z_text_nonneg by (apply digits_val_nonneg; auto).
  destruct d as [|c d]; [congruence|]. pose proof H as H'. cbn in H'. apply andb_true_iff in H'.
  destruct H' as [H1 H2]. destruct (text_uint d H2) as [u Hu].
  destruct (digit_in c H1) as [f [Hf Hn]].
  assert (E : uint_text (f u) = c :: d) by (rewrite Hf, Hu; auto).
  rewrite <- E, uint_text_val. rewrite N2Z.id.
  rewrite DecimalN.Unsigned.to_of, Hn; auto. cbn in Z. congruence.
Qed.

Lemma canonical_coord t r c : canonical_name t -> cell_named t r c -> t = coord_text r c.
Proof.
  intros [l [d [-> [Fl [Fd Hd]]]]] H. apply cell_named_iff in H.
  assert (Ll : forallb is_letter l = true /\ forallb (fun x => negb (is_lower x)) l = true).
  { rewrite Forall_forall in Fl. rewrite !forallb_forall. split; intros x Hx; apply Fl in Hx;
    pose proof (byte_check (fun c => negb (ch_in c (T "ABCDEFGHIJKLMNOPQRSTUVWXYZ")) || (is_letter c && negb (is_lower c)))) as B;
    specialize (B ltac:(vm_compute; reflexivity) x); cbn beta in B; apply ch_in_In in Hx;
    unfold txt in Hx; unfold T in B; rewrite Hx in B; cbn [negb orb] in B; apply andb_true_iff in B; tauto. }
  assert (Ld : forallb is_digit d = true).
  { rewrite Forall_forall in Fd. rewrite forallb_forall. intros x Hx; apply Fd in Hx.
    pose proof (byte_check (fun c => negb (ch_in c (T "0123456789")) || is_digit c)) as B.
    specialize (B ltac:(vm_compute; reflexivity) x). cbn beta in B. apply ch_in_In in Hx.
    unfold txt in Hx; unfold T in B; rewrite Hx in B. auto. }
  destruct Ll as [L1 L2].
  assert (Bd : match d with [] => True | c :: _ => is_letter c = false end).
  { destruct d as [|x d']; auto. cbn in Ld. apply andb_true_iff in Ld. apply digit_not_letter, Ld. }
  destruct (parse_inv _ _ H) as [l' [d' [E [Hl' [Hd' [Ln [Hn [Hz Hrc]]]]]]]].
  assert (Bd' : match d' with [] => True | c :: _ => is_letter c = false end).
  { destruct d' as [|x d'']; auto. cbn in Hd'. apply andb_true_iff in Hd'. apply digit_not_letter, Hd'. }
  assert (l = l' /\ d = d') as [<- <-].
  { pose proof (take_while_app is_letter l d L1 Bd) as T1. rewrite E in T1.
    rewrite (take_while_app is_letter l' d' Hl' Bd') in T1.
    pose proof (drop_while_app is_letter l d L1 Bd) as T2. rewrite E in T2.
    rewrite (drop_while_app is_letter l' d' Hl' Bd') in T2. auto. }
  symmetry. apply parse_coord_eq; auto.
  - rewrite forallb_app, L2. cbn. rewrite forallb_forall in *. intros x Hx. apply Ld in Hx.
    revert Hx. unfold is_digit, is_lower. lia.
  - inversion Hrc; subst. rewrite (drop_while_app is_letter l d L1 Bd).
    apply Z_text_digits_val; auto.
Qed.
Lemma uint_norm_hd u : Decimal.unorm u = u -> hd_error (uint_text u) = Some "0"%char -> u = Decimal.D0 Decimal.Nil.
Proof.
  intros H E. destruct u; cbn in E; try discriminate.
  rewrite DecimalFacts.unorm_D0 in H. 
  pose proof (DecimalFacts.nzhead_nonzero) as NZ.
  unfold Decimal.unorm in H. destruct (Decimal.nzhead u) eqn:F; try discriminate.
  - inversion H. auto.
  - exfalso. apply (NZ u u0). auto.
Qed.
Lemma coord_text_canonical r c : 1 <= r -> 1 <= c <= 18278 ->
  canonical_name (coord_text r c) /\ cell_named (coord_text r c) r c.
Proof.
  intros Hr Hc. split; [|apply cell_named_iff, parse_coord_text; auto].
  exists (col_letters c), (Z_text r). destruct (col_letters_letters c Hc) as [A [B C]].
  repeat split.
  - apply Forall_forall. rewrite forallb_forall in B. intros x Hx. apply B in Hx.
    pose proof (byte_check (fun c => negb (is_upper c) || ch_in c (T "ABCDEFGHIJKLMNOPQRSTUVWXYZ"))) as Bc.
    specialize (Bc ltac:(vm_compute; reflexivity) x). cbn beta in Bc. rewrite Hx in Bc.
    apply ch_in_In. exact Bc.
  - pose proof (Z_text_digits r ltac:(lia)) as D. apply Forall_forall. rewrite forallb_forall in D.
    intros x Hx. apply D in Hx.
    pose proof (byte_check (fun c => negb (is_digit c) || ch_in c (T "0123456789"))) as Bc.
    specialize (Bc ltac:(vm_compute; reflexivity) x). cbn beta in Bc. rewrite Hx in Bc.
    apply ch_in_In. exact Bc.
  - intros E. rewrite Z_text_nonneg in E by lia.
    apply uint_norm_hd in E.
    + assert (V : N.of_uint (N.to_uint (Z.to_N r)) = 0%N) by (rewrite E; reflexivity).
      rewrite DecimalN.Unsigned.of_to in V. lia.
    + rewrite <- DecimalN.Unsigned.to_of, DecimalN.Unsigned.of_to. auto.
Qed.
Lemma canonical_listing ts cells : names_cells ts cells -> Forall canonical_name ts ->
  ts = map (fun p => coord_text (fst p) (snd p)) cells.
Proof.
  intros H F. induction H as [|t [r c] ts cells H1 H2 IH]; cbn; auto.
  inversion F; subst. f_equal; auto. cbn in *. apply canonical_coord; auto.
Qed.
