(** Proofs about cell coordinates (Coord.v, XlMethods.v). *)
From Coq Require Import ZifyBool ZifyNat ZifyN Sorting.Sorted.
From Verif Require Import Base BaseFacts Coord Comparing XlMethods.
Local Open Scope Z_scope.
Ltac Zify.zify_post_hook ::= Z.div_mod_to_equations.

(** checking a statement on every character *)
Definition all_bytes : list ascii := map (fun n => ascii_of_nat n) (seq 0 256).
Lemma all_bytes_In c : In c all_bytes.
Proof.
  unfold all_bytes. apply in_map_iff. exists (nat_of_ascii c). split.
  - apply ascii_nat_embedding.
  - apply in_seq. pose proof (nat_ascii_bounded c). lia.
Qed.
Lemma byte_check (P : ascii -> bool) : forallb P all_bytes = true -> forall c, P c = true.
Proof. intros H c. rewrite forallb_forall in H. apply H, all_bytes_In. Qed.
Lemma byte_check2 (P : ascii -> ascii -> bool) :
  forallb (fun a => forallb (P a) all_bytes) all_bytes = true -> forall a b, P a b = true.
Proof.
  intros H a b. pose proof (byte_check _ H a) as Ha. cbn beta in Ha. apply (byte_check _ Ha).
Qed.

Lemma letter_of_spec r : 1 <= r <= 26 ->
  code (letter_of r) = 64 + r /\ up_ch (letter_of r) = letter_of r /\ is_letter (letter_of r) = true
  /\ is_upper (letter_of r) = true.
Proof.
  intros H.
  assert (A : forallb (fun k => let r := Z.of_nat k in
              (code (letter_of r) =? 64 + r) && ch_eqb (up_ch (letter_of r)) (letter_of r)
              && is_letter (letter_of r) && is_upper (letter_of r)) (seq 1 26) = true)
    by (vm_compute; reflexivity).
  rewrite forallb_forall in A. specialize (A (Z.to_nat r)).
  rewrite Z2Nat.id in A by lia. cbv zeta in A.
  rewrite !andb_true_iff, ch_eqb_eq in A.
  destruct A as [[[A1 A2] A3] A4]; [apply in_seq; lia|]. repeat split; auto. lia.
Qed.

Definition lstep := fun acc c => acc * 26 + (code (up_ch c) - 64).
Lemma lstep_letter acc r : 1 <= r <= 26 -> lstep acc (letter_of r) = acc * 26 + r.
Proof. intros H. destruct (letter_of_spec r H) as [A [B _]]. unfold lstep. rewrite B, A. lia. Qed.

Lemma col_letters_shape c : 1 <= c <= 18278 ->
  (exists a, col_letters c = [letter_of a] /\ 1 <= a <= 26 /\ c = a) \/
  (exists a b, col_letters c = [letter_of a; letter_of b] /\ 1 <= a <= 26 /\ 1 <= b <= 26
     /\ c = a * 26 + b) \/
  (exists a b d, col_letters c = [letter_of a; letter_of b; letter_of d] /\ 1 <= a <= 26
     /\ 1 <= b <= 26 /\ 1 <= d <= 26 /\ c = (a * 26 + b) * 26 + d).
Proof.
  intros H. unfold col_letters. cbn [col_letters_aux].
  destruct (c <=? 0) eqn:E1; [lia|].
  set (r1 := (c - 1) mod 26 + 1). set (c1 := (c - r1) / 26).
  assert (H1 : 1 <= r1 <= 26) by (unfold r1; lia).
  assert (H1c : c = c1 * 26 + r1) by (unfold c1, r1; lia).
  destruct (c1 <=? 0) eqn:E2.
  { left. exists r1. repeat split; auto; try lia. }
  set (r2 := (c1 - 1) mod 26 + 1). set (c2 := (c1 - r2) / 26).
  assert (H2 : 1 <= r2 <= 26) by (unfold r2; lia).
  assert (H2c : c1 = c2 * 26 + r2) by (unfold c2, r2; lia).
  destruct (c2 <=? 0) eqn:E3.
  { right. left. exists r2, r1. repeat split; auto; lia. }
  set (r3 := (c2 - 1) mod 26 + 1).
  assert (H3 : 1 <= r3 <= 26) by (unfold r3; lia).
  assert (H3c : c2 = r3) by (unfold r3; lia).
  right. right. exists r3, r2, r1. repeat split; auto; lia.
Qed.

Lemma letters_val_col c : 1 <= c <= 18278 -> letters_val (col_letters c) = c.
Proof.
  intros H. unfold letters_val.
  change (fun acc c => acc * 26 + (code (up_ch c) - 64)) with lstep.
  destruct (col_letters_shape c H) as [[a [E [Ha ->]]]|[[a [b [E [Ha [Hb ->]]]]]|[a [b [d [E [Ha [Hb [Hd ->]]]]]]]]];
    rewrite E; cbn [fold_left]; rewrite !lstep_letter by auto; lia.
Qed.
Lemma col_letters_letters c : 1 <= c <= 18278 ->
  forallb is_letter (col_letters c) = true /\ forallb is_upper (col_letters c) = true /\
  (1 <= List.length (col_letters c) <= 3)%nat.
Proof.
  intros H.
  destruct (col_letters_shape c H) as [[a [E [Ha Hc]]]|[[a [b [E [Ha [Hb Hc]]]]]|[a [b [d [E [Ha [Hb [Hd Hc]]]]]]]]];
    rewrite E; cbn [forallb List.length];
    repeat match goal with H : 1 <= ?x <= 26 |- _ =>
      destruct (letter_of_spec x H) as [? [? [-> ->]]]; clear H end; cbn; repeat split; auto; lia.
Qed.
Lemma col_letters_inj a b : 1 <= a <= 18278 -> 1 <= b <= 18278 ->
  col_letters a = col_letters b -> a = b.
Proof. intros Ha Hb H. rewrite <- (letters_val_col a), <- (letters_val_col b), H; auto. Qed.

Lemma digit_not_letter c : is_digit c = true -> is_letter c = false.
Proof.
  intros H. pose proof (byte_check (fun c => negb (is_digit c) || negb (is_letter c))) as B.
  specialize (B ltac:(vm_compute; reflexivity) c). cbn beta in B. rewrite H in B. cbn in B.
  apply negb_true_iff in B. auto.
Qed.

Lemma parse_parts l d : forallb is_letter l = true -> forallb is_digit d = true ->
  (1 <= List.length l <= 3)%nat -> d <> [] -> digits_val d <> 0 ->
  parse_coord (l ++ d) = Ok (digits_val d, letters_val l).
Proof.
  intros Hl Hd Ln Hn Hz. unfold parse_coord.
  assert (B : match d with [] => True | c :: _ => is_letter c = false end).
  { destruct d as [|c d']; auto. cbn in Hd. apply andb_true_iff in Hd. destruct Hd as [Hd _].
    apply digit_not_letter; auto. }
  rewrite (take_while_app is_letter l d Hl B), (drop_while_app is_letter l d Hl B), Hd.
  replace (Nat.leb (List.length l) 3) with true by lia. cbn [andb].
  replace (Nat.eqb (List.length l) 0) with false by lia.
  replace (Nat.eqb (List.length d) 0) with false by (destruct d; cbn; [congruence|lia]).
  cbn [orb]. replace (digits_val d =? 0) with false by lia. auto.
Qed.

Lemma parse_inv t rc : parse_coord t = Ok rc ->
  exists l d, t = l ++ d /\ forallb is_letter l = true /\ forallb is_digit d = true /\
    (1 <= List.length l <= 3)%nat /\ d <> [] /\ digits_val d <> 0 /\
    rc = (digits_val d, letters_val l).
Proof.
  unfold parse_coord. intros H.
  exists (take_while is_letter t), (drop_while is_letter t).
  destruct (Nat.leb (List.length (take_while is_letter t)) 3 && forallb is_digit (drop_while is_letter t)) eqn:E; [|discriminate].
  apply andb_true_iff in E. destruct E as [E1 E2].
  destruct (Nat.eqb (List.length (take_while is_letter t)) 0 || Nat.eqb (List.length (drop_while is_letter t)) 0) eqn:E3; [discriminate|].
  apply orb_false_iff in E3. destruct E3 as [E3 E4].
  destruct (digits_val (drop_while is_letter t) =? 0) eqn:E5; [discriminate|].
  rewrite take_drop_while. inversion H. repeat split; auto.
  - apply take_while_all.
  - lia.
  - lia.
  - intros N. rewrite N in E4. cbn in E4. discriminate.
  - lia.
Qed.

(** the round trip *)
Lemma parse_coord_text r c : 1 <= r -> 1 <= c <= 18278 -> parse_coord (coord_text r c) = Ok (r, c).
Proof.
  intros Hr Hc. unfold coord_text.
  destruct (col_letters_letters c Hc) as [A [_ B]].
  rewrite (parse_parts (col_letters c) (Z_text r)); auto.
  - rewrite letters_val_col, Z_text_val by lia. auto.
  - apply Z_text_digits; lia.
  - apply Z_text_nonempty.
  - rewrite Z_text_val; lia.
Qed.
Lemma coord_text_inj r c r' c' : 1 <= r -> 1 <= c <= 18278 -> 1 <= r' -> 1 <= c' <= 18278 ->
  coord_text r c = coord_text r' c' -> r = r' /\ c = c'.
Proof.
  intros A B C D H. pose proof (parse_coord_text r c A B) as P.
  rewrite H, parse_coord_text in P by auto. inversion P; auto.
Qed.

Lemma letter_val_range c : is_letter c = true -> 1 <= code (up_ch c) - 64 <= 26.
Proof.
  intros H.
  pose proof (byte_check (fun c => negb (is_letter c) ||
     ((1 <=? code (up_ch c) - 64) && (code (up_ch c) - 64 <=? 26)))) as B.
  specialize (B ltac:(vm_compute; reflexivity) c). cbn beta in B. rewrite H in B. cbn in B. lia.
Qed.
Lemma letters_val_range l : forallb is_letter l = true -> (1 <= List.length l <= 3)%nat ->
  1 <= letters_val l <= 18278.
Proof.
  intros H L. unfold letters_val.
  destruct l as [|a [|b [|c [|]]]]; cbn in L; try lia; cbn in H;
    rewrite ?andb_true_iff in H; cbn [fold_left];
    repeat match goal with H : _ /\ _ |- _ => destruct H end;
    repeat match goal with H : is_letter ?x = true |- _ => apply letter_val_range in H end; lia.
Qed.
Lemma digits_val_nonneg d : forallb is_digit d = true -> 0 <= digits_val d.
Proof.
  unfold digits_val. intros H.
  assert (G : forall acc, 0 <= acc -> 0 <= fold_left (fun acc c => acc * 10 + digit_val c) d acc).
  { induction d as [|c d IH]; intros acc Ha; cbn in *; auto.
    apply andb_true_iff in H. destruct H as [H1 H2]. apply IH; auto.
    unfold is_digit in H1. unfold digit_val. lia. }
  apply G; lia.
Qed.
Lemma parse_range t r c : parse_coord t = Ok (r, c) -> 1 <= r /\ 1 <= c <= 18278.
Proof.
  intros H. destruct (parse_inv _ _ H) as [l [d [E [Hl [Hd [Ln [Hn [Hz Hrc]]]]]]]].
  inversion Hrc; subst. split; [|apply letters_val_range; auto].
  pose proof (digits_val_nonneg d Hd). lia.
Qed.

(** upper case letters read the same *)
Lemma up_ch_facts c :
  (is_letter c = true -> is_letter (up_ch c) = true) /\
  (is_letter c = false -> up_ch c = c) /\ up_ch (up_ch c) = up_ch c.
Proof.
  pose proof (byte_check (fun c => (negb (is_letter c) || is_letter (up_ch c)) &&
     (is_letter c || ch_eqb (up_ch c) c) && ch_eqb (up_ch (up_ch c)) (up_ch c))) as B.
  specialize (B ltac:(vm_compute; reflexivity) c). cbn beta in B.
  rewrite !andb_true_iff, !orb_true_iff, !ch_eqb_eq in B.
  destruct B as [[B1 B2] B3]. repeat split; auto.
  - intros H. rewrite H in B1. destruct B1; [discriminate|auto].
  - intros H. rewrite H in B2. destruct B2; [discriminate|auto].
Qed.
Lemma upper_letters l : forallb is_letter l = true ->
  forallb is_letter (upper l) = true /\ letters_val (upper l) = letters_val l.
Proof.
  intros H. split.
  - unfold upper. rewrite forallb_forall in *. intros x Hx. apply in_map_iff in Hx.
    destruct Hx as [y [<- Hy]]. apply up_ch_facts; auto.
  - unfold letters_val. clear H.
    assert (G : forall acc, fold_left (fun acc c => acc * 26 + (code (up_ch c) - 64)) (upper l) acc
      = fold_left (fun acc c => acc * 26 + (code (up_ch c) - 64)) l acc).
    { induction l as [|c l IH]; intros acc; cbn; auto. destruct (up_ch_facts c) as [_ [_ ->]]. apply IH. }
    apply G.
Qed.
Lemma upper_digits d : forallb is_digit d = true -> upper d = d.
Proof.
  induction d as [|c d IH]; cbn; auto. intros H. apply andb_true_iff in H. destruct H as [H1 H2].
  f_equal; [|apply IH; auto]. apply up_ch_facts. apply digit_not_letter; auto.
Qed.
Lemma parse_upper t rc : parse_coord t = Ok rc -> parse_coord (upper t) = Ok rc.
Proof.
  intros H. destruct (parse_inv _ _ H) as [l [d [-> [Hl [Hd [Ln [Hn [Hz ->]]]]]]]].
  replace (upper (l ++ d)) with (upper l ++ upper d) by (unfold upper; rewrite map_app; auto).
  rewrite (upper_digits d) by auto. destruct (upper_letters l Hl) as [U V].
  rewrite parse_parts; auto. { rewrite V; auto. } unfold upper; rewrite map_length; auto.
Qed.

(** an all upper case text without leading zeros is the coordinate of its cell *)
Lemma parse_coord_eq t r c : parse_coord t = Ok (r, c) ->
  forallb (fun x => negb (is_lower x)) t = true ->
  Z_text r = drop_while is_letter t -> coord_text r c = t.
Proof.
  intros H U Z. destruct (parse_inv _ _ H) as [l [d [-> [Hl [Hd [Ln [Hn [Hz Hrc]]]]]]]].
  inversion Hrc; subst. unfold coord_text. rewrite Z.
  assert (B : match d with [] => True | c :: _ => is_letter c = false end).
  { destruct d as [|x d']; auto. cbn in Hd. apply andb_true_iff in Hd. apply digit_not_letter, Hd. }
  rewrite (drop_while_app is_letter l d Hl B). f_equal.
  rewrite forallb_app, andb_true_iff in U. destruct U as [U _].
  assert (L1 : forall x, is_letter x = true -> is_lower x = false -> letter_of (code (up_ch x) - 64) = x).
  { intros x A1 A2.
    pose proof (byte_check (fun x => negb (is_letter x) || is_lower x ||
      ch_eqb (letter_of (code (up_ch x) - 64)) x)) as Bc.
    specialize (Bc ltac:(vm_compute; reflexivity) x). cbn beta in Bc. rewrite A1, A2 in Bc. cbn in Bc.
    apply ch_eqb_eq in Bc; auto. }
  pose proof (letters_val_range l Hl Ln) as R.
  pose proof (letters_val_col _ R) as V.
  (* injectivity of letters_val on equal texts of upper case letters *)
  destruct (col_letters_shape _ R) as [[a [E [Ha Hc]]]|[[a [b [E [Ha [Hb Hc]]]]]|[a [b [e [E [Ha [Hb [He Hc]]]]]]]]];
  rewrite E; rewrite forallb_forall in Hl, U;
  unfold letters_val in Hc;
  destruct l as [|x [|y [|z [|]]]]; cbn in Ln; try lia; cbn [fold_left] in Hc;
  repeat match goal with
    | |- context [?x :: _] => match goal with H : is_letter x = true |- _ => fail 1 | _ =>
        assert (is_letter x = true) by (apply Hl; cbn; auto);
        assert (is_lower x = false) by (apply negb_true_iff, U; cbn; auto) end
    end;
  repeat match goal with H : is_letter ?x = true |- _ =>
     pose proof (letter_val_range _ H);
     match goal with H2 : is_lower x = false |- _ => pose proof (L1 x H H2); clear H2 end;
     clear H end; try lia.
  - assert (a = code (up_ch x) - 64) by lia. subst a. congruence.
  - assert (a = code (up_ch x) - 64) by lia. assert (b = code (up_ch y) - 64) by lia. subst a b. congruence.
  - assert (a = code (up_ch x) - 64) by lia. assert (b = code (up_ch y) - 64) by lia.
    assert (e = code (up_ch z) - 64) by lia. subst a b e. congruence.
Qed.

(** characters of a coordinate *)
Lemma coord_chars t rc : parse_coord t = Ok rc ->
  forall c, In c t -> is_letter c = true \/ is_digit c = true.
Proof.
  intros H c Hc. destruct (parse_inv _ _ H) as [l [d [-> [Hl [Hd _]]]]].
  rewrite forallb_forall in Hl, Hd. apply in_app_iff in Hc. destruct Hc; auto.
Qed.
Lemma coord_nonempty t rc : parse_coord t = Ok rc -> t <> [].
Proof.
  intros H. destruct (parse_inv _ _ H) as [l [d [-> [_ [_ [L _]]]]]]. destruct l; cbn in *; [lia|congruence].
Qed.
Definition plain_sep (c : ascii) : bool := negb (is_letter c) && negb (is_digit c).
Lemma coord_no_sep t rc c : parse_coord t = Ok rc -> plain_sep c = true -> ch_in c t = false.
Proof.
  intros H P. destruct (ch_in c t) eqn:E; auto. apply ch_in_In in E.
  destruct (coord_chars t rc H c E) as [A|A]; unfold plain_sep in P; rewrite A in P; cbn in P;
    rewrite ?andb_false_r in P; discriminate.
Qed.

(** ** Rectangles *)
Definition row_major (a b : Z * Z) : Prop := fst a < fst b \/ (fst a = fst b /\ snd a < snd b).
Definition rect_cells (r1 c1 r2 c2 : Z) : list (Z * Z) :=
  flat_map (fun r => map (fun c => (r, c)) (zrange c1 c2)) (zrange r1 r2).
Lemma rect_coords_cells r1 c1 r2 c2 :
  rect_coords r1 c1 r2 c2 = map (fun p => coord_text (fst p) (snd p)) (rect_cells r1 c1 r2 c2).
Proof.
  unfold rect_coords, rect_cells. induction (zrange r1 r2) as [|r l IH]; cbn; auto.
  rewrite map_app, map_map. f_equal. apply IH.
Qed.
Lemma rect_cells_In r1 c1 r2 c2 r c :
  In (r, c) (rect_cells r1 c1 r2 c2) <-> r1 <= r <= r2 /\ c1 <= c <= c2.
Proof.
  unfold rect_cells. rewrite in_flat_map. split.
  - intros [x [Hx H]]. apply in_map_iff in H. destruct H as [y [E Hy]]. inversion E; subst.
    apply zrange_In in Hx, Hy. auto.
  - intros [A B]. exists r. split; [apply zrange_In; auto|]. apply in_map_iff. exists c. split; auto.
    apply zrange_In; auto.
Qed.
Lemma zrange_sorted a b : StronglySorted Z.lt (zrange a b).
Proof.
  remember (Z.to_nat (b + 1 - a)) as n eqn:En. revert a En.
  induction n as [|n IH]; intros a En.
  - rewrite zrange_nil by lia. constructor.
  - rewrite zrange_cons by lia. constructor; [apply IH; lia|].
    apply Forall_forall. intros x Hx. apply zrange_In in Hx. lia.
Qed.
Lemma StronglySorted_app {A} (R : A -> A -> Prop) l1 l2 :
  StronglySorted R l1 -> StronglySorted R l2 ->
  (forall x y, In x l1 -> In y l2 -> R x y) -> StronglySorted R (l1 ++ l2).
Proof.
  intros H1 H2 H. induction l1 as [|x l1 IH]; cbn; auto.
  inversion H1; subst. constructor.
  - apply IH; auto. intros; apply H; auto; right; auto.
  - apply Forall_app. split; auto. apply Forall_forall. intros y Hy. apply H; auto; left; auto.
Qed.
Lemma rect_cells_sorted r1 c1 r2 c2 : StronglySorted row_major (rect_cells r1 c1 r2 c2).
Proof.
  unfold rect_cells. pose proof (zrange_sorted r1 r2) as S.
  induction (zrange r1 r2) as [|r l IH]; cbn; [constructor|].
  inversion S; subst. apply StronglySorted_app; auto.
  - clear IH. pose proof (zrange_sorted c1 c2) as S2. induction (zrange c1 c2) as [|c m IHm]; cbn; [constructor|].
    inversion S2; subst. constructor; auto. apply Forall_forall. intros [x y] Hx.
    apply in_map_iff in Hx. destruct Hx as [z [E Hz]]. inversion E; subst.
    rewrite Forall_forall in H4. right; cbn; auto.
  - intros x y Hx Hy. apply in_map_iff in Hx. destruct Hx as [c [<- _]].
    apply in_flat_map in Hy. destruct Hy as [r' [Hr' Hy]]. apply in_map_iff in Hy.
    destruct Hy as [c' [<- _]]. left; cbn. rewrite Forall_forall in H2. auto.
Qed.
Lemma rect_parse r1 c1 r2 c2 : 1 <= r1 -> 1 <= c1 -> c2 <= 18278 ->
  mapM parse_coord (rect_coords r1 c1 r2 c2) = Ok (rect_cells r1 c1 r2 c2).
Proof.
  intros A B C. rewrite rect_coords_cells.
  assert (G : forall l, (forall r c, In (r, c) l -> 1 <= r /\ 1 <= c <= 18278) ->
     mapM parse_coord (map (fun p => coord_text (fst p) (snd p)) l) = Ok l).
  { induction l as [|[r c] l IH]; intros Hl; cbn [map mapM fst snd]; auto.
    destruct (Hl r c) as [X Y]; [left; auto|].
    rewrite parse_coord_text by auto. cbn [bind]. rewrite IH; auto. intros; apply Hl; right; auto. }
  apply G. intros r c H. apply rect_cells_In in H. lia.
Qed.
Lemma range_ok X Y r1 c1 r2 c2 : parse_coord X = Ok (r1, c1) -> parse_coord Y = Ok (r2, c2) ->
  xl_coordinates_range X Y = Ok (rect_coords r1 c1 r2 c2).
Proof.
  intros HX HY. unfold xl_coordinates_range.
  pose proof (coord_nonempty _ _ HY). destruct Y as [|y Y]; [congruence|].
  rewrite HX, HY. auto.
Qed.
