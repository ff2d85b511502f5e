(** Property C76: the row or column that cells share, and the coordinates
    between two cells, as the helpers of utils/xl_methods.py give them. *)
From Coq Require Import Sorting.Sorted Sorting.Permutation.
From Verif Require Import Base BaseFacts Coord XlMethods CoordFacts SpecCoord SpecCoordFacts CoordProofs.
Local Open Scope Z_scope.

(** ** Specification: all of the cells are in that row; in that column *)
Definition all_in_row (cells : list (Z * Z)) (k : Z) : Prop := forall p, In p cells -> fst p = k.
Definition all_in_column (cells : list (Z * Z)) (k : Z) : Prop := forall p, In p cells -> snd p = k.

Lemma same_fst cells k : forallb (fun p : Z * Z => fst p =? k) cells = true <-> all_in_row cells k.
Proof.
  rewrite forallb_forall. split; intros H p I; specialize (H p I); [apply Z.eqb_eq in H; exact H|apply Z.eqb_eq; exact H].
Qed.
Lemma same_snd cells k : forallb (fun p : Z * Z => snd p =? k) cells = true <-> all_in_column cells k.
Proof.
  rewrite forallb_forall. split; intros H p I; specialize (H p I); [apply Z.eqb_eq in H; exact H|apply Z.eqb_eq; exact H].
Qed.

Lemma common_eq ts cells : names_cells ts cells -> (2 <= List.length cells)%nat ->
  exists p rest, cells = p :: rest /\
  common_row_or_column ts = if forallb (fun q => fst q =? fst p) cells then Ok (fst p)
                            else if forallb (fun q => snd q =? snd p) cells then Ok (snd p) else Err EOther.
Proof.
  intros N L. apply names_cells_iff in N. pose proof (mapM_length _ _ _ N) as LN.
  destruct cells as [|[r c] rest]; [cbn in L; lia|]. exists (r, c), rest. split; [reflexivity|].
  unfold common_row_or_column, assert_. rewrite <- LN. rewrite (proj2 (Nat.leb_le _ _) L). cbn [bind]. rewrite N.
  reflexivity.
Qed.

(** ** C76 *)

(** the number given is that of the row all the cells are in; only when they
    are in no common row is it that of the column all of them are in *)
Theorem C76_common ts cells k : names_cells ts cells -> (2 <= List.length cells)%nat ->
  (common_row_or_column ts = Ok k <->
   all_in_row cells k \/ ~ in_one_row cells /\ all_in_column cells k).
Proof.
  intros N L. destruct (common_eq ts cells N L) as ([r c] & rest & E & ->). cbn [fst snd].
  assert (I : In (r, c) cells) by (rewrite E; left; reflexivity).
  destruct (forallb (fun q => fst q =? r) cells) eqn:R.
  - apply same_fst in R. split.
    + intros H. injection H as <-. left. exact R.
    + intros [H|[H _]]; [|elim H; exists r; exact R]. specialize (H _ I). cbn in H. congruence.
  - assert (NR : ~ in_one_row cells).
    { intros [k' H]. pose proof (H _ I) as K. cbn in K. subst k'.
      apply same_fst in H. congruence. }
    destruct (forallb (fun q => snd q =? c) cells) eqn:C.
    + apply same_snd in C. split.
      * intros H. injection H as <-. right. split; assumption.
      * intros [H|[_ H]]; [elim NR; exists k; exact H|]. specialize (H _ I). cbn in H. congruence.
    + split; [discriminate|]. intros [H|[_ H]]; [elim NR; exists k; exact H|].
      pose proof (H _ I) as K. cbn in K. subst k. apply same_snd in H. congruence.
Qed.
Print Assumptions C76_common.

(** cells that share neither are refused, and so are fewer than two names *)
Theorem C76_refused :
  (forall ts cells, names_cells ts cells -> (2 <= List.length cells)%nat ->
     (common_row_or_column ts = Err EOther <-> ~ in_one_row cells /\ ~ in_one_column cells)) /\
  (forall ts, (List.length ts < 2)%nat -> common_row_or_column ts = Err EAssert).
Proof.
  split.
  - intros ts cells N L. destruct (common_eq ts cells N L) as ([r c] & rest & E & ->). cbn [fst snd].
    assert (I : In (r, c) cells) by (rewrite E; left; reflexivity).
    destruct (forallb (fun q => fst q =? r) cells) eqn:R.
    { apply same_fst in R. split; [discriminate|]. intros [H _]. elim H. exists r. exact R. }
    destruct (forallb (fun q => snd q =? c) cells) eqn:C.
    { apply same_snd in C. split; [discriminate|]. intros [_ H]. elim H. exists c. exact C. }
    split; [intros _|reflexivity]. split; intros [k H]; pose proof (H _ I) as K; cbn in K; subst k;
      [apply same_fst in H|apply same_snd in H]; congruence.
  - intros [|a [|b ts]] H; [reflexivity|reflexivity|cbn in H; lia].
Qed.
Print Assumptions C76_refused.

(** the coordinates between two cells: every cell of the rectangle, row by row
    and left to right, under its usual name; none when the corners are swapped *)
Theorem C76_between x y r1 c1 r2 c2 cells : cell_named x r1 c1 -> cell_named y r2 c2 ->
  rectangle r1 c1 r2 c2 cells ->
  exists names, xl_coordinates_range x y = Ok names /\ names_cells names cells /\ Forall canonical_name names.
Proof.
  intros X Y RC. apply cell_named_iff in X, Y. exists (rect_coords r1 c1 r2 c2).
  split; [apply range_ok; assumption|]. rewrite (rectangle_unique _ _ _ _ _ RC).
  apply parse_range in X, Y. split.
  - apply names_cells_iff. apply rect_parse; lia.
  - rewrite rect_coords_cells. apply Forall_forall. intros t I. apply in_map_iff in I. destruct I as ([r c] & <- & I).
    apply rect_cells_In in I. cbn [fst snd]. apply coord_text_canonical; lia.
Qed.
Print Assumptions C76_between.

(** without an end there is only the start *)
Theorem C76_alone x : xl_coordinates_range x [] = Ok [x].
Proof. reflexivity. Qed.
Print Assumptions C76_alone.

Example C76_case :
  common_row_or_column [txt "C2"; txt "E2"; txt "d2"] = Ok 2 /\ all_in_row [(2, 3); (2, 5); (2, 4)] 2 /\
  common_row_or_column [txt "C2"; txt "C7"; txt "c1"] = Ok 3 /\ all_in_column [(2, 3); (7, 3); (1, 3)] 3 /\
  names_cells [txt "C2"; txt "C7"; txt "c1"] [(2, 3); (7, 3); (1, 3)] /\ ~ in_one_row [(2, 3); (7, 3); (1, 3)] /\
  common_row_or_column [txt "A1"; txt "A2"; txt "B3"] = Err EOther /\
  xl_coordinates_range (txt "Z9") (txt "AA10") = Ok [txt "Z9"; txt "AA9"; txt "Z10"; txt "AA10"] /\
  rectangle 9 26 10 27 [(9, 26); (9, 27); (10, 26); (10, 27)] /\
  xl_coordinates_range (txt "B2") (txt "A1") = Ok [].
Proof.
  split; [vm_compute; reflexivity|]. split; [intros p I; repeat (destruct I as [<-|I]; [reflexivity|]); destruct I|].
  split; [vm_compute; reflexivity|]. split; [intros p I; repeat (destruct I as [<-|I]; [reflexivity|]); destruct I|].
  split; [apply nc; vm_compute; reflexivity|].
  split; [intros [k H]; pose proof (H (2, 3) (or_introl eq_refl)) as A; pose proof (H (7, 3) (or_intror (or_introl eq_refl))) as B; cbn in A, B; congruence|].
  split; [vm_compute; reflexivity|]. split; [vm_compute; reflexivity|].
  split; [apply rc; vm_compute; reflexivity|vm_compute; reflexivity].
Qed.
