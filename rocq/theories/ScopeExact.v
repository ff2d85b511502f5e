(** Proofs of the exact conditions behind C04 and C05. *)
From Coq Require Import Sorting.Sorted Sorting.Permutation.
From Verif Require Import Base BaseFacts Coord XlMethods Params CoordFacts
  SpecCoord SpecScope SpecParams SpecCoordFacts HeaderFacts BuildFacts ComposedFacts ScopeFacts CoordProofs.
Local Open Scope Z_scope.

(** ** names of columns *)
Lemma column_name_letters c l : column_name c l -> l = col_letters c.
Proof.
  intros (A & B & C).
  assert (N : cell_named (l ++ txt "1") 1 c).
  { exists l, (txt "1"). split; [reflexivity|]. split; [exact A|]. split; [exact B|]. split; [|lia].
    apply (dec_one "1"%char 1). reflexivity. }
  assert (K : canonical_name (l ++ txt "1")).
  { exists l, (txt "1"). split; [reflexivity|]. split; [exact C|]. split; [|discriminate].
    constructor; [cbn; auto|constructor]. }
  pose proof (canonical_coord _ _ _ K N) as E. unfold coord_text in E.
  change (Z_text 1) with (txt "1") in E. apply app_inj_tail in E. exact (proj1 E).
Qed.
Lemma letters_column_name c : 1 <= c <= 18278 -> column_name c (col_letters c).
Proof.
  intros H. destruct (col_letters_letters c H) as (A & B & C). split; [|split].
  - apply column_number_iff. split; [destruct (col_letters c); cbn in C; [lia|congruence]|].
    split; [exact A|apply letters_val_col, H].
  - lia.
  - destruct (coord_text_canonical 1 c) as [_ K]; [lia|exact H|].
    apply Forall_forall. intros x X. rewrite forallb_forall in B. specialize (B x X).
    pose proof (byte_check (fun c => negb (is_upper c) || existsb (Ascii.eqb c) (txt "ABCDEFGHIJKLMNOPQRSTUVWXYZ"))) as Q.
    specialize (Q ltac:(vm_compute; reflexivity) x). cbn beta in Q. rewrite B in Q. cbn [negb orb] in Q.
    apply existsb_exists in Q. destruct Q as (y & Y & E). apply Ascii.eqb_eq in E. subst y. exact Y.
Qed.
Lemma code_nat x : code x = Z.of_nat (nat_of_ascii x).
Proof. unfold code, nat_of_ascii. rewrite N_nat_Z. reflexivity. Qed.
Lemma word_le_iff a b : text_leb a b = true <-> word_le a b.
Proof.
  split.
  - revert b. induction a as [|x a IH]; intros b H; [constructor|]. destruct b as [|y b]; [discriminate|].
    cbn [text_leb] in H. destruct (code x <? code y) eqn:L.
    + apply wl_less. rewrite !code_nat in L. lia.
    + cbn [orb] in H. apply andb_true_iff in H as [E H]. assert (x = y).
      { rewrite !code_nat in E. apply Z.eqb_eq, Nat2Z.inj in E. rewrite <- (ascii_nat_embedding x), <- (ascii_nat_embedding y), E. reflexivity. }
      subst y. apply wl_same, IH, H.
  - induction 1; cbn [text_leb]; auto.
    + rewrite !code_nat. apply orb_true_iff. left. lia.
    + rewrite IHword_le, Z.eqb_refl, orb_true_r. reflexivity.
Qed.

(** ** scope of a vertical range *)
Lemma scope_column_exact (t : text) (cs : list text) cells r c : names_cells cs cells -> (2 <= List.length cells)%nat ->
  cell_named t r c -> ~ in_one_row cells -> in_one_column cells ->
  exists b, coord_in_scope t cs = Ok b /\ (b = true <-> concerns_column_by_name cells r c).
Proof.
  intros N L H NR [col R].
  assert (LL : List.length cs = List.length cells).
  { clear -N. induction N; cbn; auto. }
  pose proof N as N0.
  apply names_cells_iff in N. apply cell_named_iff in H.
  unfold coord_in_scope. rewrite LL. replace (Nat.leb 2 (List.length cells)) with true by (symmetry; apply Nat.leb_le; auto).
  cbn [assert_ bind]. rewrite N. cbn [bind].
  destruct cells as [|[r0 c0] cells]; [cbn in L; lia|].
  assert (c0 = col) by (apply (R (r0, c0)); left; auto). subst c0.
  replace (forallb (fun p => fst p =? r0) ((r0, col) :: cells)) with false.
  2:{ symmetry. apply not_true_is_false. intros F. apply NR. exists r0. rewrite forallb_forall in F.
      intros p Hp. apply F in Hp. lia. }
  replace (forallb (fun p => snd p =? col) ((r0, col) :: cells)) with true.
  2:{ symmetry. apply forallb_forall. intros p Hp. apply R in Hp. lia. }
  rewrite H. cbn [bind fst snd]. eexists. split; [reflexivity|].
  assert (RC : 1 <= c <= 18278) by (apply parse_range in H; tauto).
  assert (RCol : 1 <= col <= 18278).
  { inversion N0 as [|? ? ? ? Hn]; subst. cbn [fst snd] in Hn. apply cell_named_iff in Hn. apply parse_range in Hn. tauto. }
  rewrite andb_true_iff, existsb_exists, word_le_iff. split.
  - intros [A [p [B C]]]. exists col, (col_letters col), (col_letters c). split; [exact R|].
    split; [apply letters_column_name, RCol|]. split; [apply letters_column_name, RC|]. split; [exact A|].
    exists p. split; [exact B|]. lia.
  - intros (col' & l & l' & A & B & C & D & p & P & E).
    pose proof (A (r0, col) (or_introl eq_refl)) as Q. cbn in Q. subst col'.
    apply column_name_letters in B, C. subst l l'. split; [exact D|]. exists p. split; [exact P|]. lia.
Qed.

Lemma one_row_dec (cells : list (Z * Z)) : in_one_row cells \/ ~ in_one_row cells.
Proof.
  destruct cells as [|[r0 c0] cs]; [left; exists 0; intros p' []|].
  destruct (forallb (fun p => fst p =? r0) ((r0, c0) :: cs)) eqn:E.
  - left. exists r0. rewrite forallb_forall in E. intros q Hq. apply E in Hq. lia.
  - right. intros [row R]. apply forallb_false_ex in E. destruct E as [q [Q1 Q2]].
    pose proof (R q Q1). pose proof (R (r0, c0) (or_introl eq_refl)). cbn in H0. lia.
Qed.

Lemma c04_exact (entries : list ctx_entry) hs headers :
  Forall (fun e => value_cells (snd (fst e)) (ce_cells e)) entries ->
  Forall (fun e => (2 <= List.length (ce_cells e))%nat /\
                   (in_one_row (ce_cells e) \/ in_one_column (ce_cells e))) entries ->
  names_cells hs headers ->
  exists rows,
    process_context (VDict (map fst entries)) (map VStr hs) = Ok (VList (map VList rows)) /\
    Forall2 (attaches (fun cells r c => concerns_row cells r c \/
                         ~ in_one_row cells /\ concerns_column_by_name cells r c) entries) rows headers.
Proof.
  intros F G N. rewrite Forall_forall in G.
  destruct (process_context_gen (fun cells r c => concerns_row cells r c \/
                         ~ in_one_row cells /\ concerns_column_by_name cells r c) entries hs headers F N) as [rows [A B]].
  - intros e ts h p He Hts Hp Hh. destruct (G e He) as [L G'].
    change (snd e) with (ce_cells e) in *.
    destruct (one_row_dec (ce_cells e)) as [D|D].
    + destruct (scope_row h ts _ _ _ Hts L Hh D) as [b [S1 S2]]. exists b. split; auto. tauto.
    + destruct G' as [G'|G1]; [contradiction|].
      destruct (scope_column_exact h ts _ _ _ Hts L Hh D G1) as [b [S1 S2]].
      exists b. split; auto. rewrite S2. split; auto. intros [H|H]; [|tauto]. exfalso. apply D, (concerns_row_one_row _ _ _ H).
  - exists rows. split; auto.
Qed.

(** ** consecutive cells *)
Lemma consecutive_skips a ts cells : names_cells ts cells ->
  (consecutive_from (fst a) (snd a) None ts = Ok true <->
   exists skipped rest, cells = skipped ++ rest /\ Forall (off a) skipped /\ (row_run (a :: rest) \/ column_run (a :: rest))).
Proof.
  destruct a as [r c]. induction 1 as [|t [r' c'] ts cells Ht N IH]; cbn [fst snd] in *.
  - split; [|reflexivity]. intros _. exists [], []. split; [reflexivity|]. split; [constructor|]. left. exists r, c, 1%nat.
    cbn. f_equal. f_equal. lia.
  - pose proof Ht as PT. apply cell_named_iff in PT.
    destruct (Z.eq_dec r' r) as [E1|E1]; [|destruct (Z.eq_dec c' c) as [E2|E2]].
    1,2: assert (D : no_diagonal_start ((r, c) :: (r', c') :: cells)) by (cbn; lia);
      split;
      [ intros H; exists [], ((r', c') :: cells); split; [reflexivity|]; split; [constructor|];
        cbn [consecutive_from] in H; rewrite PT in H; cbn [bind fst snd] in H
      | intros (sk & rest & E & F & RN);
        destruct sk as [|s sk]; [|cbn [app] in E; injection E as <- E; inversion F as [|? ? O ?]; subst; unfold off in O; cbn in O; lia];
        cbn [app] in E; subst rest; cbn [consecutive_from]; rewrite PT; cbn [bind fst snd] ].
    + subst r'. rewrite Z.eqb_refl in H. destruct (c + 1 =? c') eqn:E2; [|discriminate]. left. exists r, c, (S (S (List.length cells))).
      cbn [seq map]. f_equal; [f_equal; lia|]. f_equal; [f_equal; lia|].
      rewrite (run_row_inv _ _ _ _ N H) at 1. rewrite <- (seq_shift _ 1), map_map. apply map_ext. intros k. f_equal; lia.
    + subst r'. rewrite Z.eqb_refl. destruct RN as [[r0 [c0 [n Q]]]|[r0 [c0 [n Q]]]]; destruct n as [|[|n]]; cbn [seq map] in Q; try discriminate.
      2:{ injection Q as Q1 Q2 Q3 Q4 Q5. lia. }
      injection Q as Q1 Q2 Q3 Q4 Q5. replace (c + 1 =? c') with true by lia.
      apply (run_row _ _ n). rewrite <- seq_shift, map_map in Q5. rewrite Q5 in N.
      erewrite map_ext; [exact N|]. intros k. cbn. f_equal; lia.
    + subst c'. replace (r' =? r) with false in H by lia. rewrite Z.eqb_refl in H.
      destruct (r + 1 =? r') eqn:E3; [|discriminate]. right. exists r, c, (S (S (List.length cells))).
      cbn [seq map]. f_equal; [f_equal; lia|]. f_equal; [f_equal; lia|].
      rewrite (run_col_inv _ _ _ _ N H) at 1. rewrite <- (seq_shift _ 1), map_map. apply map_ext. intros k. f_equal; lia.
    + subst c'. replace (r' =? r) with false by lia. rewrite Z.eqb_refl.
      destruct RN as [[r0 [c0 [n Q]]]|[r0 [c0 [n Q]]]]; destruct n as [|[|n]]; cbn [seq map] in Q; try discriminate.
      1:{ injection Q as Q1 Q2 Q3 Q4 Q5. lia. }
      injection Q as Q1 Q2 Q3 Q4 Q5. replace (r + 1 =? r') with true by lia.
      apply (run_col _ _ n). rewrite <- seq_shift, map_map in Q5. rewrite Q5 in N.
      erewrite map_ext; [exact N|]. intros k. cbn. f_equal; lia.
    + cbn [consecutive_from]. rewrite PT. cbn [bind fst snd]. replace (r' =? r) with false by lia. replace (c' =? c) with false by lia.
      rewrite IH. split.
      * intros (sk & rest & -> & F & RN). exists ((r', c') :: sk), rest. split; [reflexivity|]. split; [|exact RN].
        constructor; [split; cbn; assumption|exact F].
      * intros (sk & rest & E & F & RN). destruct sk as [|s sk].
        -- exfalso. cbn [app] in E. subst rest.
           destruct RN as [[r0 [c0 [n Q]]]|[r0 [c0 [n Q]]]]; destruct n as [|[|n]]; cbn [seq map] in Q; try discriminate;
           injection Q as Q1 Q2 Q3 Q4; lia.
        -- cbn [app] in E. injection E as <- ->. inversion F; subst. exists sk, rest. auto.
Qed.

Lemma c05_exact ts cells : names_cells ts cells ->
  (consecutive_cells ts = Ok true <-> cells = [] \/ run_after_skipping cells).
Proof.
  intros N. destruct N as [|t a ts cells Ht N].
  - split; [left; reflexivity|reflexivity].
  - cbn [consecutive_cells]. apply cell_named_iff in Ht. rewrite Ht. cbn [bind]. rewrite <- (surjective_pairing a).
    rewrite (consecutive_skips a ts cells N). split.
    + intros (sk & rest & -> & F & RN). right. exists a, sk, rest. auto.
    + intros [H|(a' & sk & rest & E & F & RN)]; [discriminate|]. injection E as <- ->. exists sk, rest. auto.
Qed.
