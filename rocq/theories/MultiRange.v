(** Period ranges of series of several frequencies (C37). *)
From Verif Require Import Base BaseFacts Cal SpecCal CalFacts Coord Params ParseTime TimeIndex PeriodRange GetData DataFrame Scrape Xlseries SpecTime SpecData TimeFacts TimeProofs
  SpecScrape ScrapeFacts SpecFrames CalProofs RangeProofs FrameProofs FrameProofs2 FrameProofs3 CleanReal FrameProofs4.
From Coq Require Import Sorted.
Local Open Scope Z_scope.

Lemma keep_stays : forall l m c, truthy (m c) = true -> keep_first m l c = m c.
Proof.
  induction l as [|[v f] l IH]; intros m c H; cbn [keep_first]; auto. destruct (truthy (m f)) eqn:E; [apply IH; auto|].
  assert (N : c <> f) by congruence. rewrite IH; destruct (ch_eqb c f) eqn:Q; auto; apply Ascii.eqb_eq in Q; congruence.
Qed.
Lemma keep_nth : forall l m c j v, nth_error l j = Some (v, c) -> truthy v = true -> truthy (m c) = false ->
  (forall i u, (i < j)%nat -> nth_error l i <> Some (u, c)) -> keep_first m l c = v.
Proof.
  induction l as [|[u f] l IH]; intros m c j v N Tv M F; [destruct j; discriminate|]. cbn [keep_first]. destruct j as [|j].
  - injection N as -> ->. rewrite M. rewrite keep_stays; unfold ch_eqb; rewrite Ascii.eqb_refl; auto.
  - assert (K : f <> c) by (intros ->; apply (F 0%nat u); [lia|reflexivity]).
    apply IH with j; auto; [|intros i x Hi; apply (F (S i)); lia]. destruct (truthy (m f)) eqn:E; auto.
    destruct (ch_eqb c f) eqn:Q; auto. apply Ascii.eqb_eq in Q. congruence.
Qed.
Lemma combine_rev {A B} (l : list A) : forall l' : list B, List.length l = List.length l' -> combine (rev l) (rev l') = rev (combine l l').
Proof.
  induction l as [|a l IH]; intros [|b l'] E; try discriminate; auto. cbn [rev combine]. injection E as E. rewrite <- IH by auto.
  assert (X : forall (x : list A) (y : list B) u v, List.length x = List.length y -> combine (x ++ [u]) (y ++ [v]) = combine x y ++ [(u, v)]).
  { induction x as [|h x IHx]; intros [|k y] u v Q; try discriminate; auto. cbn. f_equal. apply IHx. auto. }
  apply X. rewrite !rev_length. auto.
Qed.
Lemma nth_rev {A} (l : list A) j : (j < List.length l)%nat -> nth_error (rev l) j = nth_error l (List.length l - 1 - j).
Proof.
  intros H. destruct l as [|d l']; [cbn in H; lia|]. set (L := d :: l') in *.
  rewrite (nth_error_nth' (rev L) d) by (rewrite rev_length; auto). rewrite (nth_error_nth' L d) by lia. f_equal. rewrite rev_nth by auto. f_equal. lia.
Qed.
(** the last one of a letter *)
Lemma keep_last l m c j v : nth_error l j = Some (v, c) -> truthy v = true -> truthy (m c) = false ->
  (forall i u, (j < i)%nat -> nth_error l i <> Some (u, c)) -> keep_first m (rev l) c = v.
Proof.
  intros N Tv M F. assert (Hj : (j < List.length l)%nat) by (apply nth_error_Some; congruence).
  apply keep_nth with (List.length l - 1 - j)%nat; auto.
  - rewrite nth_rev by lia. replace (List.length l - 1 - (List.length l - 1 - j))%nat with j by lia. auto.
  - intros i u Hi. rewrite nth_rev by lia. apply F. lia.
Qed.
Lemma nth_ext' {A} : forall l l' : list A, (forall n, nth_error l n = nth_error l' n) -> l = l'.
Proof.
  induction l as [|a l IH]; intros [|b l'] H; auto; try (specialize (H 0%nat); discriminate). f_equal; [specialize (H 0%nat); cbn in H; congruence|].
  apply IH. intros n. apply (H (S n)).
Qed.
Lemma nth_skip {A} : forall k (l : list A) n, nth_error (skipn k l) n = nth_error l (k + n).
Proof. induction k as [|k IH]; intros [|a l] n; cbn; auto. destruct n; auto. Qed.
Lemma nth_first {A} : forall k (l : list A) n, (n < k)%nat -> nth_error (firstn k l) n = nth_error l n.
Proof. induction k as [|k IH]; intros [|a l] [|n] H; cbn; auto; try lia. apply IH. lia. Qed.
Lemma zrange_end a b j : (Z.to_nat (b + 1 - a) <= j)%nat -> nth_error (zrange a b) j = None.
Proof. intros H. apply nth_error_None. rewrite zrange_length. auto. Qed.
Lemma slice_zrange M a b : 0 <= a <= b -> b <= M -> py_slice (zrange 1 M) a b = zrange (a + 1) b.
Proof.
  intros H G. unfold py_slice. cbn zeta. rewrite zrange_length.
  unfold slice_bound. replace (a <? 0) with false by lia. replace (b <? 0) with false by lia. rewrite !Z.min_l by lia.
  apply nth_ext'. intros n. destruct (Nat.lt_ge_cases n (Z.to_nat (b - a))) as [L|L].
  - rewrite nth_first by auto. rewrite nth_skip, !zrange_nth by lia. f_equal. lia.
  - rewrite zrange_end by lia. apply nth_error_None. rewrite firstn_length. lia.
Qed.
Lemma slice_ok al w line a b cells : slice_cells al w line a b = Ok cells -> 0 <= a < b -> b <= axis_max al w -> cells = map (axis_val al w line) (zrange (a + 1) b).
Proof.
  intros E H G. revert E. unfold slice_cells. rewrite slice_zrange by lia. rewrite (zrange_cons (a + 1)) by lia. destruct (line <=? other_max al w); [|discriminate]. intros E. injection E as <-. reflexivity.
Qed.
Lemma slice_nth al w line a b cells j : slice_cells al w line a b = Ok cells -> 0 <= a < b -> b <= axis_max al w -> (j < Z.to_nat (b - a))%nat ->
  nth_error cells j = Some (axis_val al w line (a + 1 + Z.of_nat j)).
Proof. intros S H G L. rewrite (slice_ok _ _ _ _ _ _ S H G). rewrite nth_error_map, zrange_nth by lia. reflexivity. Qed.
Lemma slice_length al w line a b cells : slice_cells al w line a b = Ok cells -> 0 <= a < b -> b <= axis_max al w -> List.length cells = Z.to_nat (b - a).
Proof. intros S H G. rewrite (slice_ok _ _ _ _ _ _ S H G), map_length, zrange_length. lia. Qed.
Lemma nth_combine_some {A B} (l : list A) (l' : list B) k x y : nth_error l k = Some x -> nth_error l' k = Some y -> nth_error (combine l l') k = Some (x, y).
Proof. revert l' k. induction l as [|a l IH]; intros [|b l'] [|k] H G; try discriminate; cbn in *; [congruence|auto]. Qed.
Lemma combine_app_r {A B} (l : list A) : forall (l' l'' : list B), List.length l = List.length l' -> combine l (l' ++ l'') = combine l l'.
Proof. induction l as [|a l IH]; intros [|b l'] l'' E; try discriminate; auto. cbn. f_equal. apply IH. auto. Qed.

Lemma skip_step {A} (l : list A) : forall k, (k < List.length l)%nat -> exists x, skipn k l = x :: skipn (S k) l.
Proof.
  induction l as [|a l IH]; intros k Lk; [cbn in Lk; lia|]. destruct k as [|k]; [exists a; reflexivity|]. destruct (IH k) as (x & X); [cbn in Lk; lia|]. exists x. cbn [skipn]. rewrite X. reflexivity.
Qed.

(** the letters of the last cycle *)
Definition tail_letters (fr : text) (fe : nat) : text := skipn fe fr ++ firstn fe fr.
Lemma tail_nth fr fe i : (1 <= fe <= List.length fr)%nat -> (i < List.length fr)%nat -> nth_error (tail_letters fr fe) i = cycle_letter fr (fe + i).
Proof.
  intros H L. unfold tail_letters, cycle_letter. destruct (Nat.lt_ge_cases i (List.length fr - fe)) as [K|K].
  - rewrite nth_error_app1 by (rewrite skipn_length; lia). rewrite nth_skip, Nat.mod_small by lia. auto.
  - rewrite nth_error_app2 by (rewrite skipn_length; lia). rewrite skipn_length, nth_first by lia.
    replace (fe + i)%nat with (i - (List.length fr - fe) + 1 * List.length fr)%nat at 1 by lia. rewrite Nat.mod_add by lia. rewrite Nat.mod_small by lia. auto.
Qed.
Lemma tail_length fr fe : (fe <= List.length fr)%nat -> List.length (tail_letters fr fe) = List.length fr.
Proof. intros H. unfold tail_letters. rewrite app_length, skipn_length, firstn_length. lia. Qed.

Lemma slice_some al w line a b : line <= other_max al w -> exists cells, slice_cells al w line a b = Ok cells.
Proof. intros L. unfold slice_cells. destruct (py_slice _ _ _); eauto. replace (line <=? other_max al w) with true by lia. eauto. Qed.
Lemma slice_line al w line a b cells : slice_cells al w line a b = Ok cells -> 0 <= a < b -> b <= axis_max al w -> line <= other_max al w.
Proof.
  intros E H G. revert E. unfold slice_cells. rewrite slice_zrange by lia. rewrite (zrange_cons (a + 1)) by lia. destruct (line <=? other_max al w) eqn:L; [lia|discriminate].
Qed.

Lemma letters_det fr : forall n cs cs', letters_of fr n cs -> letters_of fr n cs' -> cs = cs'.
Proof.
  induction n as [|n IH]; intros cs cs' H H'; inversion H; inversion H'; subst; auto;
    match goal with A : letters_of fr n ?x, B : letters_of fr n ?y |- _ => pose proof (IH _ _ A B); subst; congruence end.
Qed.
Lemma forall2_nth {A B} (R : A -> B -> Prop) l l' : Forall2 R l l' -> forall k x, nth_error l k = Some x -> exists y, nth_error l' k = Some y /\ R x y.
Proof. induction 1; intros [|k] z K; try discriminate; cbn in *; [injection K as <-; eauto|apply IHForall2; auto]. Qed.
(** ** Series of any length *)
Lemma keep_none : forall l m c, (forall i u, nth_error l i <> Some (u, c)) -> keep_first m l c = m c.
Proof.
  induction l as [|[v f] l IH]; intros m c H; cbn [keep_first]; auto.
  assert (K : f <> c) by (intros ->; apply (H 0%nat v); reflexivity). rewrite IH by (intros i u; apply (H (S i))).
  destruct (truthy (m f)); auto. destruct (ch_eqb c f) eqn:Q; auto. apply Ascii.eqb_eq in Q. congruence.
Qed.
Lemma slice_map al w line a b cells : slice_cells al w line a b = Ok cells -> cells = map (axis_val al w line) (py_slice (zrange 1 (axis_max al w)) a b).
Proof. unfold slice_cells. cbn zeta. destruct (py_slice _ _ _); [intros H; injection H as <-; reflexivity|]. destruct (line <=? other_max al w); [intros H; injection H as <-; reflexivity|discriminate]. Qed.
Lemma slice_general M a b : 0 <= M -> 0 <= b -> py_slice (zrange 1 M) a b = zrange (slice_bound M a + 1) (Z.min b M).
Proof.
  intros HM H. unfold py_slice. cbn zeta. rewrite zrange_length. replace (Z.of_nat (Z.to_nat (M + 1 - 1))) with M by lia.
  assert (B : slice_bound M b = Z.min b M) by (unfold slice_bound; replace (b <? 0) with false by lia; reflexivity). rewrite B.
  assert (A : 0 <= slice_bound M a <= M) by (unfold slice_bound; destruct (a <? 0) eqn:E; lia). set (x := slice_bound M a) in *.
  apply nth_ext'. intros n. destruct (Nat.lt_ge_cases n (Z.to_nat (Z.min b M - x))) as [L|L].
  - rewrite nth_first by auto. rewrite nth_skip, !zrange_nth by lia. f_equal. lia.
  - rewrite zrange_end by lia. apply nth_error_None. rewrite firstn_length. lia.
Qed.
Lemma nth_combine_pair {A B} (l : list A) (l' : list B) k x y : nth_error (combine l l') k = Some (x, y) -> nth_error l k = Some x /\ nth_error l' k = Some y.
Proof. revert l' k. induction l as [|a l IH]; intros [|b l'] [|k] H; try discriminate; cbn in *; [injection H as -> ->; auto|auto]. Qed.
Lemma range_rev a b i : (i < Z.to_nat (b + 1 - a))%nat -> nth_error (rev (zrange a b)) i = Some (b - Z.of_nat i).
Proof. intros H. rewrite nth_rev by (rewrite zrange_length; auto). rewrite zrange_length, zrange_nth by lia. f_equal. lia. Qed.

Lemma uniq_all : forall l acc (c : ascii), In c l -> ~ In c acc -> In c (uniq acc l).
Proof.
  induction l as [|d l IH]; intros acc c I N; [destruct I|]. cbn [uniq]. destruct (Ascii.ascii_dec d c) as [->|D].
  - destruct (ch_in c acc) eqn:X; [|left; auto]. exfalso. apply N. apply ch_in_In; auto.
  - destruct I as [?|I]; [congruence|]. destruct (ch_in d acc); [apply IH; auto|]. right. apply IH; auto. intros J. apply in_app_or in J as [J|[J|[]]]; auto.
Qed.
Section Any.
Variables (e : env) (w : worksheet) (s : sp) (line en : Z) (prs : list prange).
Let fr := sp_freq s.
Let n := Z.of_nat (List.length fr).
Hypothesis NF : (2 <= List.length fr)%nat.
Hypothesis S1 : 1 <= sp_starts s.
Hypothesis EX : en <= axis_max (sp_al s) w.
Hypothesis EN : sp_starts s <= en.
Let fe0 := (en - sp_starts s + 1) mod n.
Let fe := if fe0 =? 0 then n else fe0.
Lemma rest_cycle : 1 <= fe <= n /\ exists k, 0 <= k /\ en - sp_starts s + 1 = k * n + fe.
Proof using NF EN.
  assert (N : 0 < n) by (unfold n; lia). pose proof (Z.mod_pos_bound (en - sp_starts s + 1) n N) as B. pose proof (Z.div_mod (en - sp_starts s + 1) n ltac:(lia)) as D. fold fe0 in B, D. unfold fe.
  destruct (fe0 =? 0) eqn:E.
  - split; [lia|]. exists ((en - sp_starts s + 1) / n - 1). nia.
  - split; [lia|]. exists ((en - sp_starts s + 1) / n). nia.
Qed.
Lemma back_letter i : (Z.of_nat i <= en - sp_starts s) -> Z.of_nat i < n ->
  position_letter s (en - Z.of_nat i) = nth_error fr (Z.to_nat (if Z.of_nat i <? fe then fe - 1 - Z.of_nat i else n + fe - 1 - Z.of_nat i)).
Proof using NF EN.
  intros I1 I2. destruct rest_cycle as (B & k & K & E). unfold position_letter, cycle_letter. fold fr. f_equal. apply Nat2Z.inj. rewrite Nat2Z.inj_mod. fold n.
  destruct (Z.of_nat i <? fe) eqn:L; rewrite !Z2Nat.id by lia.
  - replace (en - Z.of_nat i - sp_starts s) with (fe - 1 - Z.of_nat i + k * n) by lia. rewrite Z.mod_add by lia. apply Z.mod_small. lia.
  - replace (en - Z.of_nat i - sp_starts s) with (n + fe - 1 - Z.of_nat i + (k - 1) * n) by lia. rewrite Z.mod_add by lia. apply Z.mod_small. lia.
Qed.
(** the cells and letters of the end, from the last one on *)
Definition backwards (l : list (pyval * ascii)) : Prop := forall i u c, nth_error l i = Some (u, c) -> Z.of_nat i < n /\
  (Z.of_nat i <= en - sp_starts s -> u = axis_val (sp_al s) w line (en - Z.of_nat i) /\ position_letter s (en - Z.of_nat i) = Some c).
Lemma backward_end l c q b : backwards l -> last_place s en c q -> axis_val (sp_al s) w line q = VDate b -> keep_first (fun _ => VNone) l c = VDate b \/ keep_first (fun _ => VNone) l c = VNone.
Proof using All.
  intros B (Lq & PL & F) V. set (i := Z.to_nat (en - q)). destruct (nth_error l i) as [[u c']|] eqn:N.
  - left. destruct (B _ _ _ N) as [_ X]. destruct X as [-> PL']; [unfold i; lia|]. replace (en - Z.of_nat i) with q in * by (unfold i; lia). rewrite V in N.
    assert (c' = c) by congruence. subst c'. apply keep_nth with i; auto. intros j u J K. destruct (B _ _ _ K) as [_ X]. destruct X as [_ X]; [unfold i in J; lia|].
    apply (F (en - Z.of_nat j)); [unfold i in J; lia|auto].
  - right. apply keep_none. intros j u K. apply nth_error_None in N. assert (J : (j < List.length l)%nat) by (apply nth_error_Some; congruence).
    destruct (B _ _ _ K) as [_ X]. destruct X as [_ X]; [unfold i in N; lia|]. apply (F (en - Z.of_nat j)); [unfold i in N; lia|auto].
Qed.
Lemma ends_backward endm : match sp_al s with
    | Vert => do ec <- slice_cells (sp_al s) w line (en - fe) en; Ok (keep_first (fun _ => VNone) (combine (rev ec) (rev (firstn (Z.to_nat fe) fr))))
    | Horiz => do ec <- slice_cells (sp_al s) w line (en - n) en; Ok (keep_first (fun _ => VNone) (combine (rev ec) (rev (skipn (Z.to_nat (fe - 1)) fr ++ firstn (Z.to_nat fe) fr))))
    end = Ok endm ->
  exists l, endm = keep_first (fun _ => VNone) l /\ backwards l /\ (sp_al s = Vert -> forall i, fe <= Z.of_nat i -> nth_error l i = None) /\
    (forall i, Z.of_nat i < match sp_al s with Vert => fe | Horiz => n end -> match sp_al s with Vert => fe | Horiz => n end <= en -> nth_error l i <> None).
Proof using All.
  destruct rest_cycle as (B & k & K & E). intros H.
  assert (X : exists a ls, (exists ec, slice_cells (sp_al s) w line a en = Ok ec /\ endm = keep_first (fun _ => VNone) (combine (rev ec) (rev ls))) /\
    (en - n <= a /\ a < en) /\ (forall i c, nth_error (rev ls) i = Some c -> Z.of_nat i < n -> Z.of_nat i <= en - sp_starts s -> position_letter s (en - Z.of_nat i) = Some c) /\
    (sp_al s = Vert -> List.length ls = Z.to_nat fe) /\
    a = en - match sp_al s with Vert => fe | Horiz => n end /\ (Z.to_nat (match sp_al s with Vert => fe | Horiz => n end) <= List.length ls)%nat).
  { destruct (sp_al s).
    - apply bind_ok in H as (ec & EC & H). injection H as <-. exists (en - fe), (firstn (Z.to_nat fe) fr). split; [exists ec; auto|]. split; [lia|]. split; [|split; [intros _; rewrite firstn_length; unfold n in *; lia|split; [auto|rewrite firstn_length; unfold n in *; lia]]].
      intros i c I IN IS. assert (L : (i < List.length (firstn (Z.to_nat fe) fr))%nat) by (rewrite <- rev_length; apply nth_error_Some; congruence). rewrite firstn_length in L.
      rewrite back_letter by auto. replace (Z.of_nat i <? fe) with true by lia. rewrite nth_rev in I by (rewrite firstn_length; lia). rewrite firstn_length in I. rewrite nth_first in I by lia.
      rewrite <- I. f_equal. unfold n in *. lia.
    - apply bind_ok in H as (ec & EC & H). injection H as <-. exists (en - n), (skipn (Z.to_nat (fe - 1)) fr ++ firstn (Z.to_nat fe) fr). split; [exists ec; auto|]. split; [lia|]. split; [|split; [discriminate|split; [auto|rewrite app_length, skipn_length, firstn_length; unfold n in *; lia]]].
      intros i c I IN IS. set (ls := skipn (Z.to_nat (fe - 1)) fr ++ firstn (Z.to_nat fe) fr) in *.
      assert (LL : List.length ls = S (List.length fr)) by (unfold ls; rewrite app_length, skipn_length, firstn_length; unfold n in *; lia).
      rewrite nth_rev in I by (unfold n in *; lia). rewrite LL in I. rewrite back_letter by auto. rewrite <- I. unfold ls. unfold n in *.
      destruct (Z.of_nat i <? fe) eqn:LT.
      + rewrite nth_error_app2 by (rewrite skipn_length; lia). rewrite skipn_length, nth_first by lia. f_equal. lia.
      + rewrite nth_error_app1 by (rewrite skipn_length; lia). rewrite nth_skip. f_equal. lia. }
  destruct X as (a & ls & (ec & EC & ->) & A & LS & VL & AE & LL). eexists. split; [reflexivity|].
  apply slice_map in EC. rewrite slice_general in EC by lia. rewrite Z.min_l in EC by lia. rewrite EC, <- map_rev. set (x := slice_bound (axis_max (sp_al s) w) a) in *.
  assert (XB : en - n <= x). { unfold x, slice_bound. destruct (a <? 0) eqn:AN; lia. }
  split; [|split].
  - intros i u c N. apply nth_combine_pair in N as [N1 N2]. rewrite nth_error_map in N1. destruct (nth_error (rev (zrange (x + 1) en)) i) as [z|] eqn:Z1; [|discriminate].
    assert (L : (i < List.length (rev (zrange (x + 1) en)))%nat) by (apply nth_error_Some; congruence). rewrite rev_length, zrange_length in L.
    rewrite range_rev in Z1 by lia. injection Z1 as <-. cbn in N1. injection N1 as <-. split; [lia|]. intros I. split; auto. apply LS; auto. lia.
  - intros AV i I. apply nth_error_None. rewrite combine_length, !rev_length. rewrite (VL AV). lia.
  - intros i I GE N. apply nth_error_None in N. rewrite combine_length, map_length, !rev_length, zrange_length in N.
    assert (XE : x = a) by (unfold x, slice_bound; replace (a <? 0) with false by lia; lia). lia.
Qed.
Lemma starts_found sc : slice_cells (sp_al s) w line (sp_starts s - 1) (sp_starts s + n - 1) = Ok sc ->
  forall c q a, first_place s c q -> q <= en -> axis_val (sp_al s) w line q = VDate a -> keep_first (fun _ => VNone) (combine sc fr) c = VDate a.
Proof using All.
  intros SC.
  intros c q a (Lq & PL & F) Q V. apply slice_map in SC. rewrite slice_general in SC by lia.
  assert (SB : slice_bound (axis_max (sp_al s) w) (sp_starts s - 1) = sp_starts s - 1) by (unfold slice_bound; replace (sp_starts s - 1 <? 0) with false by lia; lia). rewrite SB in SC.
  unfold position_letter in PL. fold fr in PL.
  assert (Hq : q - sp_starts s < n).
  { destruct (Z.lt_ge_cases (q - sp_starts s) n) as [?|G]; auto. exfalso. apply (F (q - n)); [unfold n in *; lia|]. unfold position_letter. fold fr. unfold cycle_letter in *.
    rewrite <- PL. replace (Z.to_nat (q - sp_starts s)) with (Z.to_nat (q - n - sp_starts s) + 1 * List.length fr)%nat by (unfold n in *; lia). rewrite Nat.mod_add by lia. auto. }
  apply keep_nth with (Z.to_nat (q - sp_starts s)); auto.
  - apply nth_combine_some.
    + rewrite SC, nth_error_map, zrange_nth by lia. cbn. rewrite <- V. do 2 f_equal. lia.
    + unfold cycle_letter in PL. rewrite Nat.mod_small in PL by (unfold n in *; lia). auto.
  - intros i u Hi K. apply nth_combine in K. destruct K as [_ K]. cbn in K. apply (F (sp_starts s + Z.of_nat i)); [lia|]. unfold position_letter, cycle_letter. fold fr.
    replace (Z.to_nat (sp_starts s + Z.of_nat i - sp_starts s)) with i by lia. rewrite Nat.mod_small by (unfold n in *; lia). auto.
Qed.
Lemma multi_parts : multi_prs e w fr (sp_starts s) line en (sp_al s) = Ok prs -> exists st l,
  (forall c q a, first_place s c q -> q <= en -> axis_val (sp_al s) w line q = VDate a -> st c = VDate a) /\
  backwards l /\ (sp_al s = Vert -> forall i, fe <= Z.of_nat i -> nth_error l i = None) /\
  mapM (fun f => range_of e (st f) (keep_first (fun _ => VNone) l f) [f]) (uniq [] fr) = Ok prs.
Proof using All.
  intros SP. unfold multi_prs in SP. cbn zeta in SP. fold n in SP. apply bind_ok in SP as (sc & SC & SP). fold fe0 in SP. fold fe in SP.
  apply bind_ok in SP as (endm & HE & SP). apply ends_backward in HE as (l & -> & BL & VL & _). eexists. exists l. split; [eapply starts_found; eauto|split; [exact BL|split; [exact VL|exact SP]]].
Qed.
Lemma multi_found : multi_prs e w fr (sp_starts s) line en (sp_al s) = Ok prs -> exists st endm,
  (forall c q a, first_place s c q -> q <= en -> axis_val (sp_al s) w line q = VDate a -> st c = VDate a) /\
  (forall c q b, last_place s en c q -> axis_val (sp_al s) w line q = VDate b -> endm c = VDate b \/ endm c = VNone) /\
  mapM (fun f => range_of e (st f) (endm f) [f]) (uniq [] fr) = Ok prs.
Proof using All.
  intros SP. apply multi_parts in SP as (st & l & ST & BL & _ & M). exists st, (keep_first (fun _ => VNone) l). split; auto. split; auto. intros c q b LP V. eapply backward_end; eauto.
Qed.
(** in columns every letter is in the last cycle *)
Lemma multi_last c : sp_al s = Vert -> multi_prs e w fr (sp_starts s) line en (sp_al s) = Ok prs -> In c fr ->
  exists q, en - fe < q <= en /\ position_letter s q = Some c.
Proof using All.
  intros AV SP I. apply multi_parts in SP as (st & l & _ & BL & VL & M). destruct rest_cycle as (B & k & K & E).
  assert (U : In c (uniq [] fr)) by (apply uniq_all; [auto|intros []]). apply In_nth_error in U as (j & U). apply mapM_forall2 in M. destruct (forall2_nth _ _ _ M _ _ U) as (pr & _ & RR).
  destruct (existsb (fun x => ch_eqb (snd x) c) l) eqn:X.
  - apply existsb_exists in X as ([u c'] & IN & X). apply Ascii.eqb_eq in X. cbn in X. subst c'. apply In_nth_error in IN as (i & N).
    assert (LT : Z.of_nat i < fe). { destruct (Z.lt_ge_cases (Z.of_nat i) fe) as [|G]; auto. rewrite (VL AV i G) in N. discriminate. }
    destruct (BL _ _ _ N) as [_ Y]. destruct Y as [_ Y]; [nia|]. exists (en - Z.of_nat i). split; [lia|auto].
  - rewrite keep_none in RR.
    + unfold range_of in RR. cbn [to_timestamp] in RR. apply bind_ok in RR as (? & _ & RR). discriminate.
    + intros i u N. assert (Y : existsb (fun x => ch_eqb (snd x) c) l = true); [|congruence]. apply existsb_exists. exists (u, c). split; [eapply nth_error_In; eauto|]. cbn. apply Ascii.eqb_refl.
Qed.
Lemma multi_value : cycles_ok s en -> line <= other_max (sp_al s) w -> exists st endm,
  (forall c q a, first_place s c q -> q <= en -> axis_val (sp_al s) w line q = VDate a -> st c = VDate a) /\
  (forall c q b, In c fr -> last_place s en c q -> axis_val (sp_al s) w line q = VDate b -> endm c = VDate b) /\
  multi_prs e w fr (sp_starts s) line en (sp_al s) = mapM (fun f => range_of e (st f) (endm f) [f]) (uniq [] fr).
Proof using All.
  intros CO LN. destruct rest_cycle as (B & k & K & E).
  destruct (slice_some (sp_al s) w line (sp_starts s - 1) (sp_starts s + n - 1) LN) as (sc & SC).
  remember (multi_prs e w fr (sp_starts s) line en (sp_al s)) as R eqn:SP. unfold multi_prs in SP. cbn zeta in SP. fold n in SP. rewrite SC in SP. cbn [bind] in SP. fold fe0 in SP. fold fe in SP.
  match type of SP with _ = bind ?X _ => assert (XE : exists endm, X = Ok endm) end.
  { destruct (sp_al s); match goal with |- context [slice_cells ?al w line ?a ?b] => destruct (slice_some al w line a b LN) as (ec & ->) end; cbn [bind]; eexists; reflexivity. }
  destruct XE as (endm & EE). rewrite EE in SP. cbn [bind] in SP. apply ends_backward in EE as (l & -> & BL & _ & LL).
  eexists; exists (keep_first (fun _ => VNone) l). split; [|split; [|exact SP]]; [eapply starts_found; eauto|].
  intros c q b IC LP V. pose proof LP as (Lq & PL & F). set (i := Z.to_nat (en - q)).
  assert (I : Z.of_nat i < match sp_al s with Vert => fe | Horiz => n end /\ match sp_al s with Vert => fe | Horiz => n end <= en).
  { unfold cycles_ok in CO. cbn zeta in CO. fold fr in CO. fold n in CO. destruct (sp_al s).
    - destruct (CO c IC) as (q0 & Q0 & QD & QL). assert (QQ : q0 <= q) by (destruct (Z.le_gt_cases q0 q); auto; exfalso; apply (F q0); [lia|auto]).
      assert (D1 : (en - sp_starts s) / n = k) by (symmetry; apply Z.div_unique with (fe - 1); lia). rewrite D1 in QD.
      pose proof (Z.mul_div_le (q0 - sp_starts s) n ltac:(lia)). rewrite QD in H. unfold i. nia.
    - assert (Hq : en - n + 1 <= q).
      { destruct (Z.le_gt_cases (en - n + 1) q) as [?|G]; auto. exfalso. apply (F (q + n)); [unfold n in *; lia|]. unfold position_letter, cycle_letter in PL |- *. fold fr in PL |- *.
        rewrite <- PL. replace (Z.to_nat (q + n - sp_starts s)) with (Z.to_nat (q - sp_starts s) + 1 * List.length fr)%nat by (unfold n in *; lia). rewrite Nat.mod_add by lia. auto. }
      unfold i. lia. }
  destruct I as [I1 I2]. specialize (LL i I1 I2). destruct (nth_error l i) as [[u c']|] eqn:N; [|congruence].
  destruct (BL _ _ _ N) as [_ X]. destruct X as [-> PL']; [unfold i; lia|]. replace (en - Z.of_nat i) with q in * by (unfold i; lia). rewrite V in N.
  assert (c' = c) by congruence. subst c'. apply keep_nth with i; auto. intros j u J K'. destruct (BL _ _ _ K') as [_ X]. destruct X as [_ X]; [unfold i in J; lia|].
  apply (F (en - Z.of_nat j)); [unfold i in J; lia|auto].
Qed.
End Any.
Lemma multi_piece e w s ps nvs en cs k n vs c q q' a b : (2 <= List.length (sp_freq s))%nat -> contributes e w s ps -> get_data e w s = Ok nvs ->
  sp_ends s = Some en -> 1 <= sp_starts s -> en <= axis_max (sp_al s) w -> nth_error nvs k = Some (n, vs) ->
  letters_of (sp_freq s) (List.length (sp_freq s)) cs -> nth_error cs k = Some c -> first_place s c q -> last_place s en c q' ->
  holds s w q (VDate a) -> holds s w q' (VDate b) -> real_date a -> real_date b ->
  exists pr, In (pr, (n, vs)) ps /\ covers (String c EmptyString) a b pr /\ timestamp a /\ timestamp b.
Proof.
  intros NF (w' & t & line & en' & prs & nvs' & SC & GD & IC & CL & EN & NE & SP & ->) GD2 EN2 S1 EX K L C FP LP HA HB Ra Rb.
  rewrite GD in GD2. injection GD2 as ->. rewrite EN in EN2. injection EN2 as ->.
  assert (W : write_line (sp_al s) (sp_th s) = Ok line). { destruct IC as [-> | (_ & ts & ->)]; cbn; auto. }
  apply (holds_iff _ _ _ _ _ W) in HA. apply (holds_iff _ _ _ _ _ W) in HB.
  destruct SC as (SC & MR & MC). assert (AV : forall x, axis_val (sp_al s) w' line x = axis_val (sp_al s) w line x) by (intros x; unfold axis_val; auto).
  unfold series_prs in SP. unfold accepts_freq in SP. replace (1 <? List.length (sp_freq s))%nat with true in SP by (symmetry; apply Nat.ltb_lt; lia).
  apply multi_found in SP; auto. 2: { destruct (sp_al s); cbn in *; lia. } 2: { destruct LP; lia. }
  destruct SP as (st & endm & HS & HE & MM). apply mapM_forall2 in MM. rewrite (letters_det _ _ _ _ L (distinct_letters _)) in C.
  destruct (forall2_nth _ _ _ MM _ _ C) as (pr & P & RR). 
  assert (QQ : q <= en). { destruct FP as (_ & _ & FP), LP as (LP1 & LP2 & _). destruct (Z.le_gt_cases q q') as [|G]; [lia|]. exfalso. apply (FP q'); [lia|auto]. }
  rewrite (HS c q a FP) in RR by (try rewrite AV; auto). destruct (HE c q' b LP) as [HB' | HB']; [rewrite AV; auto| |]; rewrite HB' in RR.
  2: { unfold range_of in RR. cbn [to_timestamp] in RR. apply bind_ok in RR as (? & _ & RR). discriminate. }
  exists pr. split; [eapply nth_error_In; apply nth_combine_some; eauto|].
  unfold range_of in RR. cbn [to_timestamp] in RR. destruct (ts_in_bounds a) eqn:TA; [|discriminate]. cbn [bind] in RR. destruct (ts_in_bounds b) eqn:TB; [|discriminate]. apply bounds_timestamp in TA, TB. cbn [bind] in RR.
  change [c] with (T (String c EmptyString)) in RR. apply range_covers in RR; auto. destruct RR as [CV _]. auto.
Qed.
Lemma c37_multi e w p w' dfs i m s nvs en cs k n vs c q q' a b : real_stamps e -> real_dates w -> get_data_all e w p = (w', Ok dfs) ->
  py_len (dgetN n_headers_coord p) = Ok m -> (i < m)%nat -> series_sp p i = Ok s -> (2 <= List.length (sp_freq s))%nat ->
  sp_ends s = Some en -> 1 <= sp_starts s -> en <= axis_max (sp_al s) w -> 
  letters_of (sp_freq s) (List.length (sp_freq s)) cs -> nth_error cs k = Some c -> first_place s c q -> last_place s en c q' ->
  holds s w q (VDate a) -> holds s w q' (VDate b) -> get_data e w s = Ok nvs -> nth_error nvs k = Some (n, vs) ->
  exists d, In d dfs /\ in_frame d n vs /\ rectangular d /\
  (covers (String c EmptyString) a b (df_index d) \/
   c = "D"%char /\ exists r x y, covers "D" a b r /\ (List.length (pr_dates (df_index d)) <> List.length (pr_dates r)) /\ hd_error (pr_dates r) = Some x /\ hd_error (rev (pr_dates r)) = Some y /\ covers_working x y (df_index d)).
Proof.
  intros RS R H PL Hi SS NF EN S1 EX L C FP LP HA HB GD K. apply frame_of_piece in H; auto. destruct H as (cs' & PL' & CS & F). rewrite PL in PL'. injection PL' as ->.
  destruct (nth_error cs' i) as [ps|] eqn:N; [|apply nth_error_None in N; lia]. destruct (CS i ps N) as (s' & SS' & CT). rewrite SS in SS'. injection SS' as <-.
  assert (Ra : real_date a /\ real_date b). { destruct HA as (r & c0 & _ & A), HB as (r' & c' & _ & A'). split; eapply R; eauto. }
  destruct Ra as [Ra Rb]. destruct (multi_piece e w s ps nvs en cs k n vs c q q' a b) as (pr & I & CV & _ & B%timestamp_year); auto.
  destruct (F (pr, (n, vs))) as (d & Id & IF & RC & _ & IX); [apply in_concat; exists ps; split; [eapply nth_error_In; eauto|auto]|].
  exists d. split; auto. split; auto. split; auto. cbn [fst snd] in *. destruct IX as [-> | (F' & NL & x & y & X & Y & IXE)]; auto. right.
  pose proof (covers_name _ _ _ _ CV F') as E. injection E as ->. split; auto. exists pr, x, y. split; auto. split; auto. split; auto. split; auto. rewrite IXE.
  eapply covers_days; eauto; [apply hd_in; auto|]. apply hd_in in Y. apply in_rev; auto.
Qed.

(** a series in columns is in a frame only if its last cycle has every letter *)
Lemma c37_last e w p w' dfs i m s en c : real_stamps e -> real_dates w -> get_data_all e w p = (w', Ok dfs) ->
  py_len (dgetN n_headers_coord p) = Ok m -> (i < m)%nat -> series_sp p i = Ok s -> (2 <= List.length (sp_freq s))%nat -> sp_al s = Vert ->
  sp_ends s = Some en -> 1 <= sp_starts s <= en -> en <= axis_max (sp_al s) w -> In c (sp_freq s) ->
  exists q, sp_starts s <= q <= en /\ (q - sp_starts s) / Z.of_nat (List.length (sp_freq s)) = (en - sp_starts s) / Z.of_nat (List.length (sp_freq s)) /\ position_letter s q = Some c.
Proof.
  intros RS R H PL Hi SS NF AV EN S1 EX I. apply frame_of_piece in H; auto. destruct H as (cs' & PL' & CS & _). rewrite PL in PL'. injection PL' as ->.
  destruct (nth_error cs' i) as [ps|] eqn:N; [|apply nth_error_None in N; lia]. destruct (CS i ps N) as (s' & SS' & CT). rewrite SS in SS'. injection SS' as <-.
  destruct CT as (w2 & t & line & en' & prs & nvs' & SC & GD & IC & CL & EN' & NE & SP & ->). rewrite EN in EN'. injection EN' as <-.
  destruct SC as (SC & MR & MC). unfold series_prs, accepts_freq in SP. replace (1 <? List.length (sp_freq s))%nat with true in SP by (symmetry; apply Nat.ltb_lt; lia).
  apply multi_last with (c := c) in SP; auto; try lia. 2: { destruct (sp_al s); cbn in *; lia. }
  destruct SP as (q & Q & PQ). pose proof (rest_cycle s en NF ltac:(lia)) as (B & k & K & E). cbn zeta in *. set (n := Z.of_nat (List.length (sp_freq s))) in *. set (fe := if _ =? 0 then _ else _) in *.
  exists q. split; [nia|]. split; auto. transitivity k; [|symmetry]; symmetry; [apply Z.div_unique with (q - sp_starts s - k * n)|apply Z.div_unique with (en - sp_starts s - k * n)]; lia.
Qed.
