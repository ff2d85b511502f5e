(** Proofs about the frames handed back (C34 - C36). *)
From Verif Require Import Base BaseFacts Cal SpecCal CalFacts Coord CoordFacts XlMethods Params ParseTime TimeIndex GetData PeriodRange DataFrame
  Scrape Xlseries SpecScrape ScrapeFacts TimeFacts SpecFrames.
From Coq Require Import Sorted.
Local Open Scope Z_scope.

(** ** every frame handed back was built by an attempt *)
Section All.
Variable P : df -> Prop.
Hypothesis HP : forall e w p w' dfs, get_data_all e w p = (w', Ok dfs) -> Forall P dfs.
Lemma run_all e st si pi st' dfs : run_attempt e st si pi = (st', Ok dfs) -> Forall P dfs.
Proof.
  unfold run_attempt. destruct (clean_data e (sheet st si) (params st pi)) as [[w1 p1] r]. destruct r; [|intros H; discriminate].
  destruct (get_data_all e w1 p1) as [w2 r2] eqn:G. intros H. injection H as _ ->. eapply HP; eauto.
Qed.
Definition all_good (x : dfs_t) : Prop := forall d, frame_of x d -> P d.
Lemma list_good dfs : Forall P dfs -> all_good (DL (map DF dfs)).
Proof.
  intros F d H. inversion H as [|l x d' I Fo]; subst. apply in_map_iff in I. destruct I as (y & <- & I). inversion Fo; subst.
  rewrite Forall_forall in F. auto.
Qed.
Lemma unwrap_good dfs : Forall P dfs -> all_good (unwrap dfs).
Proof.
  intros F. destruct dfs as [|d [|d' dfs]]; try apply list_good; auto. cbn. intros x H. inversion H; subst. inversion F; auto.
Qed.
Lemma try_good e safe si : forall pids st st' rs, try_attempts e safe st si pids = (st', rs) -> Forall (fun r => all_good (fst r)) rs.
Proof.
  induction pids as [|pi pids IH]; intros st st' rs H; cbn [try_attempts] in H; [injection H as <- <-; constructor|].
  destruct (new_sheet st (make_ws_copy (sheet st si))) as [st1 ti]. destruct (run_attempt e st1 ti pi) as [st2 r] eqn:R. destruct r as [dfs|]; [|eapply IH; eauto].
  apply run_all in R. apply unwrap_good in R. destruct safe.
  - destruct (try_attempts e true st2 si pids) as [st3 rs'] eqn:Tt. injection H as <- <-. constructor; auto. eapply IH; eauto.
  - injection H as <- <-. constructor; auto.
Qed.
Lemma unique_good : forall rs us out, unique_results rs us = Ok out -> Forall (fun r => all_good (fst r)) rs -> Forall (fun r => all_good (fst r)) us ->
  Forall (fun r => all_good (fst r)) out.
Proof.
  induction rs as [|r rs IH]; intros us out H F G; cbn [unique_results] in H; [injection H as <-; auto|].
  apply bind_ok in H. destruct H as (b & _ & H). inversion F; subst. eapply IH; eauto. destruct b; auto. apply Forall_app. auto.
Qed.
Lemma scrape_good e safe st si pi st' out pid : scrape e safe st si pi = (st', Ok (out, pid)) -> all_good out.
Proof.
  unfold scrape. destruct (attempt_objects st pi) as [st1 r]. destruct r as [pids|]; [|intros H; discriminate].
  assert (M : (let '(st2, results) := try_attempts e safe st1 si pids in
       (st2, do us <- unique_results results []; match us with [] => Err EOther | [u] => Ok u | _ => Ok (DL (map fst us), List.last pids 0%nat) end)) = (st', Ok (out, pid)) -> all_good out).
  { destruct (try_attempts e safe st1 si pids) as [st2 rs] eqn:Tt. apply try_good in Tt. intros H. injection H as _ H. apply bind_ok in H. destruct H as (us & U & H).
    apply unique_good in U; auto. destruct us as [|u [|u' us]]; try discriminate.
    - injection H as ->. inversion U; subst. auto.
    - injection H as <- _. intros d Fo. inversion Fo as [|l x d' I Fo']; subst. apply (in_map_iff fst (u :: u' :: us)) in I. destruct I as (r & <- & I).
      rewrite Forall_forall in U. eapply U; eauto. }
  destruct pids as [|p0 [|p1 pids]]; auto.
  destruct (run_attempt e st1 si p0) as [st2 r2] eqn:R. intros H. injection H as <- H. apply bind_ok in H. destruct H as (dfs & -> & H). injection H as <- _.
  apply list_good. eapply run_all; eauto.
Qed.
Lemma get_good e uni json st wb u q safe preserve st' out name pid :
  get_data_frames e uni json st wb u q safe preserve = (st', Ok (out, name, pid)) -> all_good out.
Proof.
  unfold get_data_frames. destruct (if preserve then copy_wb st wb else (st, wb)) as [st1 wb1].
  match goal with |- context [match ?X with Ok _ => _ | Err _ => _ end] => destruct X as [nm|]; [|intros H; discriminate] end.
  destruct (sheet_by_name st1 wb1 nm) as [si|]; [|intros H; discriminate]. destruct (params_obj json st1 u) as [st2 rp]. destruct rp as [pi|]; [|intros H; discriminate].
  destruct (scrape e safe st2 si pi) as [st3 r] eqn:S. intros H. injection H as <- H. apply bind_ok in H. destruct H as ([x k] & -> & H). injection H as <- <- <-.
  apply scrape_good in S. cbn [fst]. destruct x as [d|l]; auto. destruct l as [|y [|z l]]; auto. cbn. intros d Fo. apply S. eapply fo_list; [left; reflexivity|auto].
Qed.
End All.

(** ** C34 *)
Lemma make_df_rect pr cols data d : make_df pr cols data = Ok d -> df_cols d = cols /\ df_data d = data /\ df_index d = pr /\ rectangular d.
Proof.
  unfold make_df, rectangular. destruct (_ && _) eqn:E; [|discriminate]. intros H. injection H as <-. cbn. split; auto. split; auto. split; auto.
  rewrite !andb_true_iff in E. destruct E as [[_ E1] E2]. split; [apply Nat.eqb_eq; auto|]. rewrite forallb_forall in E2. apply Forall_forall. intros x I. apply Nat.eqb_eq. auto.
Qed.
Lemma build_df_rect pr cols data d : build_df pr cols data = Ok d -> df_cols d = cols /\ df_data d = data /\
  (df_index d = pr \/ working_days pr (df_index d)) /\ rectangular d.
Proof.
  unfold build_df. destruct (text_eqb (pr_freq pr) (T "D")) eqn:F.
  - destruct (make_df pr cols data) as [d'|] eqn:M.
    + intros H. injection H as <-. apply make_df_rect in M. intuition.
    + unfold pr_first, pr_last. destruct (hd_error (pr_dates pr)) as [a|] eqn:A; [|discriminate]. destruct (hd_error (rev (pr_dates pr))) as [b|] eqn:B; [|discriminate].
      intros H. assert (NL : (List.length (pr_dates (business_range a b)) <> List.length (pr_dates pr))%nat).
      { intros E. unfold make_df in M, H. rewrite E in H. destruct (_ && _); discriminate. }
      apply make_df_rect in H. destruct H as (H1 & H2 & H3 & H4). split; auto. split; auto. split; auto. right. split; [apply text_eqb_eq; auto|]. rewrite H3. split; auto. exists a, b. auto.
  - intros H. apply make_df_rect in H. intuition.
Qed.
Lemma mapM_forall {A B} (f : A -> res B) (Q : B -> Prop) l : (forall x y, In x l -> f x = Ok y -> Q y) -> forall r, mapM f l = Ok r -> Forall Q r.
Proof.
  induction l as [|x l IH]; intros H r M; cbn [mapM] in M; [injection M as <-; constructor|].
  apply bind_ok in M. destruct M as (y & Y & M). apply bind_ok in M. destruct M as (ys & YS & M). injection M as <-.
  constructor; [eapply H; eauto; left; auto|]. apply IH; auto. intros; eapply H; eauto; right; auto.
Qed.
Lemma all_rect e w p w' dfs : get_data_all e w p = (w', Ok dfs) -> Forall rectangular dfs.
Proof.
  unfold get_data_all. destruct (zip_len p) as [n|]; [|intros H; discriminate]. destruct (init_frames e n 0 w p []) as [w1 r1]. destruct r1 as [fs|]; [|intros H; discriminate].
  destruct (py_len (dgetN n_headers_coord p)) as [m|]; [|intros H; discriminate]. destruct (fill_frames e m 0 w1 p fs) as [w2 r2].
  intros H. injection H as <- H. apply bind_ok in H. destruct H as (fs' & _ & H). revert H. apply mapM_forall. intros x y _ B. apply build_df_rect in B. tauto.
Qed.
Lemma c34_rectangular e uni json st wb u q safe preserve st' out name pid d :
  get_data_frames e uni json st wb u q safe preserve = (st', Ok (out, name, pid)) -> frame_of out d -> rectangular d.
Proof. intros H. exact (get_good rectangular all_rect _ _ _ _ _ _ _ _ _ _ _ _ _ H d). Qed.

(** ** C35: names *)
Lemma indexed_numbered n i : 1 <= i -> indexed_name n i = numbered n i.
Proof.
  intros H. unfold indexed_name, numbered. destruct (i <=? 1) eqn:A, (i =? 1) eqn:B; try lia; auto.
Qed.
Lemma numbered_inj n i j : 1 <= i -> 1 <= j -> numbered n i = numbered n j -> i = j.
Proof.
  unfold numbered. intros Hi Hj H. destruct (i =? 1) eqn:A, (j =? 1) eqn:B; try lia.
  - apply (f_equal (@List.length ascii)) in H. rewrite app_length in H. cbn in H. lia.
  - apply (f_equal (@List.length ascii)) in H. rewrite app_length in H. cbn in H. lia.
  - apply app_inv_head in H. injection H as H. apply Z_text_inj in H; lia.
Qed.
Lemma map_nodup {A B} (f : A -> B) l : (forall x y, In x l -> In y l -> f x = f y -> x = y) -> NoDup l -> NoDup (map f l).
Proof.
  intros H N. induction N as [|x l X N IH]; cbn; constructor.
  - intros C. apply in_map_iff in C. destruct C as (y & E & I). apply X. rewrite (H x y); auto; [left|right]; auto.
  - apply IH. intros; apply H; auto; right; auto.
Qed.
Lemma numbered_range n a : forall k, (forall j, a <= j < a + Z.of_nat k -> 1 <= j) -> NoDup (map (numbered n) (zrange a (a + Z.of_nat k - 1))).
Proof.
  intros k H. apply map_nodup; [|apply zrange_NoDup].
  intros x y X Y E. apply zrange_In in X. apply zrange_In in Y. eapply numbered_inj; eauto; apply H; lia.
Qed.
Lemma add_name_from_spec n cols : forall fuel i, 1 <= i -> (forall j, 1 <= j < i -> In (numbered n j) cols) -> Z.of_nat (List.length cols) < i + Z.of_nat fuel - 1 ->
  exists col, add_name_from fuel n cols i = cols ++ [col] /\ next_name cols n col.
Proof.
  induction fuel as [|k IH]; intros i Hi H F.
  - exfalso. assert (L : (List.length (map (numbered n) (zrange 1 (1 + Z.of_nat (Z.to_nat (i - 1)) - 1))) <= List.length cols)%nat).
    { apply NoDup_incl_length; [apply numbered_range; intros; lia|]. intros x X. apply in_map_iff in X. destruct X as (j & <- & J). apply zrange_In in J. apply H. lia. }
    rewrite map_length, zrange_length in L. lia.
  - cbn [add_name_from]. rewrite (indexed_numbered n i Hi). destruct (text_in (numbered n i) cols) eqn:E.
    + apply text_in_In in E. apply IH; try lia. intros j J. destruct (Z.eq_dec j i) as [->|]; auto. apply H. lia.
    + eexists. split; [reflexivity|]. exists i. split; auto. split; auto. split; auto. intros C. apply text_in_In in C. congruence.
Qed.
Lemma add_name_next n cols : exists col, add_name n cols = cols ++ [col] /\ next_name cols n col.
Proof. apply add_name_from_spec; lia. Qed.
Lemma column_names_length ns cols : column_names ns cols -> List.length ns = List.length cols.
Proof. induction 1; auto. rewrite !app_length. cbn. lia. Qed.
Lemma column_names_nodup ns cols : column_names ns cols -> NoDup cols.
Proof.
  induction 1 as [|ns n cols col C IH (i & _ & _ & N & _)]; [constructor|].
  apply NoDup_Add with (a := col) (l := cols); [|auto]. rewrite <- (app_nil_r cols) at 1. apply Add_app.
Qed.
Lemma column_names_prefix ns ms cols : column_names (ns ++ ms) cols -> exists a b, cols = a ++ b /\ column_names ns a.
Proof.
  revert cols. induction ms as [|m ms IH] using rev_ind; intros cols H.
  - rewrite app_nil_r in H. exists cols, []. rewrite app_nil_r. auto.
  - rewrite app_assoc in H. remember ((ns ++ ms) ++ [m]) as l eqn:E. destruct H as [|ns' n cols' col C N].
    + destruct (ns ++ ms); discriminate.
    + apply app_inj_tail in E. destruct E as [-> ->]. apply IH in C. destruct C as (a & b & -> & C). exists a, (b ++ [col]). rewrite app_assoc. auto.
Qed.

Lemma last_dot : forall a b (x y : text), ~ In "."%char x -> ~ In "."%char y -> a ++ "."%char :: x = b ++ "."%char :: y -> a = b /\ x = y.
Proof.
  induction a as [|c a IH]; intros [|d b] x y X Y H; cbn in H.
  - injection H as H. auto.
  - injection H as _ H. subst x. exfalso. apply X. apply in_or_app. right. left. auto.
  - injection H as _ H. subst y. exfalso. apply Y. apply in_or_app. right. left. auto.
  - injection H as ? H. destruct (IH b x y X Y H) as [-> ->]. subst. auto.
Qed.
Lemma Z_text_no_dot i : 0 <= i -> ~ In "."%char (Z_text i).
Proof. intros H C. pose proof (Z_text_digits i H) as D. rewrite forallb_forall in D. apply D in C. discriminate. Qed.
Lemma numbered_plain ns a b i j : plain_names ns -> In a ns -> In b ns -> 1 <= i -> 1 <= j -> numbered a i = numbered b j -> a = b /\ i = j.
Proof.
  intros P A B Hi Hj H. destruct (Z.eq_dec i 1) as [->|Ni], (Z.eq_dec j 1) as [->|Nj].
  - auto.
  - exfalso. apply (P a b j); auto. lia.
  - exfalso. apply (P b a i); auto. lia.
  - unfold numbered in H. replace (i =? 1) with false in H by lia. replace (j =? 1) with false in H by lia.
    apply last_dot in H; try (apply Z_text_no_dot; lia). destruct H as [-> H]. apply Z_text_inj in H; try lia. auto.
Qed.
Lemma occ_snoc n ns m : occurrences n (ns ++ [m]) = (occurrences n ns + if list_eq_dec ascii_dec m n then 1 else 0)%nat.
Proof. unfold occurrences. rewrite count_occ_app. cbn [count_occ]. destruct (list_eq_dec ascii_dec m n); reflexivity. Qed.
Lemma occ_reached n : forall ns j, (1 <= j <= occurrences n ns)%nat -> exists k, nth_error ns k = Some n /\ occurrences n (firstn (S k) ns) = j.
Proof.
  induction ns as [|m ns IH] using rev_ind; intros j J; [cbn in J; lia|].
  rewrite occ_snoc in J. destruct (Nat.eq_dec j (occurrences n ns + 1)) as [->|NE].
  - destruct (list_eq_dec ascii_dec m n) as [->|]; [|lia]. exists (List.length ns). split; [rewrite nth_error_app2, Nat.sub_diag; auto|].
    rewrite firstn_all2 by (rewrite app_length; cbn; lia). rewrite occ_snoc. destruct (list_eq_dec ascii_dec n n); congruence.
  - destruct (IH j) as (k & K & O); [destruct (list_eq_dec ascii_dec m n); lia|]. assert (L : (k < List.length ns)%nat) by (apply nth_error_Some; congruence).
    exists k. rewrite nth_error_app1 by auto. split; auto. rewrite firstn_app. replace (S k - List.length ns)%nat with 0%nat by lia. cbn [firstn]. rewrite app_nil_r. auto.
Qed.
Lemma occ_firstn_le n ns k : (occurrences n (firstn k ns) <= occurrences n ns)%nat.
Proof. rewrite <- (firstn_skipn k ns) at 2. unfold occurrences. rewrite count_occ_app. apply Nat.le_add_r. Qed.
Lemma occ_cons n m ns : occurrences n (m :: ns) = ((if list_eq_dec ascii_dec m n then 1 else 0) + occurrences n ns)%nat.
Proof. unfold occurrences. cbn [count_occ]. destruct (list_eq_dec ascii_dec m n); reflexivity. Qed.
Lemma occ_here n ns k : nth_error ns k = Some n -> (1 <= occurrences n (firstn (S k) ns))%nat.
Proof.
  revert k. induction ns as [|m ns IH]; intros [|k] H; try discriminate.
  - injection H as ->. cbn [firstn]. rewrite occ_cons. destruct (list_eq_dec ascii_dec n n); [lia|congruence].
  - cbn in H. apply IH in H. change (firstn (S (S k)) (m :: ns)) with (m :: firstn (S k) ns). rewrite occ_cons. lia.
Qed.
Lemma c35_suffixes ns cols : column_names ns cols -> plain_names ns ->
  forall k n, nth_error ns k = Some n -> nth_error cols k = Some (numbered n (Z.of_nat (occurrences n (firstn (S k) ns)))).
Proof.
  induction 1 as [|ns n cols col C IH N]; intros P k m K; [destruct k; discriminate|].
  assert (P' : plain_names ns) by (intros a b i A B; apply P; apply in_or_app; auto). specialize (IH P').
  pose proof (column_names_length _ _ C) as L. destruct (Nat.lt_ge_cases k (List.length ns)) as [Hk|Hk].
  - rewrite nth_error_app1 in K by auto. rewrite nth_error_app1 by lia. rewrite (IH _ _ K). do 4 f_equal.
    rewrite firstn_app. replace (S k - List.length ns)%nat with 0%nat by lia. cbn [firstn]. rewrite app_nil_r. auto.
  - assert (Kl : (k < List.length (ns ++ [n]))%nat) by (apply nth_error_Some; congruence). rewrite app_length in Kl. cbn in Kl.
    replace k with (List.length ns) in * by lia. rewrite nth_error_app2, Nat.sub_diag in K by auto. injection K as <-.
    rewrite L, nth_error_app2, Nat.sub_diag by auto. rewrite <- L. rewrite firstn_all2 by (rewrite app_length; cbn; lia). rewrite occ_snoc.
    destruct (list_eq_dec ascii_dec n n) as [_|]; [|congruence]. destruct N as (i & Hi & -> & Ni & Hj). cbn [nth_error]. do 2 f_equal.
    destruct (Z.lt_trichotomy i (Z.of_nat (occurrences n ns + 1))) as [Lt|[E|Gt]]; auto; exfalso.
    + destruct (occ_reached n ns (Z.to_nat i)) as (k' & K' & O); [lia|]. apply IH in K'. rewrite O, Z2Nat.id in K' by lia. apply Ni. eapply nth_error_In; eauto.
    + specialize (Hj (Z.of_nat (occurrences n ns + 1)) ltac:(lia)). apply In_nth_error in Hj. destruct Hj as (k' & K').
      assert (exists m, nth_error ns k' = Some m) as (m & M).
      { destruct (nth_error ns k') eqn:E; eauto. apply nth_error_None in E. assert (k' < List.length cols)%nat by (apply nth_error_Some; congruence). lia. }
      pose proof (IH _ _ M) as Q. rewrite K' in Q. apply (f_equal (fun o => match o with Some x => x | None => [] end)) in Q. cbv beta iota in Q. apply (numbered_plain (ns ++ [n])) in Q; auto; try lia.
      * destruct Q as [-> Q]. pose proof (occ_firstn_le m ns (S k')). lia.
      * apply in_or_app; right; left; auto.
      * apply in_or_app; left. eapply nth_error_In; eauto.
      * pose proof (occ_here _ _ _ M). lia.
Qed.
