(** Proofs for C83: the calls. *)
From Verif Require Import Base BaseFacts Cal Coord XlMethods Params ParseTime TimeIndex GetData PeriodRange DataFrame Scrape Xlseries SpecParams ParamsProofs3 SpecAttempts SpecFrames FrameProofs FrameProofs2
  SpecScrape ScrapeFacts ScrapeProofs2 SpecReach TurnProofs3 SpecSelect SelectProofs SelectProofs2 SelectProofs3.
Local Open Scope Z_scope.

(** ** Objects with the sixteen parameters are complete *)
Lemma num_of n : (0 < n)%nat -> forall p, (forall k v, In (k, v) p -> exists l, v = VList l /\ List.length l = n) ->
  forall acc, (acc = Some n \/ (acc = None /\ exists k v, In (k, v) p /\ k <> n_missing_value)) ->
  fold_left (fun acc kv => match snd kv with
    | VList l => if text_eqb (fst kv) n_missing_value then acc
        else match acc with Some n => if Nat.eqb n 0 || Nat.ltb n (List.length l) then Some (List.length l) else acc | None => Some (List.length l) end
    | _ => acc end) p acc = Some n.
Proof.
  intros N. induction p as [|[k v] p IH]; intros H acc A; cbn [fold_left].
  - destruct A as [A|(_ & k & v & [] & _)]. auto.
  - destruct (H k v) as (l & -> & L); [left; auto|]. cbn [snd fst]. apply IH; [intros k' v' I; apply (H k' v'); right; auto|]. destruct (text_eqb k n_missing_value) eqn:E.
    + destruct A as [A|(A & k' & v' & I & K)]; [left; exact A|]. right. split; auto. destruct I as [I|I]; [|exists k', v'; auto]. injection I as <- <-. apply text_eqb_eq in E. contradiction.
    + left. destruct A as [->|(-> & _)]; [|congruence]. destruct (Nat.eqb n 0 || Nat.ltb n (List.length l)); congruence.
Qed.
Lemma entries n p : sixteen p -> lists n p -> forall k v, In (k, v) p -> exists l, v = VList l /\ List.length l = n.
Proof.
  intros [ND K] L k v I. destruct (L k) as (l & D & E); [apply K; apply in_map_iff; exists (k, v); auto|]. rewrite (dget_NoDup _ _ _ ND I) in D. injection D as ->. eauto.
Qed.
Lemma num_series n p : (0 < n)%nat -> sixteen p -> lists n p -> get_num_series p = Some n.
Proof.
  intros N X L. apply num_of; auto; [eapply entries; eauto|]. right. split; auto. destruct X as [_ K]. assert (I : In n_frequency (map fst p)) by (apply K; cbn; tauto).
  apply in_map_iff in I as ([k v] & E & I). cbn in E. subst. exists n_frequency, v. split; auto. discriminate.
Qed.
Lemma complete n p : (0 < n)%nat -> sixteen p -> lists n p -> is_complete p = Ok true.
Proof.
  intros N X L. unfold is_complete. rewrite (num_series n p N X L). pose proof (entries n p X L) as E. clear X L. generalize p at 1. intros p0. induction p as [|[k v] p IH]; cbn [all_complete]; auto.
  destruct (E k v) as (l & -> & LL); [left; auto|]. assert (C : complete_one p0 (Some n) (k, VList l) = Ok true).
  { unfold complete_one. destruct (text_in k OPTIONAL); auto. cbn [is_none py_len bind]. rewrite LL. destruct (text_eqb k n_time_header); [|rewrite Nat.eqb_refl; auto]. f_equal.
    apply negb_true_iff. apply Nat.ltb_ge. lia. }
  rewrite C. cbn [bind]. apply IH. intros k' v' I; apply (E k' v'); right; auto.
Qed.

(** ** Names and frames *)
Lemma add_names_snoc gs g cols : add_names (gs ++ [g]) cols = add_name (fst g) (add_names gs cols).
Proof. unfold add_names. rewrite fold_left_app. auto. Qed.
Lemma add_names_spec gs : column_names (map fst gs) (add_names gs []).
Proof.
  induction gs as [|g gs IH] using rev_ind; [constructor|]. rewrite add_names_snoc, map_app. destruct (add_name_next (fst g) (add_names gs [])) as (col & -> & NN). constructor; auto.
Qed.
Lemma add_names_length gs : List.length (add_names gs []) = List.length gs.
Proof. rewrite <- (column_names_length _ _ (add_names_spec gs)). apply map_length. Qed.
Definition fits (pr : prange) (g : text * list spec_float) : bool := Nat.eqb (List.length (snd g)) (List.length (pr_dates pr)).
Lemma make_fits pr gs : gs <> [] -> make_df pr (add_names gs []) (map snd gs) = if forallb (fits pr) gs then Ok (mkdf pr (add_names gs []) (map snd gs)) else Err EValue.
Proof.
  intros NE. unfold make_df. rewrite add_names_length, map_length, Nat.eqb_refl. destruct gs as [|g gs]; [congruence|]. cbn [List.length Nat.eqb negb andb].
  replace (forallb (fun c => Nat.eqb (List.length c) (List.length (pr_dates pr))) (map snd (g :: gs))) with (forallb (fits pr) (g :: gs)); [auto|].
  generalize (g :: gs). induction l as [|x l IH]; cbn [forallb map]; auto. rewrite IH. auto.
Qed.
(** the index of the frame of some columns *)
Definition choice (pr : prange) (gs : list (text * list spec_float)) : res prange :=
  if forallb (fits pr) gs then Ok pr
  else if text_eqb (pr_freq pr) (T "D") then
    match pr_first pr, pr_last pr with
    | Some a, Some b => if forallb (fits (business_range a b)) gs then Ok (business_range a b) else Err EValue
    | _, _ => Err EIndex
    end
  else Err EValue.
Lemma build_choice pr gs : gs <> [] -> build_df pr (add_names gs []) (map snd gs) = (do ix <- choice pr gs; Ok (mkdf ix (add_names gs []) (map snd gs))).
Proof.
  intros NE. unfold build_df, choice. rewrite make_fits by auto. destruct (forallb (fits pr) gs); [destruct (text_eqb _ _); auto|]. destruct (text_eqb _ _); auto.
  destruct (pr_first pr) as [a|]; auto. destruct (pr_last pr) as [b|]; auto. rewrite make_fits by auto. destruct (forallb _ gs); auto.
Qed.
Lemma choice_sub pr gs gs' ix : choice pr gs = Ok ix -> gs' <> [] -> (forall g, In g gs' -> In g gs) -> choice pr gs' = Ok ix.
Proof.
  intros H NE I. unfold choice in *. assert (X : forall p, forallb (fits p) gs = true -> forallb (fits p) gs' = true).
  { intros p A. rewrite forallb_forall in *. intros g G. apply A. auto. }
  destruct (forallb (fits pr) gs) eqn:A; [rewrite (X _ A); auto|]. destruct (text_eqb (pr_freq pr) (T "D")); [|discriminate H]. destruct (pr_first pr) as [a|]; [|discriminate H]. destruct (pr_last pr) as [b|]; [|discriminate H].
  destruct (forallb (fits (business_range a b)) gs) eqn:B; [|discriminate H]. rewrite (X _ B).
  destruct (forallb (fits pr) gs') eqn:C; [|auto]. exfalso. destruct gs' as [|g gs']; [congruence|]. assert (G : In g gs) by (apply I; left; auto).
  assert (E : List.length (pr_dates (business_range a b)) = List.length (pr_dates pr)).
  { cbn [forallb] in C. apply andb_true_iff in C as [C _]. rewrite forallb_forall in B. specialize (B g G). unfold fits in B, C. apply Nat.eqb_eq in B. apply Nat.eqb_eq in C. congruence. }
  assert (forallb (fits pr) gs = true); [|congruence]. rewrite forallb_forall in *. intros x Ix. specialize (B x Ix). unfold fits in *. rewrite <- E. auto.
Qed.
Lemma not_all {A} (f : A -> bool) l : forallb f l = false -> exists x, In x l /\ f x = false.
Proof. induction l as [|x l IH]; cbn; [discriminate|]. destruct (f x) eqn:F; [|eauto]. cbn. intros H. destruct (IH H) as (y & I & Y). eauto. Qed.
Lemma choice_err pr gs x : choice pr gs = Err x ->
  (exists g, In g gs /\ choice pr [g] = Err x) \/ (exists g g' ix ix', In g gs /\ In g' gs /\ choice pr [g] = Ok ix /\ choice pr [g'] = Ok ix' /\ ix <> ix').
Proof.
  unfold choice. cbn [forallb]. destruct (forallb (fits pr) gs) eqn:A; [discriminate|]. destruct (not_all _ _ A) as (g & I & G).
  destruct (text_eqb (pr_freq pr) (T "D")).
  2:{ intros H. left. exists g. rewrite G. auto. }
  destruct (pr_first pr) as [a|]; [|intros H; left; exists g; rewrite G; auto]. destruct (pr_last pr) as [b|]; [|intros H; left; exists g; rewrite G; auto].
  destruct (forallb (fits (business_range a b)) gs) eqn:B; [discriminate|]. intros H. injection H as <-. destruct (not_all _ _ B) as (g' & I' & G').
  destruct (fits (business_range a b) g) eqn:BG.
  - destruct (fits pr g') eqn:PG.
    + right. exists g, g', (business_range a b), pr. rewrite G, PG, BG. cbn. split; auto. split; auto. split; auto. split; auto. intros E. rewrite E in G'. congruence.
    + left. exists g'. rewrite PG, G'. auto.
  - left. exists g. rewrite G, BG. auto.
Qed.

(** ** Picking *)
Lemma mapM_picked {A} (g : nat -> res A) n gs : mapM g (seq 0 n) = Ok gs -> forall js, Forall (fun j => j < n)%nat js -> exists gs', mapM g js = Ok gs' /\ picked js gs gs'.
Proof.
  intros M. assert (X : forall m i gs, mapM g (seq i m) = Ok gs -> forall j, (j < m)%nat -> exists x, g (i + j)%nat = Ok x /\ nth_error gs j = Some x).
  { clear. induction m as [|m IH]; intros i gs M j J; [lia|]. cbn [seq mapM] in M. apply bind_ok in M as (x & X & M). apply bind_ok in M as (xs & XS & M). injection M as <-.
    destruct j as [|j]; [exists x; rewrite Nat.add_0_r; auto|]. destruct (IH (S i) xs XS j) as (y & Y & Z); [lia|]. exists y. replace (i + S j)%nat with (S i + j)%nat by lia. auto. }
  intros js F. induction F as [|j js J F (gs' & E & P)]; [exists []; split; [reflexivity|constructor]|]. destruct (X n 0%nat gs M j J) as (x & Y & Z). exists (x :: gs'). cbn [mapM]. cbn in Y. rewrite Y, E. cbn. split; auto.
  constructor; auto.
Qed.
Lemma mapM_fails {A} (g : nat -> res A) : forall l x, mapM g l = Err x -> exists j, In j l /\ g j = Err x.
Proof.
  induction l as [|a l IH]; intros x H; cbn [mapM] in H; [discriminate|]. destruct (g a) as [y|y] eqn:G; cbn [bind] in H; [|injection H as ->; exists a; split; [left; auto|auto]].
  destruct (mapM g l) as [ys|y2]; cbn [bind] in H; [discriminate|]. destruct (IH x H) as (j & J & E). exists j. split; [right; auto|auto].
Qed.
Lemma picked_map {A B} (f : A -> B) js l l' : picked js l l' -> picked js (map f l) (map f l').
Proof. induction 1; cbn; constructor; auto. rewrite nth_error_map. rewrite H. auto. Qed.
Lemma picked_in {A} js (l l' : list A) x : picked js l l' -> In x l' -> In x l.
Proof. induction 1; cbn; intros I; [destruct I|]. destruct I as [<-|I]; [eapply nth_error_In; eauto|auto]. Qed.
Lemma picked_all {A} (l : list A) : picked (seq 0 (List.length l)) l l.
Proof.
  assert (X : forall m i l', (forall k, nth_error l' k = nth_error l (i + k)) -> List.length l' = m -> picked (seq i m) l l').
  { induction m as [|m IH]; intros i l' K L; destruct l' as [|x l']; try discriminate; [constructor|]. cbn [seq]. constructor; [specialize (K 0%nat); cbn in K; rewrite Nat.add_0_r in K; auto|].
    apply IH; [|cbn in L; lia]. intros k. specialize (K (S k)). cbn in K. rewrite K. f_equal. lia. }
  apply X; auto.
Qed.

Section Calls.
Variables (e : env) (uni : text -> text) (json : text -> res dict) (st : store) (wb : wb_obj) (q : option text) (safe preserve : bool) (name : text) (i : nat).
Hypothesis WB : wb_ok st wb.
Hypothesis RES : resolves uni strip (names_of st wb) q name.
Hypothesis FS : first_such (fun i => title (sheet st i) = name) wb i.
Notation call u := (answered (snd (get_data_frames e uni json st wb u q safe preserve))).
Notation w0 := (if preserve then make_ws_copy (sheet st i) else sheet st i).

Lemma call_full u p : in_store st u -> object_of json st u p -> is_complete p = Ok true ->
  call u = (do dfs <- snd (attempt_full e w0 p); Ok (unwrap_result (DL (map DF dfs)))).
Proof.
  intros IS OB C. destruct (c23_sheet e uni json st wb u q safe preserve WB IS name p RES OB) as (j & st2 & si & pid & F1 & PF & PT & PP & S1 & S2 & ->).
  rewrite (first_such_det _ _ _ _ F1 FS) in *. rewrite scrape_complete; auto; [|rewrite PP; auto]. rewrite PP, alone_full.
  replace (sheet st2 si) with w0.
  - destruct (snd (attempt_full e w0 p)); reflexivity.
  - destruct preserve; [rewrite PT by auto; auto|]. destruct (PF eq_refl) as [_ ->]. auto.
Qed.

Variables (n : nat) (p : dict).
Hypothesis N : (0 < n)%nat.
Hypothesis P16 : sixteen p.
Hypothesis P1 : one_index n p.
Lemma p_core : core n p.
Proof. destruct P1 as (A & B & C & _). split; auto. Qed.
Lemma good_of js p' : js <> [] -> sixteen p' -> series_at js p p' -> good p js p' /\ is_complete p' = Ok true.
Proof.
  intros NE X S0. pose proof (core_lists _ _ (series_core n p js p' p_core S0)) as L. assert (M : (0 < List.length js)%nat) by (destruct js; [congruence|cbn; lia]).
  split; [|eapply complete; eauto]. split; auto. split; auto. apply num_series; auto.
Qed.
Lemma itself : series_at (seq 0 n) p p.
Proof. intros k K. destruct (core_lists _ _ p_core k K) as (l & D & L). exists l, l. split; auto. split; auto. rewrite <- L. apply picked_all. Qed.
Lemma all_less js p' : series_at js p p' -> Forall (fun j => j < n)%nat js.
Proof. intros S0. apply Forall_forall. intros j J. apply In_nth_error in J as (k & K). apply (series_sp_at n p js p' k j p_core S0 K). Qed.

Lemma calls :
  (exists x, forall js u' p', js <> [] -> sixteen p' -> series_at js p p' -> in_store st u' -> object_of json st u' p' -> call u' = Err x) \/
  (exists pr g, forall js u' p', js <> [] -> sixteen p' -> series_at js p p' -> in_store st u' -> object_of json st u' p' ->
    call u' = (do gs <- mapM g js; do ix <- choice pr gs; Ok (DF (mkdf ix (add_names gs []) (map snd gs))))).
Proof.
  pose proof P1 as (_ & _ & _ & c & F). destruct (full_shape e w0 n p c p_core N F) as [(x & H)|(pr & g & H)].
  - left. exists x. intros js u' p' NE X S0 IS OB. destruct (good_of js p' NE X S0) as [G C]. rewrite (call_full u' p' IS OB C), (H js p' G). reflexivity.
  - right. exists pr, g. intros js u' p' NE X S0 IS OB. destruct (good_of js p' NE X S0) as [G C]. rewrite (call_full u' p' IS OB C), (H js p' G).
    destruct (mapM g js) as [gs|] eqn:M; cbn [bind]; [|reflexivity]. rewrite build_choice.
    + destruct (choice pr gs); reflexivity.
    + intros ->. destruct js; [congruence|]. cbn [mapM] in M. apply bind_ok in M as (? & _ & M). apply bind_ok in M as (? & _ & M). discriminate M.
Qed.
Variable u : uparams.
Hypothesis US : in_store st u.
Hypothesis UO : object_of json st u p.
Lemma call_p : seq 0 n <> [].
Proof. destruct n; [lia|discriminate]. Qed.

Lemma c83_pick x js u' p' : call u = Ok x -> js <> [] -> sixteen p' -> series_at js p p' -> in_store st u' -> object_of json st u' p' ->
  exists d d' names names', x = DF d /\ call u' = Ok (DF d') /\ df_index d' = df_index d /\ List.length (df_data d) = n /\ picked js (df_data d) (df_data d') /\
    column_names names (df_cols d) /\ picked js names names' /\ column_names names' (df_cols d').
Proof.
  intros H NE X S0 IS OB. destruct calls as [(y & E)|(pr & g & E)]; [rewrite (E (seq 0 n) u p call_p P16 itself US UO) in H; discriminate|].
  rewrite (E (seq 0 n) u p call_p P16 itself US UO) in H. apply bind_ok in H as (gs & M & H). apply bind_ok in H as (ix & CH & H). injection H as <-.
  destruct (mapM_picked g n gs M js (all_less js p' S0)) as (gs' & M' & PK). assert (NG : gs' <> []). { intros ->. apply picked_length in PK. destruct js; [congruence|discriminate]. }
  assert (LG : List.length gs = n). { destruct (mapM_picked g n gs M (seq 0 n)) as (g2 & M2 & P2); [apply (all_less _ p), itself|]. rewrite M in M2. injection M2 as <-. rewrite (picked_length _ _ _ P2), seq_length. auto. }
  exists (mkdf ix (add_names gs []) (map snd gs)), (mkdf ix (add_names gs' []) (map snd gs')), (map fst gs), (map fst gs').
  split; auto. split.
  - rewrite (E js u' p' NE X S0 IS OB), M'. cbn [bind]. rewrite (choice_sub pr gs gs' ix CH NG) by (intros z; apply (picked_in js); auto). reflexivity.
  - cbn. split; auto. split; [rewrite map_length; auto|]. split; [apply picked_map; auto|]. split; [apply add_names_spec|]. split; [apply picked_map; auto|apply add_names_spec].
Qed.
Lemma c83_raises x (us : nat -> uparams) (ps : nat -> dict) : call u = Err x ->
  (forall j, (j < n)%nat -> sixteen (ps j) /\ series_at [j] p (ps j) /\ in_store st (us j) /\ object_of json st (us j) (ps j)) ->
  (exists j, (j < n)%nat /\ call (us j) = Err x) \/
  (exists j k d d', (j < n)%nat /\ (k < n)%nat /\ call (us j) = Ok (DF d) /\ call (us k) = Ok (DF d') /\ df_index d <> df_index d').
Proof.
  intros H A. destruct calls as [(y & E)|(pr & g & E)].
  - rewrite (E (seq 0 n) u p call_p P16 itself US UO) in H. injection H as ->. left. exists 0%nat. split; auto. destruct (A 0%nat N) as (A1 & A2 & A3 & A4). apply (E [0%nat] (us 0%nat) (ps 0%nat)); auto. discriminate.
  - rewrite (E (seq 0 n) u p call_p P16 itself US UO) in H.
    assert (ONE : forall j, (j < n)%nat -> call (us j) = (do y <- g j; do ix <- choice pr [y]; Ok (DF (mkdf ix (add_names [y] []) [snd y])))).
    { intros j J. destruct (A j J) as (A1 & A2 & A3 & A4). rewrite (E [j] (us j) (ps j)); auto; [|discriminate]. cbn [mapM]. destruct (g j); reflexivity. }
    destruct (mapM g (seq 0 n)) as [gs|y] eqn:M; cbn [bind] in H.
    + destruct (choice pr gs) as [ix|y] eqn:CH; cbn [bind] in H; [discriminate|]. injection H as ->.
      assert (X : forall l gs, mapM g l = Ok gs -> forall y, In y gs -> exists j, In j l /\ g j = Ok y).
      { clear. induction l as [|a l IH]; intros gs M y I; cbn [mapM] in M; [injection M as <-; destruct I|]. apply bind_ok in M as (z & Z & M). apply bind_ok in M as (zs & ZS & M). injection M as <-.
        destruct I as [<-|I]; [exists a; split; [left; auto|auto]|]. destruct (IH zs ZS y I) as (j & J & G). exists j. split; [right; auto|auto]. }
      destruct (choice_err pr gs x CH) as [(y & I & Y)|(y & y' & ix & ix' & I & I' & Y & Y' & D)].
      * destruct (X _ _ M y I) as (j & J & G). apply in_seq in J. left. exists j. split; [lia|]. rewrite ONE by lia. rewrite G. cbn [bind]. rewrite Y. reflexivity.
      * destruct (X _ _ M y I) as (j & J & G). apply in_seq in J. destruct (X _ _ M y' I') as (k & K & G'). apply in_seq in K. right.
        exists j, k, (mkdf ix (add_names [y] []) [snd y]), (mkdf ix' (add_names [y'] []) [snd y']). split; [lia|]. split; [lia|]. rewrite !ONE by lia. rewrite G, G'. cbn [bind]. rewrite Y, Y'. auto.
    + injection H as ->. destruct (mapM_fails g _ _ M) as (j & J & G). apply in_seq in J. left. exists j. split; [lia|]. rewrite ONE by lia. rewrite G. reflexivity.
Qed.
End Calls.
