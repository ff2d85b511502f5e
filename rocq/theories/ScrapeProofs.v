(** Proofs of C19 - C23, C50 and C51. *)
From Coq Require Import ZifyBool ZifyNat ZifyN.
From Verif Require Import Base BaseFacts Coord Comparing XlMethods Params ParseTime TimeIndex GetData PeriodRange DataFrame
  Attempts Scrape Xlseries SpecParams SpecAttempts SpecScrape ScrapeFacts.
Local Open Scope Z_scope.

Lemma handed_unwrap dfs : handed dfs (unwrap dfs).
Proof.
  destruct dfs as [|d [|d' dfs]]; cbn; [right|left|right]; try (split; cbn; [lia|reflexivity]).
  exists d. auto.
Qed.

(** ** only data_ends is written by cleaning *)
Definition but_ends (p p' : dict) : Prop := forall k, k <> n_data_ends -> dget k p' = dget k p.
Lemma but_ends_refl p : but_ends p p. Proof. intros k _. auto. Qed.
Lemma but_ends_trans a b c : but_ends a b -> but_ends b c -> but_ends a c.
Proof. intros H K k N. rewrite K, H; auto. Qed.
Lemma but_ends_dset p v : but_ends p (dset n_data_ends v p).
Proof. intros k N. apply dget_dset_other. auto. Qed.
Lemma set_end_but p i v : but_ends p (set_end p i v).
Proof. unfold set_end. destruct (dgetN n_data_ends p); auto using but_ends_refl, but_ends_dset. Qed.
Lemma set_item_but p v : but_ends p (fst (set_item p n_data_ends v)).
Proof.
  unfold set_item. change (text_eqb n_data_ends n_context) with false. change (text_eqb n_data_ends n_headers_coord) with false.
  cbn [andb]. unfold set_general.
  repeat match goal with
  | |- but_ends _ (fst (match ?x with _ => _ end)) => destruct x eqn:?
  end; auto using but_ends_refl.
  all: repeat match goal with
  | H : bind _ _ = Ok _ |- _ => apply bind_ok in H as [? [? H]]
  | H : (if ?b then _ else _) = Ok _ |- _ => destruct b
  | H : (match ?b with _ => _ end) = Ok _ |- _ => destruct b
  | H : Ok _ = Ok _ |- _ => inversion H; subst
  | H : Err _ = Ok _ |- _ => discriminate
  end; cbn; auto using but_ends_refl, but_ends_dset.
Qed.
Lemma clean_many_but e n : forall i ends w p w' p' r, clean_many e n i ends w p = (w', p', r) -> but_ends p p'.
Proof.
  induction n as [|n IH]; cbn [clean_many]; intros i ends w p w' p' r H.
  - inversion H; subst. apply but_ends_refl.
  - destruct (bind _ _) as [t|x]; [|inversion H; subst; apply but_ends_refl].
    match type of H with (let '(_, _) := ?x in _) = _ => destruct x as [w1 [z|x1]] end;
      [|inversion H; subst; apply but_ends_refl].
    destruct (py_index _ i); [|inversion H; subst; apply but_ends_refl].
    apply IH in H. eapply but_ends_trans; [|exact H]. destruct (truthy a); auto using but_ends_refl, set_end_but.
Qed.
Lemma clean_data_but e w p w' p' r : clean_data e w p = (w', p', r) -> but_ends p p'.
Proof.
  unfold clean_data. intros H. destruct (py_index _ 0) as [tm|x]; [|inversion H; subst; apply but_ends_refl].
  destruct (truthy tm).
  - destruct (series_sp p 0); [|inversion H; subst; apply but_ends_refl].
    destruct (clean_time_index _ _ _) as [w1 [z|x]]; [|inversion H; subst; apply but_ends_refl].
    destruct (py_index _ 0); [|inversion H; subst; apply but_ends_refl].
    destruct (truthy a0); [inversion H; subst; apply but_ends_refl|].
    pose proof (set_item_but p (VInt z)) as B. destruct (set_item _ _ _) as [p2 r2]. inversion H; subst. exact B.
  - destruct (py_len _); [|inversion H; subst; apply but_ends_refl]. eapply clean_many_but; eauto.
Qed.
Lemma attempt_full_but e w p w' p' r : attempt_full e w p = (w', p', r) -> but_ends p p'.
Proof.
  unfold attempt_full. intros H. destruct (clean_data e w p) as [[w1 p1] [u|x]] eqn:C.
  - destruct (get_data_all e w1 p1). inversion H; subst. eapply clean_data_but; eauto.
  - inversion H; subst. eapply clean_data_but; eauto.
Qed.

(** ** C19 *)
Lemma results_first e w : forall ps i a dfs, nth_error ps i = Some a -> outcome e w (fst a) = Ok dfs ->
  (forall j b, (j < i)%nat -> nth_error ps j = Some b -> raises (outcome e w (fst b))) ->
  results_of e false w ps = [(unwrap dfs, snd a)].
Proof.
  induction ps as [|[p k] ps IH]; intros [|i] a dfs Ha Ho Hb; try discriminate.
  - cbn in Ha. inversion Ha; subst. cbn in *. rewrite Ho. auto.
  - cbn in Ha. cbn [results_of]. destruct (Hb 0%nat (p, k)) as [x Hx]; [lia|auto|]. cbn in Hx. rewrite Hx.
    apply (IH i); auto. intros j b L N. apply (Hb (S j) b); auto. lia.
Qed.
Lemma results_none e safe w : forall ps, (forall b, In b ps -> raises (outcome e w (fst b))) -> results_of e safe w ps = [].
Proof.
  induction ps as [|[p k] ps IH]; intros H; auto. cbn. destruct (H (p, k)) as [x Hx]; [left; auto|]. cbn in Hx. rewrite Hx.
  apply IH. intros. apply H. right. auto.
Qed.

Lemma nth_combine (l : list dict) i a : forall n, nth_error l i = Some a ->
  nth_error (combine l (seq n (List.length l))) i = Some (a, (n + i)%nat).
Proof.
  revert i. induction l as [|p m IH]; intros [|i] n H; try discriminate; cbn in *.
  - inversion H; subst. rewrite Nat.add_0_r. auto.
  - rewrite IH; auto. f_equal. f_equal. lia.
Qed.
Lemma nth_combine_inv (l : list dict) i b n : nth_error (combine l (seq n (List.length l))) i = Some b ->
  nth_error l i = Some (fst b) /\ snd b = (n + i)%nat.
Proof.
  intros H. destruct (nth_error l i) as [a|] eqn:E.
  - rewrite (nth_combine _ _ _ _ E) in H. inversion H; subst. auto.
  - apply nth_error_None in E.
    assert (i < List.length (combine l (seq n (List.length l))))%nat by (apply nth_error_Some; congruence).
    rewrite combine_length in *. lia.
Qed.

Section Scraping.
Variables (e : env) (safe : bool) (st : store) (si pi : nat) (l : list dict).
Hypothesis Hs : (si < List.length (st_sheets st))%nat.
Hypothesis Hl : discover_parameters (params st pi) = Ok l.
Hypothesis Hn : List.length l <> 1%nat.

Let np := List.length (st_params st).
Let pids := seq np (List.length l).
Let st1 := fst (alloc_params st l).

Lemma st1_facts : st_sheets st1 = st_sheets st /\ st_params st1 = st_params st ++ l.
Proof. unfold st1. pose proof (alloc_facts l st) as A. destruct (alloc_params st l). cbn. tauto. Qed.

Lemma many_try :
  frame_ok (List.length (st_sheets st)) np st1 (fst (try_attempts e safe st1 si pids)) /\
  snd (try_attempts e safe st1 si pids) = results_of e safe (sheet st si) (combine l pids).
Proof.
  destruct st1_facts as [A B].
  destruct (try_attempts_facts e safe si pids st1 (List.length (st_sheets st)) np l) as [F R]; auto.
  - rewrite A. auto.
  - apply Forall_forall. intros i I. unfold pids in I. apply in_seq in I. rewrite B, app_length. fold np. lia.
  - apply seq_NoDup.
  - unfold pids, np. unfold params. rewrite B. generalize (st_params st). clear. intros s.
    induction l as [|p m IH] in s |- *; cbn; constructor.
    + rewrite app_nth2 by lia. rewrite Nat.sub_diag. auto.
    + specialize (IH (s ++ [p])). rewrite app_length in IH. cbn in IH.
      replace (List.length s + 1)%nat with (S (List.length s)) in IH by lia.
      rewrite <- app_assoc in IH. exact IH.
  - split; auto. rewrite R. f_equal. unfold sheet. rewrite A. auto.
Qed.

Lemma scrape_many : scrape e safe st si pi =
  (fst (try_attempts e safe st1 si pids),
   do us <- unique_results (results_of e safe (sheet st si) (combine l pids)) [];
   match us with
   | [] => Err EOther
   | [u] => Ok u
   | _ => Ok (DL (map fst us), List.last pids 0%nat)
   end).
Proof.
  unfold scrape. rewrite (attempt_objects_discover _ _ _ Hl Hn). fold np pids st1.
  destruct many_try as [_ R]. rewrite <- R. clear R.
  assert (L : List.length pids <> 1%nat) by (unfold pids; rewrite seq_length; auto).
  destruct pids as [|x [|y z]]; [| cbn in L; congruence |];
    match goal with |- context [try_attempts ?a ?b ?c ?d ?f] => destruct (try_attempts a b c d f) end; reflexivity.
Qed.

Lemma scrape_kept : sheets_kept st (fst (scrape e safe st si pi)) /\ params_kept st (fst (scrape e safe st si pi)).
Proof.
  rewrite scrape_many. cbn [fst]. destruct many_try as [F _]. destruct st1_facts as [A B].
  split; intros i L.
  - rewrite (fo_sheets _ _ _ _ F) by auto. unfold sheet. rewrite A. auto.
  - rewrite (fo_params _ _ _ _ F) by auto. unfold params. rewrite B. apply app_nth1. auto.
Qed.

End Scraping.

Lemma c19_first e st si pi l i a dfs : (si < List.length (st_sheets st))%nat ->
  discover_parameters (params st pi) = Ok l -> List.length l <> 1%nat ->
  nth_error l i = Some a -> alone e (make_ws_copy (sheet st si)) a = Ok dfs ->
  (forall j b, (j < i)%nat -> nth_error l j = Some b -> raises (alone e (make_ws_copy (sheet st si)) b)) ->
  exists st' out, scrape e false st si pi = (st', Ok (out, (List.length (st_params st) + i)%nat)) /\ handed dfs out.
Proof.
  intros Hs Hl Hn Ha Ho Hb. exists (fst (scrape e false st si pi)), (unwrap dfs). split; [|apply handed_unwrap].
  rewrite (scrape_many e false st si pi l Hs Hl Hn). cbn [fst]. f_equal.
  rewrite (results_first e (sheet st si) _ i (a, (List.length (st_params st) + i)%nat) dfs).
  - reflexivity.
  - apply nth_combine; auto.
  - unfold outcome. rewrite <- alone_full. auto.
  - intros j b L N. apply nth_combine_inv in N as [N _].
    unfold outcome. rewrite <- alone_full. eauto.
Qed.
Lemma c19_all_raise e safe st si pi l : (si < List.length (st_sheets st))%nat ->
  discover_parameters (params st pi) = Ok l -> List.length l <> 1%nat ->
  (forall b, In b l -> raises (alone e (make_ws_copy (sheet st si)) b)) ->
  exists st', scrape e safe st si pi = (st', Err EOther).
Proof.
  intros Hs Hl Hn Hb. exists (fst (scrape e safe st si pi)).
  rewrite (scrape_many e safe st si pi l Hs Hl Hn). cbn [fst]. f_equal.
  rewrite results_none; auto. intros b I. apply In_nth_error in I as [i I]. apply nth_combine_inv in I as [I _].
  unfold outcome. rewrite <- alone_full. apply Hb. eapply nth_error_In; eauto.
Qed.

(** the parameters handed back with it *)
Lemma try_first_params e si : forall pids st ps i pid p dfs,
  (si < List.length (st_sheets st))%nat -> Forall (fun k => (k < List.length (st_params st))%nat) pids -> NoDup pids ->
  Forall2 (fun k q => params st k = q) pids ps ->
  nth_error pids i = Some pid -> nth_error ps i = Some p -> outcome e (sheet st si) p = Ok dfs ->
  (forall j b, (j < i)%nat -> nth_error ps j = Some b -> raises (outcome e (sheet st si) b)) ->
  but_ends p (params (fst (try_attempts e false st si pids)) pid).
Proof.
  induction pids as [|pi pids IH]; intros st ps i pid p dfs Hs Fr Nd Hp Hi Hpi Ho Hb; [destruct i; discriminate|].
  inversion Hp as [|? p0 ? ps' Hp0 Hps]; subst. inversion Fr as [|? ? Fi Fr']; subst. inversion Nd as [|? ? Ni Nd']; subst.
  cbn [try_attempts]. pose proof (new_sheet_facts st (make_ws_copy (sheet st si))) as NF.
  destruct (new_sheet st (make_ws_copy (sheet st si))) as [st1 ti]. destruct NF as [-> [G [Sh [Pp Ln]]]].
  assert (Pi : params st1 pi = params st pi) by (apply grows_params; auto; lia).
  pose proof (run_full e st1 (List.length (st_sheets st)) pi) as RU.
  rewrite Sh, Pi, Ln, Pp in RU. specialize (RU ltac:(lia) ltac:(lia)). rewrite RU. clear RU.
  destruct (attempt_full e (make_ws_copy (sheet st si)) (params st pi)) as [[w' p'] r] eqn:E.
  destruct i as [|i]; cbn in Hi, Hpi.
  - inversion Hi; subst. inversion Hpi; subst. unfold outcome in Ho. rewrite E in Ho. cbn in Ho. subst r. cbn [fst].
    unfold params at 2. cbn [st_params]. rewrite nth_set_same by lia. eapply attempt_full_but; eauto.
  - destruct (Hb 0%nat (params st pi)) as [x Hx]; [lia|auto|]. unfold outcome in Hx. rewrite E in Hx. cbn in Hx. subst r.
    assert (Hsh : sheet (mkstore (set_nth (List.length (st_sheets st)) w' (st_sheets st1)) (set_nth pi p' (st_params st))) si = sheet st si).
    { transitivity (sheet st1 si); [|apply grows_sheet; auto]. unfold sheet. cbn. apply nth_set_other. lia. }
    eapply (IH _ ps' i); cbn [st_sheets st_params]; rewrite ?set_nth_length, ?Ln, ?Hsh; eauto.
    + clear -Hps Ni. induction Hps; constructor.
      * rewrite <- H. unfold params. cbn. apply nth_set_other. intros ->. apply Ni. left. auto.
      * apply IHHps. intros I. apply Ni. right. auto.
    + intros j b L N. apply (Hb (S j)); auto. lia.
Qed.

Lemma c19_params e st si pi l i a dfs st' out pid : (si < List.length (st_sheets st))%nat ->
  discover_parameters (params st pi) = Ok l -> List.length l <> 1%nat ->
  nth_error l i = Some a -> alone e (make_ws_copy (sheet st si)) a = Ok dfs ->
  (forall j b, (j < i)%nat -> nth_error l j = Some b -> raises (alone e (make_ws_copy (sheet st si)) b)) ->
  scrape e false st si pi = (st', Ok (out, pid)) ->
  forall k, k <> n_data_ends -> dget k (params st' pid) = dget k a.
Proof.
  intros Hs Hl Hn Ha Ho Hb H.
  destruct (c19_first e st si pi l i a dfs Hs Hl Hn Ha Ho Hb) as [st2 [out2 [E _]]].
  rewrite H in E. inversion E; subst.
  assert (Est : st2 = fst (scrape e false st si pi)) by (rewrite H; auto).
  rewrite (scrape_many e false st si pi l Hs Hl Hn) in Est. cbn [fst] in Est. rewrite Est.
  destruct (st1_facts st l) as [A B].
  assert (Sh : sheet (fst (alloc_params st l)) si = sheet st si) by (unfold sheet; rewrite A; auto).
  apply (try_first_params e si _ (fst (alloc_params st l)) l i _ a dfs).
  - rewrite A. auto.
  - apply Forall_forall. intros x I. apply in_seq in I. rewrite B, app_length. lia.
  - apply seq_NoDup.
  - unfold params. rewrite B. generalize (st_params st). clear. intros s.
    induction l as [|p m IH] in s |- *; cbn; constructor.
    + rewrite app_nth2 by lia. rewrite Nat.sub_diag. auto.
    + specialize (IH (s ++ [p])). rewrite app_length in IH. cbn in IH.
      replace (List.length s + 1)%nat with (S (List.length s)) in IH by lia.
      rewrite <- app_assoc in IH. exact IH.
  - assert (K := nth_combine l i a (List.length (st_params st)) Ha).
    assert (i < List.length l)%nat by (apply nth_error_Some; congruence).
    rewrite nth_error_nth' with (d := 0%nat) by (rewrite seq_length; auto). rewrite seq_nth; auto.
  - auto.
  - rewrite Sh. unfold outcome. rewrite <- alone_full. auto.
  - rewrite Sh. intros j b L N. unfold outcome. rewrite <- alone_full. eauto.
Qed.

(** ** C20 *)
Lemma approx_refl f tol : approx_equal (VFloat f) (VFloat f) tol = Ok true.
Proof.
  unfold approx_equal. cbn [py_eq is_str andb].
  destruct (SFeqb f f) eqn:E; auto.
  assert (N : f = S754_nan).
  { destruct f as [s|s| |s m x]; auto; exfalso; unfold SFeqb, SFcompare in E; destruct s; try discriminate;
      rewrite Z.compare_refl, Pos.compare_cont_refl in E; discriminate. }
  subst. reflexivity.
Qed.
Lemma check_column_refl v : check_column v v = Ok true.
Proof. induction v; cbn [check_column]; auto. rewrite approx_refl. cbn [bind]. auto. Qed.
Lemma check_index_refl v : check_index v v = true.
Proof. induction v; cbn; auto. rewrite dt_eqb_refl. auto. Qed.
Lemma check_columns_refl c : check_columns c c = Ok true.
Proof.
  unfold check_columns.
  assert (H : forallb (fun x => text_in x c) c = true) by (apply forallb_forall; intros; apply text_in_In; auto).
  rewrite H. auto.
Qed.
Lemma check_values_refl d : check_values d d = Ok true.
Proof.
  unfold check_values. generalize (df_cols d) at 3 as l. induction l as [|c l IH]; auto.
  cbn [foldM]. rewrite check_column_refl. cbn [bind andb]. auto.
Qed.
Lemma compare_refl d : compare_data_frames d d = Ok true.
Proof.
  unfold compare_data_frames. rewrite Nat.eqb_refl. cbn [assert_ bind]. rewrite text_eqb_refl. cbn [assert_ bind].
  rewrite check_columns_refl. cbn [assert_ bind]. rewrite check_index_refl. cbn [assert_ bind].
  rewrite check_values_refl. reflexivity.
Qed.

(** frames handed as a list *)
Definition as_list (dfs : list df) : dfs_t := DL (map DF dfs).
Lemma items_as_list dfs : items_of (as_list dfs) = map IFrame dfs.
Proof. unfold as_list. cbn. rewrite map_map. auto. Qed.
Definition pair_step (acc : bool) (p : item * item) : res bool :=
  match compare_items (fst p) (snd p) with
  | Ok _ => Ok acc
  | Err EAssert => Ok false
  | Err x => Err x
  end.
Lemma pair_fold_false l b : foldM pair_step l false = Ok b -> b = false.
Proof.
  induction l as [|p l IH]; cbn; [congruence|]. unfold pair_step at 1.
  destruct (compare_items _ _) as [x|[]]; cbn [bind]; intros; try discriminate; auto.
Qed.
Lemma pair_fold_true l : foldM pair_step l true = Ok true -> forall p, In p l -> exists x, compare_items (fst p) (snd p) = Ok x.
Proof.
  induction l as [|p l IH]; cbn; intros H q I; [destruct I|]. unfold pair_step at 1 in H.
  destruct (compare_items (fst p) (snd p)) as [x|ex] eqn:E.
  - cbn [bind] in H. destruct I as [<-|I]; eauto.
  - destruct ex; cbn [bind] in H; try discriminate. apply pair_fold_false in H. discriminate.
Qed.
Lemma repeated_refl dfs : repeated_pair (as_list dfs) (as_list dfs) = Ok true.
Proof.
  unfold repeated_pair. rewrite !items_as_list. induction dfs as [|d dfs IH]; auto.
  cbn [map combine foldM fst snd compare_items]. rewrite compare_refl. cbn [bind]. exact IH.
Qed.
Lemma compare_ok d1 d2 x : compare_data_frames d1 d2 = Ok x -> x = true.
Proof.
  unfold compare_data_frames. intros H. repeat (apply bind_ok in H as [? [? H]]). congruence.
Qed.
Lemma nth_combine_gen {A B} (a : list A) (b : list B) k x y : nth_error a k = Some x -> nth_error b k = Some y ->
  nth_error (combine a b) k = Some (x, y).
Proof.
  revert a b. induction k; intros [|p a] [|q b]; cbn; intros; try discriminate; auto. congruence.
Qed.
Lemma repeated_agree a b : repeated_pair (as_list a) (as_list b) = Ok true -> agree_pairwise a b.
Proof.
  unfold repeated_pair. rewrite !items_as_list. intros H k x y Ha Hb.
  destruct (pair_fold_true _ H (IFrame x, IFrame y)) as [z Hz].
  - apply nth_error_In with k. apply nth_combine_gen; apply map_nth_error; auto.
  - cbn in Hz. rewrite (compare_ok _ _ _ Hz) in Hz. auto.
Qed.

Lemma is_repeated_in a : forall us, is_repeated_result a us = Ok false -> forall u, In u us -> repeated_pair a (fst u) = Ok false.
Proof.
  induction us as [|v us IH]; cbn; intros H u I; [destruct I|].
  destruct (repeated_pair a (fst v)) as [[]|x] eqn:E; cbn [bind] in H; try discriminate.
  destruct I as [<-|I]; auto.
Qed.
Lemma is_repeated_ex a : forall us, is_repeated_result a us = Ok true -> exists u, In u us /\ repeated_pair a (fst u) = Ok true.
Proof.
  induction us as [|v us IH]; cbn; intros H; [discriminate|].
  destruct (repeated_pair a (fst v)) as [[]|x] eqn:E; cbn [bind] in H; try discriminate.
  - exists v. auto.
  - destruct (IH H) as [u [I K]]. exists u. auto.
Qed.

Lemma NoDup_app_intro_one {A} (l : list A) x : NoDup l -> ~ In x l -> NoDup (l ++ [x]).
Proof.
  induction 1; cbn; intros N; [constructor; auto; constructor|].
  constructor; [|apply IHNoDup; intros I; apply N; right; auto].
  rewrite in_app_iff. intros [I|[->|[]]]; cbn in N; auto.
Qed.

(** what the loop keeps, for results that are lists of frames *)
Lemma unique_spec : forall rs us out (fs gs : list (list df)),
  map fst rs = map as_list fs -> map fst us = map as_list gs ->
  NoDup gs -> unique_results rs us = Ok out ->
  exists hs, map fst out = map as_list hs /\ NoDup hs /\ incl gs hs /\ incl hs (gs ++ fs) /\
    (forall f, In f fs -> exists h, In h hs /\ (f = h \/ agree_pairwise f h)) /\
    (gs ++ fs = [] -> hs = []) /\ exists more, out = us ++ more.
Proof.
  induction rs as [|[r i] rs IH]; intros us out fs gs Hf Hg ND H.
  - destruct fs; [|discriminate]. inversion H; subst. exists gs. rewrite app_nil_r.
    split; [auto|]. split; [auto|]. split; [apply incl_refl|]. split; [apply incl_refl|].
    split; [intros f []|]. split; auto. exists []. rewrite app_nil_r. auto.
  - destruct fs as [|f fs]; [discriminate|]. cbn in Hf. injection Hf as Hr Hf. subst r.
    cbn [unique_results fst] in H. destruct (is_repeated_result (as_list f) us) as [b|x] eqn:E; [|discriminate].
    cbn [bind] in H. destruct b.
    + destruct (is_repeated_ex _ _ E) as [u [Iu Ru]].
      apply IH with (fs := fs) (gs := gs) in H; auto. destruct H as [hs [A [B [C [D [F [G K]]]]]]].
      exists hs. split; [auto|]. split; [auto|]. split; [auto|].
      split; [intros x I; apply D in I; apply in_app_iff in I; apply in_app_iff; cbn; tauto|].
      split; [|split; [|exact K]].
      * intros g [<-|I]; [|auto]. assert (In (fst u) (map as_list gs)) as I2 by (rewrite <- Hg; apply in_map; auto).
        apply in_map_iff in I2 as [h [Eh Ih]]. exists h. split; [apply C; auto|]. right.
        rewrite <- Eh in Ru. apply repeated_agree in Ru. exact Ru.
      * intros Q. destruct gs; discriminate.
    + apply IH with (fs := fs) (gs := gs ++ [f]) in H; auto.
      * destruct H as [hs [A [B [C [D [F [G [more K]]]]]]]]. exists hs. rewrite <- app_assoc in *. cbn in *.
        split; [auto|]. split; [auto|]. split; [intros x I; apply C; apply in_app_iff; auto|]. split; [auto|].
        split; [|split].
        -- intros g [<-|I]; [|auto]. exists f. split; auto. apply C. apply in_app_iff. right. left. auto.
        -- intros Q. destruct gs; discriminate.
        -- exists ((as_list f, i) :: more). exact K.
      * rewrite !map_app, Hg. auto.
      * apply NoDup_app_intro_one; auto.
        intros I. assert (I2 : In (as_list f) (map fst us)) by (rewrite Hg; apply in_map; auto).
        apply in_map_iff in I2 as [u [Eu Iu]]. apply (is_repeated_in _ _ E) in Iu. rewrite Eu, repeated_refl in Iu. discriminate.
Qed.

Definition successes (e : env) (w : worksheet) (l : list (dict * nat)) : list (list df) :=
  flat_map (fun pi => match outcome e w (fst pi) with Ok dfs => [dfs] | Err _ => [] end) l.
Lemma results_successes e w l : map fst (results_of e true w l) = map unwrap (successes e w l).
Proof.
  induction l as [|[p i] l IH]; auto. cbn [results_of successes flat_map fst].
  destruct (outcome e w p); cbn [app map]; auto. f_equal. exact IH.
Qed.
Lemma successes_In e w l n dfs : In dfs (successes e w (combine l (seq n (List.length l)))) <->
  exists a, In a l /\ outcome e w a = Ok dfs.
Proof.
  unfold successes. rewrite in_flat_map. split.
  - intros [[a i] [I H]]. cbn in H. apply in_combine_l in I. destruct (outcome e w a) eqn:E; [|destruct H].
    destruct H as [->|[]]. exists a. auto.
  - intros [a [I H]]. apply In_nth_error in I as [i I]. exists (a, (n + i)%nat). split.
    + apply nth_error_In with i. apply nth_combine. auto.
    + cbn. rewrite H. left. auto.
Qed.
Lemma c20_distinct e st si pi l st' out pid : (si < List.length (st_sheets st))%nat ->
  discover_parameters (params st pi) = Ok l -> List.length l <> 1%nat ->
  (forall a dfs, In a l -> alone e (make_ws_copy (sheet st si)) a = Ok dfs -> List.length dfs <> 1%nat) ->
  scrape e true st si pi = (st', Ok (out, pid)) ->
  exists results, all_handed results out /\ NoDup results /\
    (forall r, In r results -> exists a, In a l /\ alone e (make_ws_copy (sheet st si)) a = Ok r) /\
    (forall a dfs, In a l -> alone e (make_ws_copy (sheet st si)) a = Ok dfs ->
       exists r, In r results /\ (dfs = r \/ agree_pairwise dfs r)).
Proof.
  intros Hs Hl Hn Hm H. rewrite (scrape_many e true st si pi l Hs Hl Hn) in H.
  injection H as _ H. apply bind_ok in H as [us [Hu H]].
  set (w := sheet st si) in *. set (cl := combine l _) in *.
  pose proof (results_successes e w cl) as R.
  assert (R2 : map unwrap (successes e w cl) = map as_list (successes e w cl)).
  { apply map_ext_in. intros dfs I. apply successes_In in I as [a [Ia Oa]].
    unfold outcome in Oa. rewrite <- alone_full in Oa. specialize (Hm _ _ Ia Oa).
    destruct dfs as [|d [|d' dfs]]; auto. cbn in Hm. congruence. }
  rewrite R2 in R.
  destruct (unique_spec _ [] us _ [] R eq_refl (NoDup_nil _) Hu) as [hs [A [B [_ [D [F _]]]]]].
  exists hs. split; [|split; [auto|split]].
  - destruct us as [|u [|u' us]]; [discriminate| |].
    + destruct hs as [|h [|h' hs]]; try discriminate. injection A as A. inversion H; subst. cbn in A. subst. reflexivity.
    + destruct hs as [|h [|h' hs]]; try discriminate. injection H as H _. rewrite <- H.
      unfold all_handed. f_equal. exact A.
  - intros r I. apply D in I. cbn in I. apply successes_In in I as [a [Ia Oa]]. exists a. split; auto.
    rewrite alone_full. exact Oa.
  - intros a dfs I O. apply F. apply successes_In. exists a. split; auto. rewrite alone_full in O. exact O.
Qed.

(** single frames are never recognised as repeated *)
Lemma repeated_single d d' : df_cols d <> [] -> df_cols d' <> [] -> repeated_pair (DF d) (DF d') = Ok false.
Proof.
  unfold repeated_pair. cbn [items_of]. destruct (df_cols d) as [|c cs], (df_cols d') as [|c' cs']; try congruence.
  intros _ _. cbn [map combine foldM fst snd compare_items bind].
  generalize cs'. induction cs as [|x cs IH]; intros [|y cs2]; auto. cbn [map combine foldM fst snd compare_items bind]. auto.
Qed.
Definition with_columns (x : dfs_t) : Prop := exists d, x = DF d /\ df_cols d <> [].
Lemma is_repeated_single a : with_columns a -> forall us, Forall (fun u => with_columns (fst u)) us ->
  is_repeated_result a us = Ok false.
Proof.
  intros [d [-> H]]. induction us as [|[u i] us IH]; intros F; auto. inversion F as [|? ? [d' [E K]] F']; subst.
  cbn in E. subst u. cbn [is_repeated_result fst]. rewrite repeated_single; auto.
Qed.
Lemma unique_single : forall rs us, Forall (fun u => with_columns (fst u)) rs -> Forall (fun u => with_columns (fst u)) us ->
  unique_results rs us = Ok (us ++ rs).
Proof.
  induction rs as [|r rs IH]; intros us Fr Fu; cbn [unique_results]; [rewrite app_nil_r; auto|].
  inversion Fr; subst. rewrite is_repeated_single; auto. cbn [bind].
  rewrite IH; auto; [rewrite <- app_assoc; auto|]. apply Forall_app. auto.
Qed.
