(** Putting the columns of a sheet in other places: the attempts and the call (C84). *)
From Coq Require Import ZifyBool ZifyNat.
From Verif Require Import Base BaseFacts Cal Coord CoordFacts XlMethods Params ParamsFacts ParseTime TimeIndex GetData PeriodRange Attempts AttemptsProofs DataFrame Scrape Xlseries Session
  SpecCoord SpecCoordFacts SpecParams SpecScrape SpecReach SpecMove SpecSwap ScrapeFacts ScrapeProofs ScrapeProofs2 FrameProofs4 EndCall SessionProofs SoundProofs ReachProofs ReachProofs2 ReachProofs3 MoveProofs MoveProofs2 SwapProofs SwapProofs2.
Local Open Scope Z_scope.

Section Swap.
Variables (al : align) (d : Z -> Z -> Prop).
Hypothesis D0 : one_to_one d.
Notation moved := (rearranged al d).
Notation mname := (placed_name al d).
Notation mparam := (placed_param al d).
Notation mparams := (placed_params al d).
Ltac plain := first [discriminate|cbn; intuition discriminate].

(** ** Cleaning *)
Definition ends_moved (l l' : list (text * Z)) : Prop := Forall2 (fun a b => mname (fst a) (fst b) /\ snd b = snd a) l l'.
Lemma find_moved t t' l l' : mname t t' -> ends_moved l l' ->
  match find (fun kv => text_eqb t (fst kv)) l, find (fun kv => text_eqb t' (fst kv)) l' with
  | Some a, Some b => snd b = snd a | None, None => True | _, _ => False end.
Proof.
  intros N. induction 1 as [|a b l l' [A1 A2] F IH]; cbn [find]; auto. rewrite (moved_same _ _ D0 _ _ _ _ N A1). destruct (text_eqb t (fst a)); auto.
Qed.
Lemma header_moved p p' i : mparams p p' ->
  both mname (do thc <- py_index (dgetN n_time_header p) i; as_text thc) (do thc <- py_index (dgetN n_time_header p') i; as_text thc).
Proof. intros T. eapply both_bind; [apply index_at; exact T|]. intros x y O. eapply one_text; eauto. cbn. tauto. Qed.
Definition went (r r' : worksheet * dict * res unit) : Prop :=
  snd r' = snd r /\ moved (fst (fst r)) (fst (fst r')) /\ mparams (snd (fst r)) (snd (fst r')).
Lemma went_at w w' p p' (x : res unit) : moved w w' -> mparams p p' -> went (w, p, x) (w', p', x).
Proof. intros A B. split; [reflexivity|]. split; [exact A|exact B]. Qed.
Lemma many_moved e n : forall i ends ends' w w' p p', moved w w' -> mparams p p' -> ends_moved ends ends' ->
  went (clean_many e n i ends w p) (clean_many e n i ends' w' p').
Proof.
  induction n as [|n IH]; intros i ends ends' w w' p p' W T R; cbn [clean_many]; [apply went_at; auto|].
  pose proof (header_moved p p' i T) as TH.
  destruct (do thc <- py_index (dgetN n_time_header p) i; as_text thc) as [t|x], (do thc <- py_index (dgetN n_time_header p') i; as_text thc) as [t'|x']; try contradiction; [|cbn in TH; subst; apply went_at; auto].
  pose proof (find_moved _ _ _ _ TH R) as FD. rewrite (dgetN_kept al d p p' T n_data_ends) by plain.
  destruct (find (fun kv => text_eqb t (fst kv)) ends) as [kv|], (find (fun kv => text_eqb t' (fst kv)) ends') as [kv'|]; try contradiction.
  - rewrite FD. destruct (py_index (dgetN n_data_ends p) i) as [de|x]; [|apply went_at; auto].
    destruct (truthy de); apply IH; auto. apply set_end_moved; auto.
  - pose proof (series_moved al d p p' T i) as SM.
    destruct (series_sp p i) as [s|x], (series_sp p' i) as [s'|x']; try contradiction; [|cbn in SM; subst; apply went_at; auto].
    destruct (index_moved al d D0 e s s' w w' SM W) as [Z1 W1]. destruct (clean_time_index e w s) as [w1 r1]. destruct (clean_time_index e w' s') as [w1' r1']. cbn [fst snd] in Z1, W1. subst r1'.
    destruct r1 as [z|x]; cbn [bind]; [|apply went_at; auto].
    destruct (assert_ (negb (z =? 0))) as [v|x]; cbn [bind]; [|apply went_at; auto].
    destruct (py_index (dgetN n_data_ends p) i) as [de|x]; [|apply went_at; auto].
    apply IH; auto; try (destruct (truthy de); [auto|apply set_end_moved; auto]). constructor; auto.
Qed.
Lemma clean_moved e w w' p p' : moved w w' -> mparams p p' -> went (clean_data e w p) (clean_data e w' p').
Proof.
  intros W T. unfold clean_data. rewrite (dgetN_kept al d p p' T n_time_multicolumn), (dgetN_kept al d p p' T n_data_ends) by plain.
  destruct (py_index (dgetN n_time_multicolumn p) 0) as [tm|x]; [|apply went_at; auto]. destruct (truthy tm).
  - pose proof (series_moved al d p p' T 0) as SM.
    destruct (series_sp p 0) as [s|x], (series_sp p' 0) as [s'|x']; try contradiction; [|cbn in SM; subst; apply went_at; auto].
    destruct (index_moved al d D0 e s s' w w' SM W) as [Z1 W1]. destruct (clean_time_index e w s) as [w1 r1]. destruct (clean_time_index e w' s') as [w1' r1']. cbn [fst snd] in Z1, W1. subst r1'.
    destruct r1 as [z|x]; [|apply went_at; auto].
    destruct (py_index (dgetN n_data_ends p) 0) as [de|x]; [|apply went_at; auto].
    destruct (truthy de); [apply went_at; auto|].
    destruct (set_item_moved al d p p' T z) as [S1 S2].
    destruct (set_item p n_data_ends (VInt z)) as [q r]. destruct (set_item p' n_data_ends (VInt z)) as [q' r']. cbn [fst snd] in *. subst r'. apply went_at; auto.
  - rewrite (len_at al d p p' T). destruct (py_len (dgetN n_time_header p)) as [n|x]; [|apply went_at; auto]. apply many_moved; auto. constructor.
Qed.

(** ** Frames *)
Lemma query_moved p p' i : mparams p p' ->
  both (fun q q' => q_freq q' = q_freq q /\ q_starts q' = q_starts q /\ q_ends q' = q_ends q /\ q_ta q' = q_ta q /\ q_al q = al /\ q_al q' = al /\ lined al d (q_line q) (q_line q')) (pr_query p i) (pr_query p' i).
Proof.
  intros T. unfold pr_query. rewrite (dgetN_kept al d p p' T n_frequency), (dgetN_kept al d p p' T n_time_alignment), (dgetN_kept al d p p' T n_time_multicolumn), (dgetN_kept al d p p' T n_data_starts), (dgetN_kept al d p p' T n_data_ends) by plain.
  destruct (py_index (dgetN n_frequency p) i) as [fr|x]; cbn [bind]; [|reflexivity]. destruct (as_text fr) as [ft|x]; cbn [bind]; [|reflexivity].
  destruct (py_index (dgetN n_data_starts p) i) as [ds|x]; cbn [bind]; [|reflexivity]. destruct (as_int ds) as [st|x]; cbn [bind]; [|reflexivity].
  eapply both_bind; [apply index_at; exact T|]. intros th th' O. apply one_coord in O; [|cbn; tauto]. eapply both_bind; [apply (theader_moved _ _ _ _ O)|]. clear O. intros tt tt' TH.
  destruct (py_index (dgetN n_data_ends p) i) as [de|x]; cbn [bind]; [|reflexivity]. destruct (assert_ (truthy de)) as [v|x]; cbn [bind]; [|reflexivity]. destruct (as_int de) as [en|x]; cbn [bind]; [|reflexivity].
  destruct (py_index (dgetN n_time_alignment p) i) as [ta|x]; cbn [bind]; [|reflexivity]. destruct (as_int ta) as [ti|x]; cbn [bind]; [|reflexivity].
  eapply both_bind; [apply index_at; exact T|]. intros a a' O. destruct (one_align _ _ _ _ T _ _ O) as [-> ->]. cbn [bind]. clear O.
  unfold assert_. destruct (st <? en); cbn [bind]; [|reflexivity].
  eapply both_bind; [apply (single_moved al d (truthy (dgetN n_time_multicolumn p)) tt tt' TH)|]. intros t t' TN.
  destruct (line_moved al d t t' TN) as (l & l' & -> & -> & OL). cbn [bind both q_freq q_starts q_line q_ends q_ta q_al]. repeat (split; [reflexivity|]). exact OL.
Qed.
Lemma init_moved e p p' : mparams p p' -> forall n i w w' fs, moved w w' ->
  snd (init_frames e n i w' p' fs) = snd (init_frames e n i w p fs) /\ moved (fst (init_frames e n i w p fs)) (fst (init_frames e n i w' p' fs)).
Proof.
  intros T. induction n as [|n IH]; intros i w w' fs W; cbn [init_frames]; [cbn; auto|].
  pose proof (query_moved p p' i T) as Q. destruct (pr_query p i) as [q|x], (pr_query p' i) as [q'|x']; try contradiction; [|cbn in Q; subst; auto].
  destruct Q as (-> & -> & -> & -> & -> & -> & Q1).
  rewrite (prs_moved al d e w w' _ _ (q_line q) (q_line q')) by auto. destruct (series_prs e w _ _ _ _ _ _) as [prs|x]; [|cbn; auto].
  pose proof (touch_prs_moved al d w w' (q_freq q) (q_starts q) (q_line q) (q_line q') (q_ends q) (q_ta q) W) as W1.
  destruct (foldM add_frame prs fs) as [fs'|x]; [|cbn; auto]. apply IH; auto.
Qed.
Lemma fill_moved e p p' : mparams p p' -> forall n i w w' fs, moved w w' ->
  snd (fill_frames e n i w' p' fs) = snd (fill_frames e n i w p fs) /\ moved (fst (fill_frames e n i w p fs)) (fst (fill_frames e n i w' p' fs)).
Proof.
  intros T. induction n as [|n IH]; intros i w w' fs W; cbn [fill_frames]; [cbn; auto|].
  pose proof (series_moved al d p p' T i) as SM.
  destruct (series_sp p i) as [s|x], (series_sp p' i) as [s'|x']; try contradiction; [|cbn in SM; subst; auto].
  destruct (into_moved al d e w w' s s' fs SM W) as [E A].
  destruct (series_into e w s fs) as [w1 r1]. destruct (series_into e w' s' fs) as [w1' r1']. cbn [fst snd] in E, A. subst r1'.
  destruct r1 as [fs'|x]; [|cbn; auto]. apply IH; auto.
Qed.
Lemma all_moved e p p' w w' : mparams p p' -> moved w w' -> snd (get_data_all e w' p') = snd (get_data_all e w p).
Proof.
  intros T W. unfold get_data_all.
  assert (ZL : zip_len p' = zip_len p).
  { unfold zip_len. rewrite (mapM_ext (fun k => py_len (dgetN k p')) (fun k => py_len (dgetN k p))); auto. intros k _. apply (len_at al d p p' T). }
  rewrite ZL. destruct (zip_len p) as [n|x]; auto.
  destruct (init_moved e p p' T n 0 w w' [] W) as [E A]. destruct (init_frames e n 0 w p []) as [w1 r1]. destruct (init_frames e n 0 w' p' []) as [w1' r1']. cbn [fst snd] in E, A. subst r1'.
  destruct r1 as [fs|x]; auto. rewrite (len_at al d p p' T). destruct (py_len (dgetN n_headers_coord p)) as [m|x]; auto.
  destruct (fill_moved e p p' T m 0 w1 w1' fs A) as [E2 _]. destruct (fill_frames e m 0 w1 p fs) as [w2 r2]. destruct (fill_frames e m 0 w1' p' fs) as [w2' r2']. cbn [fst snd] in *. subst. reflexivity.
Qed.
Lemma full_moved e w w' p p' : moved w w' -> mparams p p' -> snd (attempt_full e w' p') = snd (attempt_full e w p).
Proof.
  intros W T. destruct (clean_moved e w w' p p' W T) as (A & B & C). unfold attempt_full.
  destruct (clean_data e w p) as [[w1 p1] r1]. destruct (clean_data e w' p') as [[w1' p1'] r1']. cbn [fst snd] in *. subst.
  destruct r1 as [[]|x]; auto. pose proof (all_moved e p1 p1' w1 w1' C B) as G.
  destruct (get_data_all e w1 p1) as [w2 r2]. destruct (get_data_all e w1' p1') as [w2' r2']. exact G.
Qed.

(** ** The attempts *)
Lemma complete_moved p p' : mparams p p' -> is_complete p' = is_complete p.
Proof.
  intros T. unfold is_complete. rewrite (num_moved al d p p' T). generalize (get_num_series p) as ns. intros ns.
  assert (G : forall l l' q q', Forall2 (fun a b => fst a = fst b /\ mparam (fst a) (snd a) (snd b)) l l' -> all_complete q' ns l' = all_complete q ns l); [|apply G; auto].
  intros l l' q q'. induction 1 as [|[k v] [k' v'] l l' [E F] H IH]; cbn [all_complete fst snd] in *; auto. subst k'. rewrite IH.
  assert (C : complete_one q' ns (k, v') = complete_one q ns (k, v)); [|rewrite C; auto].
  unfold complete_one. rewrite (none_moved _ _ _ _ _ F), (len_moved _ _ _ _ _ F). reflexivity.
Qed.
Lemma missings_moved p p' : mparams p p' -> get_missings p' = get_missings p.
Proof.
  intros T. unfold get_missings. replace (map fst p') with (map fst p) by (clear - T; induction T as [|a b l l' [E _] F IH]; cbn; congruence).
  apply filter_ext. intros k. unfold is_missing. rewrite (none_at al d p p' T). reflexivity.
Qed.
Lemma items_moved : forall comb p p', mparams p p' -> (forall k v, In (k, v) comb -> k <> n_alignment /\ In k searched) -> both mparams (set_items p comb) (set_items p' comb).
Proof.
  induction comb as [|[k v] comb IH]; intros p p' T C; cbn [set_items]; [exact T|].
  destruct (C k v (or_introl eq_refl)) as [K1 K2].
  assert (O : ~ In k coord_params /\ k <> n_context).
  { assert (B : forallb (fun x => negb (text_in x coord_params) && negb (text_eqb x n_context)) searched = true) by reflexivity.
    rewrite forallb_forall in B. specialize (B k K2). rewrite !andb_true_iff, !negb_true_iff in B. destruct B as [B1 B3]. split.
    - intros H. apply text_in_In in H. congruence.
    - apply text_eqb_neq. auto. }
  destruct O as (O1 & O3). pose proof (other_moved al d p p' T k v K1 O1 O3) as B.
  destruct (set_item p k v) as [q [u|x]], (set_item p' k v) as [q' [u'|x']]; try contradiction; [|exact B]. apply IH; auto. intros k0 v0 I. apply (C k0 v0). right. auto.
Qed.
Lemma discover_moved p p' : mparams p p' -> dgetN n_alignment p <> VNone ->
  both (Forall2 mparams) (discover_parameters p) (discover_parameters p').
Proof.
  intros T A. unfold discover_parameters. rewrite (complete_moved _ _ T). destruct (is_complete p) as [c|x]; cbn [bind]; [|reflexivity].
  destruct c; [apply Forall2_cons; [exact T|apply Forall2_nil]|]. rewrite (missings_moved _ _ T). unfold generate_attempts.
  destruct (get_missings p) as [|nm names] eqn:G; [apply Forall2_cons; [exact T|apply Forall2_nil]|]. rewrite <- G.
  destruct (missings_dict (get_missings p)) as [md|x] eqn:M; cbn [bind]; [|reflexivity].
  destruct (param_combinations (List.length md) md LIKELINESS_ORDER) as [combs|x] eqn:C; cbn [bind]; [|reflexivity].
  apply (both_mapM (fun a b => a = b /\ In a combs)).
  - assert (F : forall l, (forall x, In x l -> In x combs) -> Forall2 (fun a b => a = b /\ In a combs) l l) by (induction l as [|a l IH]; intros H; constructor; [split; auto; apply H; left; auto|apply IH; intros; apply H; right; auto]).
    apply F. auto.
  - intros cb ? [<- I].
    assert (J : forall k v, In (k, v) cb -> k <> n_headers_coord /\ dgetN k p = VNone /\ In k searched).
    { intros k v J. destruct (combos_keys _ _ _ _ C _ _ _ I J) as [J1 J2]. rewrite (missings_names _ _ M) in J1. unfold get_missings in J1. apply filter_In in J1. destruct J1 as [_ J1].
      unfold is_missing in J1. apply andb_true_iff in J1. destruct J1 as [J1 J3]. split; [intros ->; apply J2; reflexivity|]. split; [destruct (dgetN k p); try discriminate; auto|]. apply wanted; auto. }
    assert (IM : both mparams (set_items p cb) (set_items p' cb)).
    { apply items_moved; auto. intros k v K. destruct (J k v K) as (J1 & J2 & J3). split; auto. intros ->. contradiction. }
    destruct (set_items p cb) as [q|x] eqn:SI, (set_items p' cb) as [q'|x']; try contradiction; cbn [bind]; [|exact IM].
    rewrite (complete_moved _ _ IM). destruct (is_complete q) as [b|x]; cbn [bind]; [|reflexivity]. destruct (assert_ b); cbn [bind]; [|reflexivity].
    exact IM.
Qed.
Lemma outcome_moved e p p' w w' : moved w w' -> mparams p p' -> outcome e w' p' = outcome e w p.
Proof. intros W T. unfold outcome. apply full_moved; auto. apply copy_moved; auto. Qed.
Lemma results_moved e safe w w' : moved w w' -> forall l l' is, Forall2 mparams l l' ->
  results_of e safe w' (combine l' is) = results_of e safe w (combine l is).
Proof.
  intros W l l' is F. revert is. induction F as [|a a' l l' T F IH]; intros [|i is]; auto. cbn [combine results_of]. rewrite (outcome_moved e a a' w w') by auto.
  fold (results_of e safe w (combine l is)) (results_of e safe w' (combine l' is)). rewrite IH. reflexivity.
Qed.
Lemma scrape_moved e safe st si pi st' si' pi' : (si < List.length (st_sheets st))%nat -> (pi < List.length (st_params st))%nat ->
  (si' < List.length (st_sheets st'))%nat -> (pi' < List.length (st_params st'))%nat ->
  mparams (params st pi) (params st' pi') -> dgetN n_alignment (params st pi) <> VNone -> moved (sheet st si) (sheet st' si') ->
  outputs (snd (scrape e safe st' si' pi')) = outputs (snd (scrape e safe st si pi)).
Proof.
  intros Hs Hp Hs' Hp' T A W. pose proof (discover_moved _ _ T A) as DM.
  destruct (discover_parameters (params st pi)) as [l|x] eqn:D, (discover_parameters (params st' pi')) as [l'|x'] eqn:D'; try contradiction.
  - cbn in DM. pose proof (F2_size _ _ _ DM) as LEN. destruct (Nat.eq_dec (List.length l) 1) as [N1|N1].
    + destruct l as [|a [|]], l' as [|a' [|]]; try discriminate. inversion DM as [|? ? ? ? DM1 _]; subst.
      destruct (scrape_one_out e safe st si pi _ a Hs Hp D eq_refl) as [-> _].
      destruct (scrape_one_out e safe st' si' pi' _ a' Hs' Hp' D' eq_refl) as [-> _].
      rewrite (full_moved e (sheet st si) (sheet st' si') a a'); auto.
    + rewrite (scrape_many e safe st si pi l Hs D N1), (scrape_many e safe st' si' pi' l' Hs' D') by lia. cbn [snd].
      rewrite (results_moved e safe (sheet st si) (sheet st' si') W l l' _ DM), LEN.
      pose proof (unique_ids (results_of e safe (sheet st si) (combine l (seq (List.length (st_params st)) (List.length l))))
        (results_of e safe (sheet st si) (combine l (seq (List.length (st_params st')) (List.length l)))) [] []) as U.
      rewrite (results_ids e safe _ l _ (seq (List.length (st_params st')) (List.length l))) in U by apply seq_length.
      specialize (U eq_refl eq_refl).
      destruct (unique_results (results_of e safe (sheet st si) (combine l (seq (List.length (st_params st)) (List.length l)))) []) as [us|x],
        (unique_results (results_of e safe (sheet st si) (combine l (seq (List.length (st_params st')) (List.length l)))) []) as [vs|y];
        cbn [bind firsts] in *; try discriminate.
      * assert (F : map fst us = map fst vs) by congruence. destruct us as [|[u i] [|u2 us]], vs as [|[v j] [|v2 vs]]; try discriminate; auto.
        -- cbn in F. injection F as ->. reflexivity.
        -- unfold outputs. cbn [bind fst]. rewrite F. auto.
      * congruence.
  - cbn in DM. subst. unfold scrape. rewrite (attempt_objects_err _ _ _ D), (attempt_objects_err _ _ _ D'). auto.
Qed.
End Swap.
Lemma c84 al d e uni json st wb u q name i p st' wb' u' q' name' i' p' safe preserve : one_to_one d ->
  wb_ok st wb -> in_store st u -> resolves uni strip (names_of st wb) q name -> first_such (fun i => title (sheet st i) = name) wb i -> object_of json st u p ->
  wb_ok st' wb' -> in_store st' u' -> resolves uni strip (names_of st' wb') q' name' -> first_such (fun i => title (sheet st' i) = name') wb' i' -> object_of json st' u' p' ->
  rearranged al d (sheet st i) (sheet st' i') -> placed_params al d p p' -> dget (pname "alignment") p <> None ->
  answered (snd (get_data_frames e uni json st' wb' u' q' safe preserve)) = answered (snd (get_data_frames e uni json st wb u q safe preserve)).
Proof.
  intros D0 WB IS RES FS OB WB' IS' RES' FS' OB' MW MP GA.
  destruct (c23_sheet e uni json st wb u q safe preserve WB IS name p RES OB) as (j & st2 & si & pid & F1 & PF & PT & PP & S1 & S2 & ->).
  destruct (c23_sheet e uni json st' wb' u' q' safe preserve WB' IS' name' p' RES' OB') as (j' & st2' & si' & pid' & F1' & PF' & PT' & PP' & S1' & S2' & ->).
  rewrite (first_such_det _ _ _ _ F1 FS) in *. rewrite (first_such_det _ _ _ _ F1' FS') in *.
  assert (W : rearranged al d (sheet st2 si) (sheet st2' si')).
  { destruct preserve; [rewrite PT, PT' by auto; apply copy_moved; auto|]. destruct (PF eq_refl) as [_ ->]. destruct (PF' eq_refl) as [_ ->]. auto. }
  assert (AN : dgetN n_alignment p <> VNone).
  { pose proof (dget_moved al d p p' MP n_alignment) as DM. unfold dgetN. change n_alignment with (pname "alignment") in *. destruct (dget (pname "alignment") p) as [v|]; [|congruence].
    destruct (dget (pname "alignment") p'); [|contradiction]. inversion DM as [n K X Y|l l' K F X Y|K X Y|v0 K1 K2 X Y]; try discriminate.
    - exfalso. revert K. cbn. intuition discriminate.
    - contradiction (K1 eq_refl). }
  assert (E : outputs (snd (scrape e safe st2' si' pid')) = outputs (snd (scrape e safe st2 si pid))).
  { apply (scrape_moved al d D0); auto; rewrite ?PP, ?PP'; auto. }
  destruct (snd (scrape e safe st2 si pid)) as [[a b]|x], (snd (scrape e safe st2' si' pid')) as [[a' b']|x']; cbn in *; congruence.
Qed.
