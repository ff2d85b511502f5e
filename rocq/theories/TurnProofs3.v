(** Turning a sheet and its parameters: the call (C39). *)
From Coq Require Import ZifyBool ZifyNat.
From Verif Require Import Base BaseFacts Cal Coord CoordFacts XlMethods Params ParseTime TimeIndex GetData PeriodRange Attempts DataFrame Scrape Xlseries
  SpecCoord SpecParams SpecScrape SpecTime SpecData SpecFrames SpecEnd SpecTurn ScrapeFacts ScrapeProofs ScrapeProofs2 FrameProofs4 EndCall TurnProofs TurnProofs2.
Local Open Scope Z_scope.

Lemma complete_turned p p' : turned_params p p' -> is_complete p = Ok true -> is_complete p' = Ok true.
Proof.
  intros T. unfold is_complete. rewrite (num_turned _ _ T). generalize (get_num_series p) as ns. intros ns.
  assert (G : forall l l' q q', Forall2 (fun a b => fst a = fst b /\ turned_param (fst a) (snd a) (snd b)) l l' -> all_complete q ns l = Ok true -> all_complete q' ns l' = Ok true); [|apply G; auto].
  induction 1 as [|[k v] [k' v'] l l' [E F] H IH]; intros A; cbn [all_complete fst snd] in *; auto. subst k'.
  apply bind_ok in A as (b & B & A). destruct b; [|discriminate]. specialize (IH A).
  assert (C : complete_one q' ns (k, v') = Ok true); [|rewrite C; auto].
  unfold complete_one in *. destruct (text_in k OPTIONAL); auto. rewrite (none_turned _ _ _ F). destruct (is_none v); [discriminate|].
  apply bind_ok in B as (n & N & B). rewrite (len_turned _ _ _ _ F N). exact B.
Qed.
Lemma alone_turned e w w' p p' dfs : turned w w' -> turned_params p p' -> single_letters p -> alone e w p = Ok dfs -> alone e w' p' = Ok dfs.
Proof.
  intros W T L. rewrite !alone_full. unfold attempt_full. destruct (clean_data e w p) as [[w1 p1] r] eqn:C. destruct r as [u|x]; [|discriminate]. destruct u.
  destruct (clean_turned _ _ _ _ _ _ _ W T L C) as (w1' & p1' & -> & W1 & T1 & L1).
  destruct (get_data_all e w1 p1) as [w2 r2] eqn:G. cbn [snd]. intros ->. destruct (all_turned _ _ _ _ _ _ _ W1 T1 L1 G) as (w2' & -> & _). reflexivity.
Qed.
Lemma scrape_complete e safe st si pi : (si < List.length (st_sheets st))%nat -> (pi < List.length (st_params st))%nat -> is_complete (params st pi) = Ok true ->
  snd (scrape e safe st si pi) = (do dfs <- alone e (sheet st si) (params st pi); Ok (DL (map DF dfs), pi)).
Proof.
  intros Hs Hp C. unfold scrape, attempt_objects. rewrite C, run_full by auto. rewrite alone_full. destruct (attempt_full e (sheet st si) (params st pi)) as [[w' p'] r]. reflexivity.
Qed.
Lemma c39 e uni json st wb u q name i p st' wb' u' q' name' i' p' safe preserve out k :
  wb_ok st wb -> in_store st u -> resolves uni strip (names_of st wb) q name -> first_such (fun i => title (sheet st i) = name) wb i -> object_of json st u p ->
  wb_ok st' wb' -> in_store st' u' -> resolves uni strip (names_of st' wb') q' name' -> first_such (fun i => title (sheet st' i) = name') wb' i' -> object_of json st' u' p' ->
  turned (sheet st i) (sheet st' i') -> turned_params p p' -> single_letters p -> is_complete p = Ok true ->
  snd (get_data_frames e uni json st wb u q safe preserve) = Ok (out, name, k) ->
  exists k', snd (get_data_frames e uni json st' wb' u' q' safe preserve) = Ok (out, name', k').
Proof.
  intros WB IS RES FS OB WB' IS' RES' FS' OB' TU TP SL CO H.
  destruct (c23_sheet e uni json st wb u q safe preserve WB IS name p RES OB) as (j & st2 & si & pid & F1 & PF & PT & PP & S1 & S2 & E). rewrite E in H. clear E.
  destruct (c23_sheet e uni json st' wb' u' q' safe preserve WB' IS' name' p' RES' OB') as (j' & st2' & si' & pid' & F1' & PF' & PT' & PP' & S1' & S2' & ->).
  rewrite (first_such_det _ _ _ _ F1 FS) in *. rewrite (first_such_det _ _ _ _ F1' FS') in *.
  rewrite scrape_complete in H; auto; [|rewrite PP; auto]. rewrite scrape_complete; auto; [|rewrite PP'; eapply complete_turned; eauto].
  assert (W : turned (sheet st2 si) (sheet st2' si')).
  { destruct preserve; [rewrite PT, PT' by auto; apply copy_turned; auto|]. destruct (PF eq_refl) as [_ ->]. destruct (PF' eq_refl) as [_ ->]. auto. }
  rewrite PP in H. rewrite PP'. apply bind_ok in H as (x & A & H). apply bind_ok in A as (dfs & A & B). inversion B; subst x. cbn [fst snd] in H. inversion H; subst.
  rewrite (alone_turned _ _ _ _ _ _ W TP SL A). eexists. cbn [bind fst snd]. reflexivity.
Qed.

(** ** Clean tables *)
Lemma table_turned d w cells time starts ends f se ds data d' w' : se_align se = Horiz -> turned w w' -> (given (pname "data_ends") d' <-> given (pname "data_ends") d) ->
  clean_table d w cells time starts ends f se ds data -> clean_table d' w' (map across cells) (across time) starts ends f (in_columns se) ds data.
Proof.
  intros A (MR & MC & C) G [c1 c0 c2 c3 c4 c5 c6 c7 (c8 & c9) (last & c10 & c11) c12]. rewrite A in *.
  constructor; cbn [in_columns se_align se_continuity se_blanks se_missings se_markers se_composed line_of depth_of along across fst snd] in *; auto.
  - intros k x K. rewrite (C _ _). apply c3. auto.
  - intros rc H. destruct cells as [|rc0 cells]; [discriminate|]. cbn in H. inversion H; subst. cbn. apply (c7 rc0). reflexivity.
  - exists last. split.
    + destruct c10 as [X|X]; [apply li_given; tauto|]. rewrite <- MR. apply (li_sheet d' w' Vert). tauto.
    + destruct c11 as [E|(E & _)]; [auto|discriminate].
  - clear - c12 C. induction c12 as [|rc vs cells data (L & V) F IH]; cbn [map]; constructor; auto. split; auto. intros k x K. cbn. rewrite C. auto.
Qed.
Lemma names_turned e d w cells names d' w' : turned w w' -> dget (pname "series_names") d' = dget (pname "series_names") d ->
  table_names e d w cells names -> table_names e d' w' (map across cells) names.
Proof.
  intros (_ & _ & C) G [N L F|N F].
  - apply tn_given; [congruence|rewrite map_length; auto|auto].
  - apply tn_headers; [unfold given in *; rewrite G; auto|]. clear - F C. induction F as [|rc n cells names (u & U & V) F IH]; cbn [map]; constructor; auto. exists u. cbn. rewrite C. auto.
Qed.
Lemma real_turned w w' : turned w w' -> real_dates w -> real_dates w'.
Proof. intros (_ & _ & C) R r c d H. rewrite C in H. eauto. Qed.
Lemma bounded_turned w w' : turned w w' -> bounded w -> bounded w'.
Proof. intros (MR & MC & C) B r c H. rewrite C in H. apply B in H. rewrite MR, MC. tauto. Qed.
Lemma c39_clean e uni json st wb q name i d st' wb' q' name' i' d' preserve cells time starts ends f se names ds data :
  wb_ok st wb -> resolves uni strip (names_of st wb) q name -> first_such (fun i => title (sheet st i) = name) wb i ->
  wb_ok st' wb' -> resolves uni strip (names_of st' wb') q' name' -> first_such (fun i => title (sheet st' i) = name') wb' i' ->
  bounded (sheet st i) -> real_dates (sheet st i) -> periodic f -> (se_missings se = true -> ~ In (VStr (pname "Implicit")) (se_markers se)) ->
  se_align se = Horiz -> request d cells time starts ends f se -> clean_table d (sheet st i) cells time starts ends f se ds data -> table_names e d (sheet st i) cells names ->
  turned (sheet st i) (sheet st' i') -> request d' (map across cells) (across time) starts ends f (in_columns se) ->
  (given (pname "data_ends") d' <-> given (pname "data_ends") d) -> dget (pname "series_names") d' = dget (pname "series_names") d ->
  exists out k k', snd (get_data_frames e uni json st wb (UInput (PDict d)) q false preserve) = Ok (out, name, k) /\
    snd (get_data_frames e uni json st' wb' (UInput (PDict d')) q' false preserve) = Ok (out, name', k').
Proof.
  intros WB RES FS WB' RES' FS' BO RD PF NI A RQ CT TN TU RQ' GE GN.
  destruct (c38 e uni json st wb q preserve name i d cells time starts ends f se names ds data) as (n & cols & k & P1 & P2 & E); auto.
  destruct (c38 e uni json st' wb' q' preserve name' i' d' (map across cells) (across time) starts ends f (in_columns se) names ds data) as (n' & cols' & k' & P1' & P2' & E'); auto.
  - eapply bounded_turned; eauto.
  - eapply real_turned; eauto.
  - eapply table_turned; eauto.
  - eapply names_turned; eauto.
  - assert (n' = n) by (destruct P1; inversion P1'; reflexivity). subst n'. rewrite (names_det _ _ _ P2' P2) in E'. eauto.
Qed.
