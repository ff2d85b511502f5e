(** Proofs for C86. *)
From Verif Require Import Base BaseFacts Cal Coord XlMethods Params ParseTime TimeIndex GetData PeriodRange DataFrame Scrape Xlseries SpecParams ParamsProofs3 SpecAttempts SpecFrames FrameProofs FrameProofs2
  SpecScrape ScrapeFacts ScrapeProofs2 SpecReach TurnProofs3 SpecSelect SelectProofs SelectProofs2 SelectProofs3 SelectProofs4 SpecNaming.
Local Open Scope Z_scope.

(** the record of a series, called in another way *)
Definition recalled (s : sp) (nm cp cx : pyval) : sp :=
  mksp (sp_al s) nm (sp_hc s) cp cx (sp_starts s) (sp_ends s) (sp_cont s) (sp_blank s) (sp_missings s) (sp_mv s) (sp_ta s) (sp_multi s) (sp_th s) (sp_composed s) (sp_freq s).
Lemma recalled_alike s nm cp cx : alike s (recalled s nm cp cx).
Proof. unfold alike, recalled. cbn. repeat (split; [reflexivity|]). reflexivity. Qed.

Lemma body_recalled f f' : (forall k, In k PARAM_NAMES -> ~ In k naming_params -> f' k = f k) ->
  body f' = (do s <- body f; Ok (recalled s (f' n_series_names) (f' n_composed) (f' n_context))).
Proof.
  intros E. unfold body.
  assert (X : forall g, sp_of (map (fun k => (k, g k)) PARAM_NAMES) =
    do al' <- as_align (g n_alignment); do hc' <- as_text (g n_headers_coord); do ds' <- as_int (g n_data_starts);
    do de' <- (if truthy (g n_data_ends) then do z <- as_int (g n_data_ends); Ok (Some z) else Ok None);
    do ta' <- as_int (g n_time_alignment); do th' <- as_theader (g n_time_header); do fr' <- as_text (g n_frequency);
    Ok (mksp al' (g n_series_names) hc' (g n_composed) (g n_context) ds' de' (truthy (g n_continuity)) (truthy (g n_blank_rows)) (truthy (g n_missings)) (g n_missing_value) ta'
        (truthy (g n_time_multicolumn)) th' (truthy (g n_time_composed)) fr')) by (intros g; reflexivity).
  rewrite !X. clear X.
  assert (Y : forall k, text_in k PARAM_NAMES && negb (text_in k naming_params) = true -> f' k = f k).
  { intros k K. apply andb_true_iff in K as [K1 K2]. apply E; [apply text_in_In; auto|]. intros I. apply text_in_In in I. rewrite I in K2. discriminate. }
  rewrite (Y n_alignment), (Y n_headers_coord), (Y n_data_starts), (Y n_data_ends), (Y n_time_alignment), (Y n_time_header), (Y n_frequency), (Y n_continuity), (Y n_blank_rows), (Y n_missings), (Y n_missing_value), (Y n_time_multicolumn), (Y n_time_composed) by reflexivity.
  destruct (as_align (f n_alignment)); cbn [bind]; [|reflexivity]. destruct (as_text (f n_headers_coord)); cbn [bind]; [|reflexivity]. destruct (as_int (f n_data_starts)); cbn [bind]; [|reflexivity].
  destruct (if truthy (f n_data_ends) then _ else _); cbn [bind]; [|reflexivity]. destruct (as_int (f n_time_alignment)); cbn [bind]; [|reflexivity].
  destruct (as_theader (f n_time_header)); cbn [bind]; [|reflexivity]. destruct (as_text (f n_frequency)); cbn [bind]; reflexivity.
Qed.

Section Two.
Variable n : nat.
(** two objects for the same series *)
Definition two (p p' : dict) : Prop := lists n p /\ lists n p' /\ (forall k, ~ In k naming_params -> dget k p' = dget k p).
Lemma two_get p p' k : two p p' -> text_in k naming_params = false -> dgetN k p' = dgetN k p.
Proof. intros (_ & _ & O) K. unfold dgetN. rewrite O; auto. intros I. apply text_in_In in I. congruence. Qed.
Lemma two_sp p p' i : two p p' -> (i < n)%nat ->
  series_sp p' i = (do s <- series_sp p i; Ok (recalled s (at_ p' i n_series_names) (at_ p' i n_composed) (at_ p' i n_context))).
Proof.
  intros T I. pose proof T as (L & L' & O). unfold series_sp. rewrite (get_at n p i L I), (get_at n p' i L' I). cbn [bind]. apply body_recalled.
  intros k K NK. unfold at_. unfold dgetN. rewrite O by auto. reflexivity.
Qed.
Lemma lists_ends p l : lists n p -> List.length l = n -> lists n (dset n_data_ends (VList l) p).
Proof.
  intros L LL k K. destruct (text_eqb k n_data_ends) eqn:E.
  - apply text_eqb_eq in E. subst. exists l. rewrite dget_dset_same. auto.
  - apply text_eqb_neq in E. rewrite dget_dset_other by auto. apply L. auto.
Qed.
Lemma two_ends p p' l : two p p' -> List.length l = n -> two (dset n_data_ends (VList l) p) (dset n_data_ends (VList l) p').
Proof.
  intros (L & L' & O) LL. split; [apply lists_ends; auto|]. split; [apply lists_ends; auto|]. intros k K. destruct (text_eqb k n_data_ends) eqn:E.
  - apply text_eqb_eq in E. subst. rewrite !dget_dset_same. auto.
  - apply text_eqb_neq in E. rewrite !dget_dset_other by auto. auto.
Qed.
(** what the second object calls the series stays *)
Definition kept (p q : dict) : Prop := forall k, k <> n_data_ends -> dget k q = dget k p.

Lemma many_two e : forall m i ends w p p' w1 p1, two p p' -> (i + m <= n)%nat -> clean_many e m i ends w p = (w1, p1, Ok tt) ->
  exists p1', clean_many e m i ends w p' = (w1, p1', Ok tt) /\ two p1 p1' /\ kept p' p1'.
Proof.
  induction m as [|m IH]; intros i ends w p p' w1 p1 T I H; cbn [clean_many] in *.
  - injection H as <- <-. exists p'. split; auto. split; auto. intros k _. auto.
  - rewrite (two_get p p' n_time_header T eq_refl), (two_get p p' n_data_ends T eq_refl), (two_sp p p' i T) by lia.
    destruct (do thc <- py_index (dgetN n_time_header p) i; as_text thc) as [t|x]; [|discriminate H].
    set (run := fun sp : res sp => match find (fun kv => text_eqb t (fst kv)) ends with
      | Some kv => (w, Ok (snd kv))
      | None => match sp with Err x => (w, Err x) | Ok s => let '(w', r') := clean_time_index e w s in (w', do z <- r'; do _ <- assert_ (negb (z =? 0)); Ok z) end end).
    assert (R : run (do s <- series_sp p i; Ok (recalled s (at_ p' i n_series_names) (at_ p' i n_composed) (at_ p' i n_context))) = run (series_sp p i)).
    { unfold run. destruct (find _ ends); auto. destruct (series_sp p i) as [s|x]; cbn [bind]; auto. rewrite (clean_alike e w _ _ (recalled_alike s _ _ _)). auto. }
    fold (run (do s <- series_sp p i; Ok (recalled s (at_ p' i n_series_names) (at_ p' i n_composed) (at_ p' i n_context)))). rewrite R. fold (run (series_sp p i)) in H.
    destruct (run (series_sp p i)) as [w2 [z|x]]; [|discriminate H].
    destruct (py_index (dgetN n_data_ends p) i) as [de|x] eqn:DE; [|discriminate H].
    set (ends2 := match find (fun kv => text_eqb t (fst kv)) ends with Some _ => ends | None => (t, z) :: ends end) in *. clearbody ends2. destruct (truthy de).
    + apply (IH (S i) ends2 w2 p p' w1 p1 T); auto. lia.
    + assert (D : exists l, dgetN n_data_ends p = VList l /\ List.length l = n).
      { destruct T as (L & _). destruct (L n_data_ends) as (l & D & E); [cbn; tauto|]. exists l. rewrite (dgetN_of _ _ _ D). auto. }
      destruct D as (l & D & LL). unfold set_end in *. rewrite (two_get p p' n_data_ends T eq_refl), D in *.
      destruct (IH (S i) ends2 w2 (dset n_data_ends (VList (set_nth i (VInt z) l)) p) (dset n_data_ends (VList (set_nth i (VInt z) l)) p') w1 p1) as (p1' & E & T1 & K1); [|lia|exact H|].
      * apply two_ends; auto. rewrite set_nth_len. auto.
      * exists p1'. split; [exact E|]. split; auto. intros k K. rewrite K1, dget_dset_other by auto. auto.
Qed.
Lemma data_two e w p p' w1 p1 : two p p' -> (0 < n)%nat -> get_num_series p = Some n -> get_num_series p' = Some n -> clean_data e w p = (w1, p1, Ok tt) ->
  exists p1', clean_data e w p' = (w1, p1', Ok tt) /\ two p1 p1' /\ kept p' p1'.
Proof.
  intros T N G G' H. unfold clean_data in *. rewrite (two_get p p' n_time_multicolumn T eq_refl), (two_get p p' n_data_ends T eq_refl), (two_get p p' n_time_header T eq_refl), (two_sp p p' 0 T N).
  destruct (py_index (dgetN n_time_multicolumn p) 0) as [tm|x]; [|discriminate H]. destruct (truthy tm).
  - destruct (series_sp p 0) as [s|x]; [|discriminate H]. cbn [bind]. rewrite (clean_alike e w _ _ (recalled_alike s _ _ _)). destruct (clean_time_index e w s) as [w2 [z|x]]; [|discriminate H].
    destruct (py_index (dgetN n_data_ends p) 0) as [de|x]; [|discriminate H]. destruct (truthy de).
    + injection H as <- <-. exists p'. split; auto. split; auto. intros k _. auto.
    + assert (SI : forall q, get_num_series q = Some n -> set_item q n_data_ends (VInt z) = (dset n_data_ends (VList (repeat (VInt z) n)) q, Ok tt)).
      { intros q NS. unfold set_item. change (text_eqb n_data_ends n_context) with false. change (text_eqb n_data_ends n_headers_coord) with false. cbn [andb].
        unfold set_general. rewrite NS. cbn [valid_param_list bind]. change (valid_values n_data_ends) with (Ok [VType TyInt; VNone]). cbn [bind].
        assert (V : valid_param_value (VInt z) [VType TyInt; VNone] = true) by reflexivity. rewrite V. cbn [negb].
        unfold apply_to_all. change (text_eqb n_data_ends n_time_header) with false. change (text_eqb n_data_ends n_missing_value) with false. cbn [bind].
        unfold apply_to_all_gen. cbn [is_none andb]. clear - N. destruct n; [lia|]. reflexivity. }
      rewrite SI in * by auto. injection H as <- <-. eexists. split; [reflexivity|]. split; [apply two_ends; auto; apply repeat_length|]. intros k K. rewrite dget_dset_other by auto. auto.
  - destruct T as (L & L' & O). destruct (L n_time_header) as (l & D & LL); [cbn; tauto|]. rewrite (dgetN_of _ _ _ D) in *. cbn [py_len] in *. apply (many_two e _ 0 [] w p p'); auto; [|lia].
    split; auto.
Qed.
End Two.

Lemma values_recalled e w s nm cp cx : get_values e w (recalled s nm cp cx) = get_values e w s.
Proof.
  assert (C : forall line l, collect w (recalled s nm cp cx) line l = collect w s line l).
  { intros line. induction l as [|pos l IH]; cbn [collect]; auto. rewrite IH. reflexivity. }
  unfold get_values. cbn [recalled sp_ends sp_al sp_hc sp_starts sp_freq sp_missings sp_mv sp_th]. destruct (sp_ends s) as [en|]; auto. destruct (coord_line (sp_al s) (sp_hc s)); auto. cbn [bind].
  fold (recalled s nm cp cx). rewrite C. reflexivity.
Qed.

(** ** The frames *)
Definition rframe (Q : text -> Prop) (a b : (text * datetime * datetime) * frame) : Prop :=
  fst a = fst b /\ f_pr (snd b) = f_pr (snd a) /\ f_data (snd b) = f_data (snd a) /\ List.length (f_cols (snd b)) = List.length (f_cols (snd a)) /\
  exists picks, Forall Q picks /\ column_names picks (f_cols (snd b)).
Lemma add_length name cols : List.length (add_name name cols) = S (List.length cols).
Proof. destruct (add_name_next name cols) as (c & -> & _). rewrite app_length. cbn. lia. Qed.
Lemma put_two (Q : text -> Prop) h nm nm' vs : Q nm' -> forall fs fs', Forall2 (rframe Q) fs fs' -> forall r, put_values h nm vs fs = Ok r ->
  exists r', put_values h nm' vs fs' = Ok r' /\ Forall2 (rframe Q) r r'.
Proof.
  intros N. induction 1 as [|[k f] [k' f'] fs fs' (A & B & C & D & picks & E & F) H IH]; intros r P; cbn [put_values] in *; [discriminate P|]. cbn [fst snd] in *. subst k'.
  destruct (hash_eqb h k).
  - injection P as <-. eexists. split; [reflexivity|]. constructor; auto. split; [auto|]. cbn [fst snd f_pr f_cols f_data]. split; [auto|]. split; [congruence|]. split; [rewrite !add_length; congruence|].
    exists (picks ++ [nm']). split; [apply Forall_app; split; auto|]. destruct (add_name_next nm' (f_cols f')) as (c & -> & NN). constructor; auto.
  - apply bind_ok in P as (r0 & P & X). injection X as <-. destruct (IH r0 P) as (r0' & -> & G). cbn [bind]. eexists. split; [reflexivity|]. constructor; auto. split; [auto|]. cbn. eauto 8.
Qed.
Lemma puts_two (Q : text -> Prop) nm nm' : Q nm' -> forall vls prs fs fs' r, Forall2 (rframe Q) fs fs' ->
  foldM (fun fs pn => do h <- pr_hash (fst pn); put_values h (fst (snd pn)) (snd (snd pn)) fs) (combine prs (map (fun vs => (nm, vs)) vls)) fs = Ok r ->
  exists r', foldM (fun fs pn => do h <- pr_hash (fst pn); put_values h (fst (snd pn)) (snd (snd pn)) fs) (combine prs (map (fun vs => (nm', vs)) vls)) fs' = Ok r' /\ Forall2 (rframe Q) r r'.
Proof.
  intros N. induction vls as [|v vls IH]; intros [|pr prs] fs fs' r F H; cbn [map combine foldM] in *; try (injection H as <-; exists fs'; auto).
  cbn [fst snd] in *. apply bind_ok in H as (f1 & H1 & H). apply bind_ok in H1 as (h & H0 & H1). rewrite H0. cbn [bind].
  destruct (put_two Q h nm nm' v N fs fs' F f1 H1) as (f1' & -> & F1). cbn [bind]. apply (IH prs f1 f1' r F1 H).
Qed.

Section Fill.
Variables (e : env) (n : nat) (Q : text -> Prop) (G : Prop).
(** [G]: every series has a name *)
Definition knows (p' : dict) : Prop :=
  forall i s w, (i < n)%nat -> match get_name e w (recalled s (at_ p' i n_series_names) (at_ p' i n_composed) (at_ p' i n_context)) with Ok t => Q t | Err _ => ~ G end.

Lemma into_two w s nm cp cx fs fs' w1 r : Forall2 (rframe Q) fs fs' -> match get_name e w (recalled s nm cp cx) with Ok t => Q t | Err _ => ~ G end -> series_into e w s fs = (w1, Ok r) ->
  (exists r', series_into e w (recalled s nm cp cx) fs' = (w1, Ok r') /\ Forall2 (rframe Q) r r') \/ (~ G /\ exists x, series_into e w (recalled s nm cp cx) fs' = (w, Err x)).
Proof.
  intros F K H. unfold series_into in *. change (find (fun k => dcombo_accepts k (recalled s nm cp cx)) dcombos) with (find (fun k => dcombo_accepts k s) dcombos).
  destruct (find (fun k => dcombo_accepts k s) dcombos); [|discriminate H]. unfold get_data in *. rewrite values_recalled.
  destruct (get_name e w (recalled s nm cp cx)) as [nm'|x]; cbn [bind]; [|right; eauto].
  destruct (get_name e w s) as [nm0|x]; cbn [bind] in H; [|discriminate H]. destruct (get_values e w s) as [vls|x]; cbn [bind] in *; [|discriminate H].
  left. destruct vls as [|v vls]; [discriminate H|]. 
  change (touch_data w (recalled s nm cp cx)) with (touch_data w s). cbn [recalled sp_multi sp_th sp_al sp_ends sp_freq sp_starts sp_ta].
  cbn [map] in H |- *. 
  destruct (do t <- th_single (sp_multi s) (sp_th s); do line <- coord_line (sp_al s) t; match sp_ends s with None => Err EType | Some en => do prs <- series_prs e (touch_data w s) (sp_freq s) (sp_starts s) line en (sp_ta s) (sp_al s); Ok (line, en, prs) end) as [[[line en] prs]|x]; [|discriminate H].
  injection H as <- H. destruct (puts_two Q nm0 nm' K (v :: vls) prs fs fs' r F H) as (r' & E & F'). exists r'. split; auto. f_equal. exact E.
Qed.
Lemma fill_two : forall m i w p p' fs fs' w1 r, two n p p' -> knows p' -> (i + m <= n)%nat -> Forall2 (rframe Q) fs fs' -> fill_frames e m i w p fs = (w1, Ok r) ->
  (exists r', fill_frames e m i w p' fs' = (w1, Ok r') /\ Forall2 (rframe Q) r r') \/ (~ G /\ exists w2 x, fill_frames e m i w p' fs' = (w2, Err x)).
Proof.
  induction m as [|m IH]; intros i w p p' fs fs' w1 r T K I F H; cbn [fill_frames] in *.
  - injection H as <- <-. left. eauto.
  - rewrite (two_sp n p p' i T) by lia. destruct (series_sp p i) as [s|x]; [|discriminate H]. cbn [bind].
    destruct (series_into e w s fs) as [w2 [f2|x]] eqn:SI; [|discriminate H].
    destruct (into_two w s (at_ p' i n_series_names) (at_ p' i n_composed) (at_ p' i n_context) fs fs' w2 f2 F (K i s w ltac:(lia)) SI) as [(f2' & -> & F2)|(NG & x & ->)]; [|right; eauto].
    apply (IH (S i) w2 p p' f2 f2' w1 r T K); auto. lia.
Qed.
Lemma init_two : forall m i w p p' fs, two n p p' -> init_frames e m i w p' fs = init_frames e m i w p fs.
Proof.
  induction m as [|m IH]; intros i w p p' fs T; cbn [init_frames]; auto.
  assert (PQ : pr_query p' i = pr_query p i) by (unfold pr_query; rewrite !(two_get n p p' _ T) by reflexivity; reflexivity).
  rewrite PQ. destruct (pr_query p i) as [q|x]; auto. destruct (series_prs _ _ _ _ _ _ _ _) as [prs|x]; auto. destruct (foldM add_frame prs fs) as [f2|x]; auto.
Qed.
Lemma init_empty : forall m i w p fs w1 r, Forall (fun kf => f_cols (snd kf) = []) fs -> init_frames e m i w p fs = (w1, Ok r) -> Forall (fun kf => f_cols (snd kf) = []) r.
Proof.
  induction m as [|m IH]; intros i w p fs w1 r F H; cbn [init_frames] in H; [injection H as _ <-; auto|].
  destruct (pr_query p i) as [q|x]; [|discriminate H]. destruct (series_prs _ _ _ _ _ _ _ _) as [prs|x]; [|discriminate H]. destruct (foldM add_frame prs fs) as [f2|x] eqn:FM; [|discriminate H].
  eapply IH; [|exact H]. clear H. revert fs F FM. induction prs as [|pr prs IP]; intros fs F FM; cbn [foldM] in FM; [injection FM as <-; auto|].
  apply bind_ok in FM as (f1 & A & FM). apply (IP f1); auto. unfold add_frame in A. apply bind_ok in A as (h & _ & A). injection A as <-. destruct (frame_has h fs); auto. apply Forall_app. split; auto.
Qed.
Definition rdf (d d' : df) : Prop :=
  df_index d' = df_index d /\ df_data d' = df_data d /\ List.length (df_cols d') = List.length (df_cols d) /\ exists picks, Forall Q picks /\ column_names picks (df_cols d').
Lemma make_two pr cols cols' data d : List.length cols' = List.length cols -> make_df pr cols data = Ok d -> make_df pr cols' data = Ok (mkdf (df_index d) cols' (df_data d)) /\ df_cols d = cols.
Proof. intros L H. unfold make_df in *. rewrite L. destruct (_ && _); [|discriminate H]. injection H as <-. cbn. auto. Qed.
Lemma make_err pr cols cols' data x : List.length cols' = List.length cols -> make_df pr cols data = Err x -> make_df pr cols' data = Err x.
Proof. intros L H. unfold make_df in *. rewrite L. destruct (_ && _); [discriminate H|]. auto. Qed.
Lemma build_two a b d : rframe Q a b -> build_df (f_pr (snd a)) (f_cols (snd a)) (f_data (snd a)) = Ok d ->
  exists d', build_df (f_pr (snd b)) (f_cols (snd b)) (f_data (snd b)) = Ok d' /\ rdf d d'.
Proof.
  intros (_ & A & B & L & picks & C & D) H. rewrite A, B. 
  assert (X : forall pr d, make_df pr (f_cols (snd a)) (f_data (snd a)) = Ok d -> exists d', make_df pr (f_cols (snd b)) (f_data (snd a)) = Ok d' /\ rdf d d').
  { intros pr d0 M. destruct (make_two _ _ (f_cols (snd b)) _ _ L M) as [-> E]. eexists. split; [reflexivity|]. unfold rdf. cbn. rewrite E. eauto 8. }
  unfold build_df in *. destruct (text_eqb _ _); [|auto].
  destruct (make_df (f_pr (snd a)) (f_cols (snd a)) (f_data (snd a))) as [d0|x] eqn:M.
  - injection H as ->. destruct (X _ _ M) as (d' & -> & R). eauto.
  - rewrite (make_err _ _ (f_cols (snd b)) _ _ L M). destruct (pr_first _); [|discriminate H]. destruct (pr_last _); [|discriminate H]. auto.
Qed.
Lemma all_two w p p' w1 l : two n p p' -> knows p' -> get_data_all e w p = (w1, Ok l) ->
  (exists l', snd (get_data_all e w p') = Ok l' /\ Forall2 rdf l l') \/ (~ G /\ exists x, snd (get_data_all e w p') = Err x).
Proof.
  intros T K H. unfold get_data_all in *.
  assert (ZL : zip_len p' = zip_len p) by (unfold zip_len; cbn [mapM]; rewrite !(two_get n p p' _ T) by reflexivity; reflexivity).
  rewrite ZL. destruct (zip_len p) as [m|x]; [|discriminate H]. rewrite (init_two m 0 w p p' [] T). destruct (init_frames e m 0 w p []) as [w2 [fs|x]] eqn:IN; [|discriminate H].
  rewrite (two_get n p p' n_headers_coord T eq_refl). pose proof T as (L & _). destruct (L n_headers_coord) as (hs & D & LH); [cbn; tauto|]. rewrite (dgetN_of _ _ _ D) in *. cbn [py_len] in *.
  destruct (fill_frames e (List.length hs) 0 w2 p fs) as [w3 [f3|x]] eqn:FL; [|discriminate H]. cbn [bind] in H. injection H as <- H.
  assert (E0 : Forall2 (rframe Q) fs fs).
  { assert (E : Forall (fun kf => f_cols (snd kf) = []) fs) by (eapply init_empty; [|exact IN]; constructor). clear - E. induction E as [|a l A E IH]; constructor; auto.
    split; auto. split; auto. split; auto. split; auto. exists []. split; auto. rewrite A. constructor. }
  destruct (fill_two (List.length hs) 0 w2 p p' fs fs w3 f3 T K ltac:(lia) E0 FL) as [(f3' & -> & F3)|(NG & w4 & x & ->)]; [|right; split; auto; exists x; reflexivity].
  left. cbn [snd bind]. clear - F3 H. revert l H. induction F3 as [|a b f g R F IH]; intros l H; cbn [mapM] in *; [injection H as <-; exists []; auto|].
  apply bind_ok in H as (d & B & H). apply bind_ok in H as (ds & M & H). injection H as <-. destruct (build_two a b d R B) as (d' & -> & RD). destruct (IH ds M) as (ds' & E & F2). cbn [bind]. rewrite E. cbn [bind].
  eexists. split; [reflexivity|]. constructor; auto.
Qed.
Lemma full_two w p p' l : (0 < n)%nat -> two n p p' -> knows p' -> get_num_series p = Some n -> get_num_series p' = Some n -> snd (attempt_full e w p) = Ok l ->
  (exists l', snd (attempt_full e w p') = Ok l' /\ Forall2 rdf l l') \/ (~ G /\ exists x, snd (attempt_full e w p') = Err x).
Proof.
  intros N T K NS NS' H. unfold attempt_full in *. destruct (clean_data e w p) as [[w1 p1] [[]|x]] eqn:C; [|discriminate H].
  destruct (data_two n e w p p' w1 p1 T N NS NS' C) as (p1' & -> & T1 & KP). destruct (get_data_all e w1 p1) as [w2 r] eqn:A. cbn [snd] in H. subst r.
  assert (K1 : knows p1').
  { intros i s w0 I. specialize (K i s w0 I). unfold at_ in *. unfold dgetN in *. rewrite !KP by discriminate. auto. }
  pose proof (all_two w1 p1 p1' w2 l T1 K1 A) as X. destruct (get_data_all e w1 p1') as [w3 r3]. exact X.
Qed.
End Fill.

(** ** The calls *)
Lemma frames_two (R : df -> df -> Prop) l l' : Forall2 R l l' -> each_frame R (unwrap_result (DL (map DF l))) (unwrap_result (DL (map DF l'))).
Proof.
  intros F. destruct F as [|a b l l' H F]; [apply (ef_more R [] []); constructor|]. destruct F as [|c d l l' H2 F]; [constructor; auto|]. cbn [map unwrap_result].
  apply (ef_more R (a :: c :: l) (b :: d :: l')). auto.
Qed.
Lemma each_weaken (R R' : df -> df -> Prop) x y : (forall a b, R a b -> R' a b) -> each_frame R x y -> each_frame R' x y.
Proof. intros W [d d' H|l l' H]; constructor; auto. induction H; constructor; auto. Qed.
Lemma call_two e uni json st wb q safe preserve name i n p u p' u' x (Q : text -> Prop) (G : Prop) :
  wb_ok st wb -> resolves uni strip (names_of st wb) q name -> first_such (fun i => title (sheet st i) = name) wb i ->
  (0 < n)%nat -> filled n p -> in_store st u -> object_of json st u p -> filled n p' -> in_store st u' -> object_of json st u' p' -> called_otherwise p p' -> knows e n Q G p' ->
  answered (snd (get_data_frames e uni json st wb u q safe preserve)) = Ok x ->
  (exists x', answered (snd (get_data_frames e uni json st wb u' q safe preserve)) = Ok x' /\ each_frame (rdf Q) x x') \/
  (~ G /\ exists y, answered (snd (get_data_frames e uni json st wb u' q safe preserve)) = Err y).
Proof.
  intros WB RES FS N [X L] IS OB [X' L'] IS' OB' CO K H.
  rewrite (call_full e uni json st wb q safe preserve name i WB RES FS u p IS OB (complete n p N X L)) in H.
  rewrite (call_full e uni json st wb q safe preserve name i WB RES FS u' p' IS' OB' (complete n p' N X' L')).
  apply bind_ok in H as (l & A & H). injection H as <-.
  destruct (full_two e n Q G _ p p' l N (conj L (conj L' CO)) K (num_series n p N X L) (num_series n p' N X' L') A) as [(l' & -> & F)|(NG & y & ->)].
  - left. eexists. split; [reflexivity|]. apply frames_two; auto.
  - right. split; auto. exists y. reflexivity.
Qed.
Lemma c86_values e uni json st wb q safe preserve name i n p u p' u' x x' :
  wb_ok st wb -> resolves uni strip (names_of st wb) q name -> first_such (fun i => title (sheet st i) = name) wb i ->
  (0 < n)%nat -> filled n p -> in_store st u -> object_of json st u p -> filled n p' -> in_store st u' -> object_of json st u' p' -> called_otherwise p p' ->
  answered (snd (get_data_frames e uni json st wb u q safe preserve)) = Ok x -> answered (snd (get_data_frames e uni json st wb u' q safe preserve)) = Ok x' ->
  each_frame same_values x x'.
Proof.
  intros WB RES FS N F1 IS OB F2 IS' OB' CO H H'.
  destruct (call_two e uni json st wb q safe preserve name i n p u p' u' x (fun _ => True) False WB RES FS N F1 IS OB F2 IS' OB' CO) as [(y & E & R)|(_ & y & E)]; auto.
  - intros j s w J. destruct (get_name _ _ _); auto.
  - rewrite E in H'. injection H' as ->. eapply each_weaken; [|exact R]. intros a b (A & B & C & _). split; auto.
  - rewrite E in H'. discriminate.
Qed.
Lemma c86_named e uni json st wb q safe preserve name i n p u p' u' x names :
  wb_ok st wb -> resolves uni strip (names_of st wb) q name -> first_such (fun i => title (sheet st i) = name) wb i ->
  (0 < n)%nat -> filled n p -> in_store st u -> object_of json st u p -> filled n p' -> in_store st u' -> object_of json st u' p' -> called_otherwise p p' -> all_named names p' ->
  answered (snd (get_data_frames e uni json st wb u q safe preserve)) = Ok x ->
  exists x', answered (snd (get_data_frames e uni json st wb u' q safe preserve)) = Ok x' /\ each_frame (fun d d' => same_values d d' /\ columns_from names d') x x'.
Proof.
  intros WB RES FS N F1 IS OB F2 IS' OB' CO [AN NE] H.
  destruct (call_two e uni json st wb q safe preserve name i n p u p' u' x (fun t => In t names) True WB RES FS N F1 IS OB F2 IS' OB' CO) as [(y & E & R)|(NG & _)]; auto; [| |destruct (NG I)].
  - intros j s w J. assert (LN : List.length names = n).
    { destruct F2 as [_ L]. destruct (L n_series_names) as (l & D & LL); [cbn; tauto|]. change n_series_names with (pname "series_names") in D. rewrite AN in D. injection D as <-. rewrite map_length in LL. auto. }
    assert (NM : exists t, at_ p' j n_series_names = VStr t /\ In t names /\ t <> []).
    { unfold at_. change n_series_names with (pname "series_names"). rewrite (dgetN_of _ _ _ AN). change VNone with VNone. exists (nth j names []). split; [|split].
      - rewrite (nth_indep _ VNone (VStr [])) by (rewrite map_length; lia). apply map_nth.
      - apply nth_In. lia.
      - rewrite Forall_forall in NE. apply NE. apply nth_In. lia. }
    destruct NM as (t & -> & T1 & T2). unfold get_name. cbn [recalled sp_name]. destruct t as [|c t]; [congruence|]. cbn. auto.
  - exists y. split; auto. eapply each_weaken; [|exact R]. intros a b (A & B & C & D). split; [split; auto|]. destruct D as (picks & P1 & P2). exists picks. auto.
Qed.
