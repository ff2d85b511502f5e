(** Proofs for C83: the frames. *)
From Verif Require Import Base BaseFacts Cal Coord XlMethods Params ParseTime TimeIndex GetData PeriodRange DataFrame Scrape SpecParams SpecFrames FrameProofs FrameProofs2 ScrapeFacts SpecSelect SelectProofs SelectProofs2.
Local Open Scope Z_scope.

Definition add_names (gs : list (text * list spec_float)) (cols : list text) : list text := fold_left (fun c g => add_name (fst g) c) gs cols.

Section Get.
Variables (e : env) (w : worksheet) (n : nat) (q : dict) (c : ascii).
Hypothesis Q : core n q.
Hypothesis N : (0 < n)%nat.
Hypothesis F : dget n_frequency q = Some (VList (repeat (VStr [c]) n)).

Lemma index_at js q' k : series_at js q q' -> In k index_params -> exists v, dget k q = Some (VList (repeat v n)) /\ dgetN k q' = VList (repeat v (List.length js)).
Proof.
  intros S0 I. destruct Q as (A & _). destruct (A k I) as (v & D). exists v. split; auto. destruct (S0 k) as (l & l' & D1 & D2 & P); [apply in_or_app; auto|].
  rewrite D in D1. injection D1 as <-. rewrite (dgetN_of _ _ _ D2), (picked_repeat _ _ _ _ P). auto.
Qed.
Lemma repeat_at (v : pyval) m i : (i < m)%nat -> py_index (VList (repeat v m)) i = Ok v.
Proof. intros I. cbn [py_index]. rewrite (nth_error_nth' _ v) by (rewrite repeat_length; lia). f_equal. apply nth_repeat. Qed.

Definition query : res prq := pr_query q 0.
Lemma query_at js q' i : series_at js q q' -> (i < List.length js)%nat -> pr_query q' i = query.
Proof.
  intros S0 I. unfold query, pr_query.
  assert (X : forall k, In k index_params -> py_index (dgetN k q') i = py_index (dgetN k q) 0).
  { intros k K. destruct (index_at js q' k S0 K) as (v & D & ->). rewrite (dgetN_of _ _ _ D), !repeat_at by auto. auto. }
  assert (T : truthy (dgetN n_time_multicolumn q') = truthy (dgetN n_time_multicolumn q)).
  { destruct (index_at js q' n_time_multicolumn S0) as (v & D & ->); [cbn; tauto|]. rewrite (dgetN_of _ _ _ D). destruct n; [lia|]. destruct (List.length js); [lia|]. reflexivity. }
  rewrite T, !X by (cbn; tauto). reflexivity.
Qed.
Lemma zip_at js q' : series_at js q q' -> zip_len q' = Ok (List.length js).
Proof.
  intros S0. unfold zip_len. cbn [mapM].
  assert (X : forall k, In k index_params -> py_len (dgetN k q') = Ok (List.length js)).
  { intros k K. destruct (index_at js q' k S0 K) as (v & D & ->). cbn [py_len]. rewrite repeat_length. auto. }
  rewrite !X by (cbn; tauto). cbn [bind hd fold_right]. f_equal. lia.
Qed.
Lemma headers_at js q' : series_at js q q' -> py_len (dgetN n_headers_coord q') = Ok (List.length js).
Proof.
  intros S0. destruct (S0 n_headers_coord) as (l & l' & D1 & D2 & P); [cbn; tauto|]. rewrite (dgetN_of _ _ _ D2). cbn [py_len]. rewrite (picked_length _ _ _ P). auto.
Qed.

(** the period range they share *)
Definition ranges_of (w : worksheet) : res (list prange) := do x <- query; series_prs e w (q_freq x) (q_starts x) (q_line x) (q_ends x) (q_ta x) (q_al x).
Lemma one_prs w1 w2 s line en ta al : same_cells w1 w2 -> series_prs e w2 [c] s line en ta al = series_prs e w1 [c] s line en ta al.
Proof. intros S0. unfold series_prs. cbn [accepts_freq List.length Nat.ltb Nat.leb Nat.eqb]. unfold single_prs. rewrite !(axis_read_cells w1 w2 S0). auto. Qed.
Lemma query_freq x : query = Ok x -> q_freq x = [c].
Proof.
  unfold query, pr_query. rewrite (dgetN_of _ _ _ F), repeat_at by auto. cbn [bind as_text]. intros H.
  repeat (apply bind_ok in H as (? & _ & H)). injection H as <-. reflexivity.
Qed.
Lemma prs_one w1 x prs : query = Ok x -> series_prs e w1 (q_freq x) (q_starts x) (q_line x) (q_ends x) (q_ta x) (q_al x) = Ok prs -> exists pr, prs = [pr].
Proof.
  intros H. rewrite (query_freq x H). unfold series_prs. cbn [accepts_freq List.length Nat.ltb Nat.leb Nat.eqb]. unfold single_prs. intros R. repeat (apply bind_ok in R as (? & _ & R)). injection R as <-. eauto.
Qed.
Lemma init_rest x pr h js q' : series_at js q q' -> query = Ok x -> series_prs e w (q_freq x) (q_starts x) (q_line x) (q_ends x) (q_ta x) (q_al x) = Ok [pr] -> pr_hash pr = Ok h ->
  forall m i w1, (i + m <= List.length js)%nat -> same_cells w w1 ->
  exists w2, init_frames e m i w1 q' [(h, mkframe pr [] [])] = (w2, Ok [(h, mkframe pr [] [])]) /\ same_cells w w2.
Proof.
  intros S0 QX P H. induction m as [|m IH]; intros i w1 I SC; cbn [init_frames]; [eauto|].
  rewrite (query_at js q' i S0) by lia. rewrite QX. rewrite (query_freq x QX) in *. rewrite (one_prs w w1) by auto. rewrite P. cbn [foldM]. unfold add_frame. rewrite H. cbn [bind frame_has existsb fst].
  replace (hash_eqb h h) with true by (symmetry; apply hash_eqb_eq; auto). cbn [orb bind]. apply IH; [lia|]. eapply same_trans; [exact SC|apply touch_prs_same].
Qed.

(** what a series adds *)
Definition adds (j : nat) : res (text * list spec_float) :=
  do s <- series_sp q j;
  match find (fun k => dcombo_accepts k s) dcombos with
  | None => Err EUnbound
  | Some _ => do nvs <- get_data e w s; match nvs with [] => Err EIndex | nv :: _ => do t <- th_single (sp_multi s) (sp_th s); Ok nv end
  end.
(** the query and the series say the same *)
Lemma body_query f s : body f = Ok s -> forall x fr ds th de ta al,
  f n_frequency = fr -> f n_data_starts = ds -> f n_time_header = th -> f n_data_ends = de -> f n_time_alignment = ta -> f n_alignment = al ->
  (do fr' <- as_text fr; do ds' <- as_int ds; do th' <- as_theader th; do _ <- assert_ (truthy de); do de' <- as_int de; do ta' <- as_int ta; do al' <- as_align al;
   do _ <- assert_ (ds' <? de'); do t <- th_single true th'; do line <- coord_line al' t; Ok (mkprq fr' ds' line de' ta' al')) = Ok x ->
  sp_freq s = q_freq x /\ sp_starts s = q_starts x /\ sp_ends s = Some (q_ends x) /\ sp_ta s = q_ta x /\ sp_al s = q_al x /\
  forall t, th_single (sp_multi s) (sp_th s) = Ok t -> coord_line (sp_al s) t = Ok (q_line x).
Proof.
  intros B x fr ds th de ta al <- <- <- <- <- <-. unfold body in B.
  assert (X : forall g, sp_of (map (fun k => (k, g k)) PARAM_NAMES) =
    do al' <- as_align (g n_alignment); do hc' <- as_text (g n_headers_coord); do ds' <- as_int (g n_data_starts);
    do de' <- (if truthy (g n_data_ends) then do z <- as_int (g n_data_ends); Ok (Some z) else Ok None);
    do ta' <- as_int (g n_time_alignment); do th' <- as_theader (g n_time_header); do fr' <- as_text (g n_frequency);
    Ok (mksp al' (g n_series_names) hc' (g n_composed) (g n_context) ds' de' (truthy (g n_continuity)) (truthy (g n_blank_rows)) (truthy (g n_missings)) (g n_missing_value) ta'
        (truthy (g n_time_multicolumn)) th' (truthy (g n_time_composed)) fr')) by (intros g; reflexivity).
  rewrite X in B. clear X. destruct (as_align (f n_alignment)) as [al|]; cbn [bind] in *; [|discriminate B]. destruct (as_text (f n_headers_coord)); cbn [bind] in *; [|discriminate B].
  destruct (as_int (f n_data_starts)) as [ds|]; cbn [bind] in *; [|discriminate B]. destruct (as_text (f n_frequency)) as [fr|]; cbn [bind] in *.
  2:{ intros Y. discriminate Y. }
  intros Y. destruct (as_theader (f n_time_header)) as [th|]; cbn [bind] in *; [|discriminate Y]. destruct (truthy (f n_data_ends)); cbn [assert_ bind] in *; [|discriminate Y].
  destruct (as_int (f n_data_ends)) as [de|]; cbn [bind] in *; [|discriminate Y]. destruct (as_int (f n_time_alignment)) as [ta|]; cbn [bind] in *; [|discriminate Y].
  destruct (ds <? de); cbn [assert_ bind] in *; [|discriminate Y]. destruct (th_single true th) as [t|] eqn:T; cbn [bind] in *; [|discriminate Y].
  destruct (coord_line al t) as [line|] eqn:L; cbn [bind] in *; [|discriminate Y]. injection Y as <-. injection B as <-. cbn. repeat (split; [reflexivity|]).
  intros t' T'. assert (t' = t). { match type of T' with th_single ?b _ = _ => destruct b end; [congruence|]. destruct th as [u|[|u us]]; cbn in T, T'; congruence. } subst. auto.
Qed.
Lemma same_query j s x : (j < n)%nat -> series_sp q j = Ok s -> query = Ok x ->
  sp_freq s = q_freq x /\ sp_starts s = q_starts x /\ sp_ends s = Some (q_ends x) /\ sp_ta s = q_ta x /\ sp_al s = q_al x /\
  forall t, th_single (sp_multi s) (sp_th s) = Ok t -> coord_line (sp_al s) t = Ok (q_line x).
Proof.
  intros J SS QX. rewrite (sp_at n q j Q J) in SS.
  assert (X : forall k, In k index_params -> py_index (dgetN k q) 0 = Ok (at_ q j k)).
  { intros k K. destruct (at_index n q Q k K) as (v & D & E). rewrite (dgetN_of _ _ _ D), repeat_at by auto. f_equal. symmetry. apply E. auto. }
  apply (body_query (at_ q j) s SS x _ _ _ _ _ _ eq_refl eq_refl eq_refl eq_refl eq_refl eq_refl).
  unfold query, pr_query in QX. rewrite !X in QX by (cbn; tauto). cbn [bind] in QX.
  replace (truthy (dgetN n_time_multicolumn q)) with true in QX; [exact QX|].
  destruct (at_index n q Q n_time_multicolumn) as (v & D & E); [cbn; tauto|]. rewrite (dgetN_of _ _ _ D). destruct n; [lia|reflexivity].
Qed.
Lemma into_one j s x pr h w1 cols data : (j < n)%nat -> series_sp q j = Ok s -> query = Ok x ->
  series_prs e w (q_freq x) (q_starts x) (q_line x) (q_ends x) (q_ta x) (q_al x) = Ok [pr] -> pr_hash pr = Ok h -> same_cells w w1 ->
  exists w2, same_cells w w2 /\ series_into e w1 s [(h, mkframe pr cols data)] = (w2, do g <- adds j; Ok [(h, mkframe pr (add_name (fst g) cols) (data ++ [snd g]))]).
Proof.
  intros J SS QX P H SC. destruct (same_query j s x J SS QX) as (E1 & E2 & E3 & E4 & E5 & E6). unfold adds. rewrite SS. cbn [bind]. unfold series_into.
  destruct (find (fun k => dcombo_accepts k s) dcombos); [|exists w1; auto]. rewrite <- (get_data_cells e w w1 s SC). destruct (get_data e w s) as [nvs|y]; cbn [bind]; [|exists w1; auto].
  destruct nvs as [|nv nvs]; [exists w1; auto|]. assert (S1 : same_cells w (touch_data w1 s)) by (eapply same_trans; [exact SC|apply touch_data_same]).
  destruct (th_single (sp_multi s) (sp_th s)) as [t|y] eqn:T; cbn [bind]; [|exists (touch_data w1 s); auto].
  rewrite (E6 t eq_refl). cbn [bind]. rewrite E3, E1, E2, E4, E5. rewrite (query_freq x QX) in *. rewrite (one_prs w (touch_data w1 s)), P by auto. cbn [bind].
  eexists. split; [|]. 2:{ f_equal. cbn [combine foldM fst snd]. rewrite H. cbn [bind put_values]. replace (hash_eqb h h) with true by (symmetry; apply hash_eqb_eq; auto). cbn [bind f_pr f_cols f_data]. reflexivity. }
  eapply same_trans; [exact S1|apply touch_prs_same].
Qed.
Lemma fill_all x pr h js q' : series_at js q q' -> query = Ok x -> series_prs e w (q_freq x) (q_starts x) (q_line x) (q_ends x) (q_ta x) (q_al x) = Ok [pr] -> pr_hash pr = Ok h ->
  forall ks i w1 cols data, (forall k, nth_error ks k = nth_error js (i + k)) -> same_cells w w1 ->
  exists w2, fill_frames e (List.length ks) i w1 q' [(h, mkframe pr cols data)] = (w2, do gs <- mapM adds ks; Ok [(h, mkframe pr (add_names gs cols) (data ++ map snd gs))]).
Proof.
  intros S0 QX P H. induction ks as [|j ks IH]; intros i w1 cols data K SC; cbn [fill_frames List.length mapM].
  - exists w1. cbn. rewrite app_nil_r. auto.
  - assert (J : nth_error js i = Some j). { specialize (K 0%nat). cbn in K. replace (i + 0)%nat with i in K by lia. auto. }
    destruct (series_sp_at n q js q' i j Q S0 J) as [-> JN]. destruct (series_sp q j) as [s|y] eqn:SS.
    2:{ exists w1. unfold adds. rewrite SS. reflexivity. }
    destruct (into_one j s x pr h w1 cols data JN SS QX P H SC) as (w2 & SC2 & ->). destruct (adds j) as [g|y]; cbn [bind]; [|eauto].
    destruct (IH (S i) w2 (add_name (fst g) cols) (data ++ [snd g])) as (w3 & ->); [|auto|].
    + intros k. specialize (K (S k)). cbn in K. rewrite K. f_equal. lia.
    + exists w3. f_equal. destruct (mapM adds ks) as [gs|y]; cbn [bind]; [|reflexivity]. cbn [map fst snd add_names fold_left]. rewrite <- app_assoc. reflexivity.
Qed.
Lemma all_shape :
  (exists x, forall js q', js <> [] -> series_at js q q' -> snd (get_data_all e w q') = Err x) \/
  (exists pr, forall js q', js <> [] -> series_at js q q' -> snd (get_data_all e w q') = (do gs <- mapM adds js; do d <- build_df pr (add_names gs []) (map snd gs); Ok [d])).
Proof.
  assert (X : forall js q', js <> [] -> series_at js q q' -> exists m, List.length js = S m /\ get_data_all e w q' =
    let '(w1, r1) := init_frames e (S m) 0 w q' [] in
      match r1 with
      | Err x => (w1, Err x)
      | Ok fs => let '(w2, r2) := fill_frames e (S m) 0 w1 q' fs in
              (w2, do fs' <- r2; mapM (fun kf => build_df (f_pr (snd kf)) (f_cols (snd kf)) (f_data (snd kf))) fs')
      end).
  { intros js q' NE S0. unfold get_data_all. rewrite (zip_at js q' S0), (headers_at js q' S0). destruct js as [|j js]; [congruence|]. exists (List.length js). split; auto. }
  destruct query as [x|y] eqn:QX.
  2:{ left. exists y. intros js q' NE S0. destruct (X js q' NE S0) as (m & L & ->). cbn [init_frames]. rewrite (query_at js q' 0 S0), QX by lia. reflexivity. }
  destruct (series_prs e w (q_freq x) (q_starts x) (q_line x) (q_ends x) (q_ta x) (q_al x)) as [prs|y] eqn:P.
  2:{ left. exists y. intros js q' NE S0. destruct (X js q' NE S0) as (m & L & ->). cbn [init_frames]. rewrite (query_at js q' 0 S0), QX by lia. rewrite P. reflexivity. }
  destruct (prs_one w x prs QX P) as (pr & ->). destruct (pr_hash pr) as [h|y] eqn:H.
  2:{ left. exists y. intros js q' NE S0. destruct (X js q' NE S0) as (m & L & ->). cbn [init_frames]. rewrite (query_at js q' 0 S0), QX by lia. rewrite P. cbn [foldM]. unfold add_frame. rewrite H. reflexivity. }
  right. exists pr. intros js q' NE S0. destruct (X js q' NE S0) as (m & L & ->). cbn [init_frames]. rewrite (query_at js q' 0 S0), QX by lia. rewrite P. cbn [foldM]. unfold add_frame. rewrite H. cbn [bind frame_has existsb app].
  destruct (init_rest x pr h js q' S0 QX P H m 1 (touch_prs w (q_freq x) (q_starts x) (q_line x) (q_ends x) (q_ta x) (q_al x))) as (w1 & -> & SC); [lia|apply touch_prs_same|].
  destruct (fill_all x pr h js q' S0 QX P H js 0 w1 [] []) as (w2 & E); [reflexivity|exact SC|]. rewrite <- L, E. cbn [snd]. destruct (mapM adds js) as [gs|y]; cbn [bind]; [|reflexivity].
  cbn [mapM snd f_pr f_cols f_data app]. destruct (build_df pr (add_names gs []) (map snd gs)); reflexivity.
Qed.
End Get.

Lemma full_shape e w n p c : core n p -> (0 < n)%nat -> dget n_frequency p = Some (VList (repeat (VStr [c]) n)) ->
  (exists x, forall js p', good p js p' -> snd (attempt_full e w p') = Err x) \/
  (exists pr g, forall js p', good p js p' -> snd (attempt_full e w p') = (do gs <- mapM g js; do d <- build_df pr (add_names gs []) (map snd gs); Ok [d])).
Proof.
  intros C N F. destruct (clean_shape e w n p C N) as [(x & E)|(w1 & v & E)].
  - left. exists x. intros js p' G. destruct (E js p' G) as (w1 & q & E'). unfold attempt_full. rewrite E'. reflexivity.
  - destruct (all_shape e w1 n _ c (with_ends n p v C) N) as [(x & H)|(pr & H)]; [rewrite dget_dset_other by discriminate; auto| |].
    + left. exists x. intros js p' G. destruct (E js p' G) as (q' & E' & S0). unfold attempt_full. rewrite E'. destruct G as [NE _]. specialize (H js q' NE S0).
      destruct (get_data_all e w1 q') as [w2 r]. exact H.
    + right. eexists pr, _. intros js p' G. destruct (E js p' G) as (q' & E' & S0). unfold attempt_full. rewrite E'. destruct G as [NE _]. specialize (H js q' NE S0).
      destruct (get_data_all e w1 q') as [w2 r]. exact H.
Qed.
