(** Two sheets that agree where it counts: the attempts and the call (C81). *)
From Coq Require Import ZifyBool ZifyNat.
From Verif Require Import Base BaseFacts Cal Coord CoordFacts XlMethods Params ParamsFacts ParseTime TimeIndex GetData PeriodRange Attempts AttemptsProofs DataFrame Scrape Xlseries Session
  SpecCoord SpecCoordFacts SpecParams SpecEnd SpecScrape SpecReach ScrapeFacts ScrapeProofs ScrapeProofs2 FrameProofs4 EndCall SessionProofs SoundProofs ReachProofs ReachProofs2.
Local Open Scope Z_scope.

(** ** The attempts made of an object *)
Definition near (q : dict) : Prop := forall i v z, py_index (dgetN n_time_alignment q) i = Ok v -> as_int v = Ok z -> -1 <= z <= 1.
Lemma near_float x z n : py_eq (VFloat x) (VInt z) = true -> as_int (VFloat x) = Ok n -> n = z.
Proof.
  cbn [py_eq as_int]. intros E H. apply bind_ok in H as (y & _ & H). destruct (float_eq_Z x y) eqn:F; [|discriminate]. injection H as <-. revert E F.
  unfold float_eq_Z. destruct x as [s|s| |s m ex]; try discriminate; try lia.
  set (sm := if s then _ else _). destruct (0 <=? ex) eqn:X; intros E F; [lia|].
  assert (0 < 2 ^ (- ex)) by (apply Z.pow_pos_nonneg; lia). apply Z.eqb_eq in E. apply Z.eqb_eq in F. nia.
Qed.
Lemma near_value v z : existsb (py_eq v) [VInt (-1); VInt 0; VInt 1] = true -> as_int v = Ok z -> -1 <= z <= 1.
Proof.
  cbn [existsb]. intros E A. rewrite !orb_true_iff in E. destruct v; cbn in A; try discriminate.
  - cbn in E. injection A as <-. destruct b; cbn; lia.
  - cbn in E. injection A as <-. lia.
  - destruct E as [E|[E|[E|E]]]; try discriminate; apply (near_float _ _ z) in E; auto; lia.
Qed.
Lemma near_set q v q' : set_item q n_time_alignment v = (q', Ok tt) -> near q'.
Proof.
  unfold set_item. change (text_eqb n_time_alignment n_context) with false. change (text_eqb n_time_alignment n_headers_coord) with false. cbn [andb].
  destruct (set_general q n_time_alignment v) as [p|] eqn:G; [|discriminate]. intros H. injection H as <-. unfold set_general in G.
  apply bind_ok in G as (good & GV & G). destruct good.
  - injection G as <-. unfold near, dgetN. rewrite dget_dset_same. intros i x z X. unfold valid_param_list in GV.
    destruct v as [| | | | | |l| |]; try discriminate GV. destruct (get_num_series q) as [n|]; [|discriminate GV]. destruct (Nat.eqb (List.length l) n); [|discriminate GV].
    cbn [py_index] in X. destruct (nth_error l i) as [y|] eqn:N; [|discriminate X]. injection X as ->. apply nth_error_In in N. destruct l as [|a l]; [destruct N|].
    change (valid_values n_time_alignment) with (Ok [VInt (-1); VInt 0; VInt 1]) in GV. cbn [bind] in GV. assert (G2 : forallb (fun x0 : pyval => valid_param_value x0 [VInt (-1); VInt 0; VInt 1]) (a :: l) = true) by congruence. rewrite forallb_forall in G2. apply G2 in N. apply near_value. exact N.
  - change (valid_values n_time_alignment) with (Ok [VInt (-1); VInt 0; VInt 1]) in G. cbn [bind] in G.
    destruct (valid_param_value v [VInt (-1); VInt 0; VInt 1]) eqn:V; [|discriminate]. cbn [negb] in G.
    unfold apply_to_all in G. change (text_eqb n_time_alignment n_time_header) with false in G. change (text_eqb n_time_alignment n_missing_value) with false in G. cbn [bind] in G. injection G as <-.
    unfold near, dgetN. rewrite dget_dset_same. intros i x z X. assert (x = v).
    { unfold apply_to_all_gen in X. destruct v; try discriminate V; cbn [is_none andb] in X; destruct (ns_pos (get_num_series q)); cbn [py_index] in X; try discriminate X;
      match type of X with context [nth_error ?l ?j] => destruct (nth_error l j) eqn:N; [|discriminate X]; injection X as ->; apply nth_error_In in N; apply repeat_spec in N; auto end. }
    subst x. apply near_value. exact V.
Qed.
Lemma near_items : forall comb q q', set_items q comb = Ok q' -> (forall k v, In (k, v) comb -> k <> n_headers_coord) -> near q -> near q'.
Proof.
  induction comb as [|[k v] comb IH]; intros q q' H C N; cbn [set_items] in H; [injection H as <-; auto|].
  destruct (text_eqb k n_time_alignment) eqn:K.
  - apply text_eqb_eq in K. subst k. destruct (set_item q n_time_alignment v) as [q1 [[]|]] eqn:SI; [|discriminate]. eapply IH; eauto; [intros; eapply C; right; eauto|eapply near_set; eauto].
  - assert (NK : k <> n_headers_coord) by (eapply C; left; eauto). assert (KT : n_time_alignment <> k) by (intros E; subst k; discriminate).
    pose proof (set_item_only q k v n_time_alignment NK KT) as E. destruct (set_item q k v) as [q1 [[]|]]; [|discriminate]. cbn [fst] in E. eapply IH; eauto; [intros; eapply C; right; eauto|].
    unfold near, dgetN in *. rewrite E. exact N.
Qed.
Lemma inside_refl p : inside p p.
Proof.
  split; auto.
  - intros E i v z. rewrite E. discriminate.
  - intros i z ((SV & _) & _). exact SV.
  - intros [A _]. exact A.
Qed.
Lemma wanted k : dget k DEFAULT_VALUES <> None -> match vget k VALID_VALUES with Some vv => negb (none_in vv) | None => false end = true -> In k searched.
Proof.
  intros D V. assert (B : text_in k (map fst DEFAULT_VALUES) = true).
  { apply text_in_In. destruct (dget k DEFAULT_VALUES) eqn:E; [|congruence]. apply dget_In in E. apply in_map_iff. exists (k, p). split; [reflexivity|exact E]. }
  apply text_in_In in B. apply text_in_In. revert V. cbn in B. repeat destruct B as [<-|B]; try destruct B; vm_compute; auto.
Qed.
Lemma inside_attempt p l a : discover_parameters p = Ok l -> In a l -> inside p a.
Proof.
  intros H I. pose proof (attempt_only _ _ _ H I) as K. unfold discover_parameters in H. apply bind_ok in H. destruct H as (c & _ & H).
  destruct c; [injection H as <-; destruct I as [<-|[]]; apply inside_refl|].
  unfold generate_attempts in H. destruct (get_missings p) as [|nm names] eqn:G; [injection H as <-; destruct I as [<-|[]]; apply inside_refl|]. rewrite <- G in H.
  apply bind_ok in H. destruct H as (md & M & H). apply bind_ok in H. destruct H as (combs & C & H). apply mapM_Forall2 in H.
  apply In_nth_error in I. destruct I as (i & I). destruct (Forall2_nth_r _ _ _ _ _ H I) as (cb & Icb & E). apply nth_error_In in Icb.
  apply bind_ok in E. destruct E as (np & S & E). apply bind_ok in E. destruct E as (b & _ & E). apply bind_ok in E. destruct E as (u & _ & E). injection E as <-.
  assert (J : forall k v, In (k, v) cb -> k <> n_headers_coord /\ dgetN k p = VNone /\ In k searched).
  { intros k v J. destruct (combos_keys _ _ _ _ C _ _ _ Icb J) as [J1 J2]. rewrite (missings_names _ _ M) in J1. unfold get_missings in J1. apply filter_In in J1. destruct J1 as [_ J1].
    unfold is_missing in J1. apply andb_true_iff in J1. destruct J1 as [J1 J3]. split; [intros ->; apply J2; reflexivity|]. split; [destruct (dgetN k p); try discriminate; auto|]. apply wanted; auto. }
  assert (EE : dgetN n_data_ends np = dgetN n_data_ends p) by (unfold dgetN; rewrite K; auto).
  split.
  - intros k N D. unfold dgetN. rewrite (set_items_only k _ _ _ S); auto. intros k0 v0 J0. destruct (J _ _ J0) as (J1 & J2 & J3). split; auto. intros ->. destruct D; contradiction.
  - intros E. apply (near_items _ _ _ S); [intros k v J0; apply (J _ _ J0)|]. intros j v z. rewrite E. discriminate.
  - intros j z ((SV & _) & _). unfold series_value in *. change (pname "data_ends") with n_data_ends in SV. rewrite EE. exact SV.
  - intros [A _] j v SV. apply (A j v). unfold series_value in *. change (pname "data_ends") with n_data_ends. rewrite <- EE. exact SV.
Qed.

(** ** Sheets *)
Lemma alike_agree p w w' : alike p w w' -> exists SZ : Prop, (SZ \/ all_ends_given p) /\ agree (counts p) SZ w w'.
Proof.
  intros [S [Z|(A & _)]]; [exists True|exists False]; split; auto; split; auto. tauto.
Qed.
Lemma alike_copy p w w' : alike p w w' -> alike p (make_ws_copy w) (make_ws_copy w').
Proof.
  intros [S Z]. split.
  - intros r c C. specialize (S r c C). cbn [make_ws_copy cell]. destruct Z as [[Z1 Z2]|(A & B & B')].
    + rewrite Z1, Z2, S. reflexivity.
    + assert (X : forall v : worksheet, bounded v -> (if (1 <=? r) && (r <=? max_row v) && (1 <=? c) && (c <=? max_col v) then cell v r c else VNone) = cell v r c).
      { intros v Bv. specialize (Bv r c). destruct (cell v r c) eqn:E; destruct ((1 <=? r) && (r <=? max_row v) && (1 <=? c) && (c <=? max_col v)) eqn:T; auto; assert (VNone <> VNone -> False) by auto; exfalso;
          destruct Bv; try discriminate; lia. }
      rewrite !X; auto.
  - destruct Z as [[Z1 Z2]|(A & B & B')]; [left; split; auto|right]. split; [exact A|split; apply copy_bounded].
Qed.

(** ** The call *)
Lemma outcome_alike e p a w w' : alike p w w' -> inside p a -> outcome e w' a = outcome e w a.
Proof. intros A I. unfold outcome. destruct (alike_agree _ _ _ (alike_copy _ _ _ A)) as (SZ & H & G). eapply full_agree; eauto. Qed.
Lemma results_alike e safe p w w' : alike p w w' -> forall l, (forall a i, In (a, i) l -> inside p a) -> results_of e safe w' l = results_of e safe w l.
Proof.
  intros A. induction l as [|[a i] l IH]; intros I; auto. cbn [results_of]. rewrite (outcome_alike e p a w w') by (eauto; eapply I; left; eauto).
  fold (results_of e safe w l) (results_of e safe w' l). rewrite IH by (intros; eapply I; right; eauto). reflexivity.
Qed.
Lemma scrape_alike e safe st si pi st' si' pi' : (si < List.length (st_sheets st))%nat -> (pi < List.length (st_params st))%nat ->
  (si' < List.length (st_sheets st'))%nat -> (pi' < List.length (st_params st'))%nat ->
  params st' pi' = params st pi -> alike (params st pi) (sheet st si) (sheet st' si') ->
  outputs (snd (scrape e safe st' si' pi')) = outputs (snd (scrape e safe st si pi)).
Proof.
  intros Hs Hp Hs' Hp' Ep Al. destruct (discover_parameters (params st pi)) as [l|x] eqn:D.
  - pose proof D as D'. rewrite <- Ep in D'. destruct (Nat.eq_dec (List.length l) 1) as [N|N].
    + destruct l as [|a [|]]; try discriminate.
      destruct (scrape_one_out e safe st si pi _ a Hs Hp D eq_refl) as [-> _].
      destruct (scrape_one_out e safe st' si' pi' _ a Hs' Hp' D' eq_refl) as [-> _].
      destruct (alike_agree _ _ _ Al) as (SZ & H & G). rewrite (full_agree _ SZ e H (sheet st si) (sheet st' si') a G); auto. eapply inside_attempt; [exact D|left; auto].
    + rewrite (scrape_many e safe st si pi l Hs D N), (scrape_many e safe st' si' pi' l Hs' D' N). cbn [snd].
      rewrite (results_alike e safe (params st pi) (sheet st si) (sheet st' si') Al)
        by (intros a i I; apply in_combine_l in I; eapply inside_attempt; eauto).
      pose proof (unique_ids (results_of e safe (sheet st si) (combine l (seq (List.length (st_params st)) (List.length l))))
        (results_of e safe (sheet st si) (combine l (seq (List.length (st_params st')) (List.length l)))) [] []) as U.
      rewrite (results_ids e safe _ l _ (seq (List.length (st_params st')) (List.length l))) in U by apply seq_length.
      specialize (U eq_refl eq_refl).
      destruct (unique_results (results_of e safe (sheet st si) (combine l (seq (List.length (st_params st)) (List.length l)))) []) as [us|x],
        (unique_results (results_of e safe (sheet st si) (combine l (seq (List.length (st_params st')) (List.length l)))) []) as [vs|y];
        cbn [bind firsts] in *; try discriminate.
      * assert (F : map fst us = map fst vs) by congruence. destruct us as [|[u i] [|u2 us]], vs as [|[v j] [|v2 vs]]; try discriminate; auto.
        -- cbn in F. injection F as ->. reflexivity.
        -- unfold outputs. cbn [bind fst]. rewrite F. auto.
      * congruence.
  - pose proof D as D'. rewrite <- Ep in D'. unfold scrape. rewrite (attempt_objects_err _ _ _ D), (attempt_objects_err _ _ _ D'). auto.
Qed.
Lemma c81 e uni json st wb u q name i p st' wb' u' q' name' i' safe preserve :
  wb_ok st wb -> in_store st u -> resolves uni strip (names_of st wb) q name -> first_such (fun i => title (sheet st i) = name) wb i -> object_of json st u p ->
  wb_ok st' wb' -> in_store st' u' -> resolves uni strip (names_of st' wb') q' name' -> first_such (fun i => title (sheet st' i) = name') wb' i' -> object_of json st' u' p ->
  alike p (sheet st i) (sheet st' i') ->
  answered (snd (get_data_frames e uni json st' wb' u' q' safe preserve)) = answered (snd (get_data_frames e uni json st wb u q safe preserve)).
Proof.
  intros WB IS RES FS OB WB' IS' RES' FS' OB' AL.
  destruct (c23_sheet e uni json st wb u q safe preserve WB IS name p RES OB) as (j & st2 & si & pid & F1 & PF & PT & PP & S1 & S2 & ->).
  destruct (c23_sheet e uni json st' wb' u' q' safe preserve WB' IS' name' p RES' OB') as (j' & st2' & si' & pid' & F1' & PF' & PT' & PP' & S1' & S2' & ->).
  rewrite (first_such_det _ _ _ _ F1 FS) in *. rewrite (first_such_det _ _ _ _ F1' FS') in *.
  assert (W : alike p (sheet st2 si) (sheet st2' si')).
  { destruct preserve; [rewrite PT, PT' by auto; apply alike_copy; auto|]. destruct (PF eq_refl) as [_ ->]. destruct (PF' eq_refl) as [_ ->]. auto. }
  assert (E : outputs (snd (scrape e safe st2' si' pid')) = outputs (snd (scrape e safe st2 si pid))).
  { apply scrape_alike; auto; [congruence|]. rewrite PP. exact W. }
  destruct (snd (scrape e safe st2 si pid)) as [[a b]|x], (snd (scrape e safe st2' si' pid')) as [[a' b']|x']; cbn in *; congruence.
Qed.
