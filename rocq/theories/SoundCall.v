(** Where the numbers of the answer to a dictionary come from (C60). *)
From Verif Require Import Base BaseFacts Coord CoordFacts XlMethods Params ParamsFacts ParseTime TimeIndex DataFrame
  Attempts Scrape Xlseries SpecCoord SpecParams SpecData SpecFrames SpecScrape SpecAttempts SpecEnd SpecSound
  BuildInv ParamsProofs ParamsProofs2 ScrapeProofs2 AttemptsFacts AttemptsProofs SpecCoordFacts CoordProofs EndBuild SoundProofs BuildFacts.
From Coq Require Import Sorted.
Local Open Scope Z_scope.

Lemma Forall2_In_l {A B} (R : A -> B -> Prop) l l' : Forall2 R l l' -> forall a, In a l -> exists b, In b l' /\ R a b.
Proof. induction 1; intros a I; [destruct I|]. destruct I as [<-|I]; [exists y; split; [left|]; auto|]. destruct (IHForall2 a I) as (b & J & K). exists b. split; [right|]; auto. Qed.
Lemma bcast_in n l l' x : bcast n (VList l) = VList l' -> In x l' -> In x l.
Proof.
  destruct l as [|y [|z l]]; cbn; intros E I.
  - injection E as <-. auto.
  - injection E as <-. apply repeat_spec in I. left. auto.
  - injection E as <-. auto.
Qed.

(** the headers of the object are the cells of the declaration *)
Lemma built_headers json d p hv cells : NoDup (map fst d) -> make_params json (PDict d) = Ok p ->
  dget (pname "headers_coord") d = Some hv -> header_cells hv cells -> cells <> [] ->
  exists n l, series_count p n /\ (0 < n)%nat /\ dgetN n_headers_coord p = VList l /\ (List.length l <= n)%nat /\
    (forall x, In x l -> exists h rc, x = VStr h /\ In rc cells /\ cell_named h (fst rc) (snd rc)).
Proof.
  intros ND H Hh HC NE.
  destruct (make_inv _ _ _ (dget_ne _ _ _ Hh) H) as [b [Hb ->]].
  destruct (build_inv _ _ Hb) as [f [th [tmv [alv [ctxv [comps [hs [ns [d6 [d8 [d9 B]]]]]]]]]]].
  destruct (headers_processed _ _ HC) as [comps' [names [P [N LC]]]].
  change (pname "headers_coord") with n_headers_coord in *.
  pose proof (bt_headers _ _ _ _ _ _ _ _ _ _ _ _ _ B) as P'. rewrite (dgetN_some _ _ _ Hh) in P'.
  rewrite P in P'. inversion P'; subst comps' hs. clear P'.
  pose proof (names_len _ _ N) as LN.
  assert (E6 : dgetN n_headers_coord d6 = VList (map VStr names)) by apply (bt_d6 _ _ _ _ _ _ _ _ _ _ _ _ _ B).
  assert (LE : (List.length names <= ns)%nat).
  { destruct (num_series_max _ _ (bt_ns _ _ _ _ _ _ _ _ _ _ _ _ _ B)) as [M _].
    specialize (M n_headers_coord (map VStr names)). rewrite map_length in M. apply M; [|discriminate].
    apply dget_In. rewrite (dgetN_in n_headers_coord d6); [f_equal; auto|]. apply (bt_keys6 _ _ _ _ _ _ _ _ _ _ _ _ _ B). eapply dget_has; eauto. }
  destruct ns as [|m]; [destruct names; [destruct cells; [congruence|discriminate]|cbn in LE; lia]|].
  assert (E8 : dgetN n_headers_coord d8 = VList (map VStr names)) by (rewrite (bt_d8 _ _ _ _ _ _ _ _ _ _ _ _ _ B); exact E6).
  assert (NN : map VStr names <> []) by (destruct names; [destruct cells; [congruence|discriminate]|discriminate]).
  assert (EP : dgetN n_headers_coord (params_of b) = bcast (S m) (VList (map VStr names))).
  { rewrite params_of_get by (apply text_in_In; reflexivity).
    erewrite (b_gen B ND n_headers_coord); [| |discriminate|discriminate|reflexivity|left; congruence|congruence]; [rewrite E8; auto|].
    apply (b_in8 B). eapply dget_has; eauto. }
  assert (C : series_count (params_of b) (S m)) by (apply count_num; apply (b_num_series B ND)).
  destruct (bcast (S m) (VList (map VStr names))) as [| | | | | |l| |] eqn:BC; try (destruct names as [|? [|? ?]]; discriminate).
  exists (S m), l. split; auto. split; [lia|]. split; auto. split.
  - destruct (bcast_len _ _ _ BC) as [L|L]; [lia|]. injection L as <-. rewrite map_length. auto.
  - intros x I. apply (bcast_in _ _ _ _ BC) in I. apply in_map_iff in I. destruct I as (h & <- & I).
    destruct (Forall2_In_l _ _ _ N _ I) as (rc & J & K). exists h, rc. auto.
Qed.
Lemma alignment_said json d p t n i : NoDup (map fst d) -> make_params json (PDict d) = Ok p ->
  series_count p n -> (i < n)%nat -> given_once (pname "alignment") d (VStr t) -> t <> [] -> series_value p (pname "alignment") i (VStr t).
Proof.
  intros ND H C I [NL G] NT.
  assert (NE : d <> []) by (destruct G as [G|G]; eapply dget_ne; eauto).
  destruct (built_series _ _ _ _ _ ND NE H C I) as (b & m & f & th & tmv & alv & ctxv & comps & hs & d6 & d8 & d9 & -> & -> & _ & B).
  exists (repeat (VStr t) (S m)). split; [|apply nth_repeat_some; auto]. change (pname "alignment") with n_alignment in *.
  assert (E8 : dgetN n_alignment d8 = VStr t \/ dgetN n_alignment d8 = VList [VStr t]).
  { rewrite (bt_d8 _ _ _ _ _ _ _ _ _ _ _ _ _ B). change (text_eqb n_alignment n_time_multicolumn) with false. rewrite text_eqb_refl. pose proof (bt_al _ _ _ _ _ _ _ _ _ _ _ _ _ B) as A.
    destruct G as [G|G]; rewrite (dgetN_some _ _ _ G) in A; cbn [truthy] in A; [|auto]. destruct t; [congruence|]. cbn in A. auto. }
  rewrite params_of_get by (apply text_in_In; reflexivity).
  erewrite (b_gen B ND n_alignment); [| |discriminate|discriminate|reflexivity| |].
  - destruct E8 as [-> | ->]; reflexivity.
  - apply (b_in8 B). destruct G as [G|G]; eapply dget_has; eauto.
  - left. destruct E8 as [-> | ->]; discriminate.
  - destruct E8 as [-> | ->]; discriminate.
Qed.
Lemma given_all json d p k v n : NoDup (map fst d) -> make_params json (PDict d) = Ok p ->
  series_count p n -> (0 < n)%nat -> In k ParamsProofs.plain_names -> given_once k d v -> v <> VNone -> dgetN k p = VList (repeat v n).
Proof.
  intros ND H C I K [NL G] NN.
  assert (NE : d <> []) by (destruct G as [G|G]; eapply dget_ne; eauto).
  destruct (built_series _ _ _ _ 0 ND NE H C I) as (b & m & f & th & tmv & alv & ctxv & comps & hs & d6 & d8 & d9 & -> & -> & _ & B).
  destruct G as [G|G].
  - rewrite (plain_value B ND k v); auto; [apply bcast_scalar; auto|]. intros ->. apply NL. eexists; eauto.
  - rewrite (plain_value B ND k (VList [v])); auto; discriminate.
Qed.
Lemma call_made e uni json st wb i q safe preserve st' x : wb_ok st wb ->
  get_data_frames e uni json st wb (UInput i) q safe preserve = (st', Ok x) -> exists p, make_params json i = Ok p.
Proof.
  intros W H. rewrite (gdf_unfold e uni json st wb (UInput i) q safe preserve W) in H. cbv zeta in H.
  destruct (name_chosen _ _ _) as [nm|]; [|discriminate]. destruct (sheet_by_name _ _ _) as [si|]; [|discriminate]. cbn [params_obj] in H.
  destruct (make_params json i) as [p|]; [eauto|discriminate].
Qed.
Lemma c60_declared e uni json st wb q safe preserve st' out name pid i d hv cells starts fr :
  wb_ok st wb -> first_such (fun i => title (sheet st i) = name) wb i -> bounded (sheet st i) ->
  NoDup (map fst d) -> dget (pname "headers_coord") d = Some hv -> header_cells hv cells -> cells <> [] ->
  given_once (pname "data_starts") d (VInt starts) ->
  get_data_frames e uni json st wb (UInput (PDict d)) q safe preserve = (st', Ok (out, name, pid)) -> frame_of out fr ->
  Forall (fun vs => exists rc al last holes, In rc cells /\
    (given_once (pname "alignment") d (VStr (pname "vertical")) -> al = Vert) /\
    (given_once (pname "alignment") d (VStr (pname "horizontal")) -> al = Horiz) /\
    (forall z, z <> 0 -> given_once (pname "data_ends") d (VInt z) -> last = z) /\
    (given_once (pname "missings") d (VBool false) -> holes = false) /\
    drawn (sheet st i) al (line_of al rc) last holes starts vs) (df_data fr).
Proof.
  intros W FS B ND Hh HC NE DS H F. destruct (call_made _ _ _ _ _ _ _ _ _ _ _ W H) as (p & M).
  destruct (built_headers _ _ _ _ _ ND M Hh HC NE) as (n & l & C & N0 & EH & LH & HH).
  assert (Z : forall j v, series_value p (pname "headers_coord") j v -> (j < n)%nat /\ exists h rc, v = VStr h /\ In rc cells /\ cell_named h (fst rc) (snd rc)).
  { intros j v (l' & E & V). change (pname "headers_coord") with n_headers_coord in E. rewrite EH in E. injection E as <-.
    assert (j < List.length l)%nat by (apply nth_error_Some; congruence). split; [lia|]. apply HH. eapply nth_error_In; eauto. }
  assert (SL : series_lists p).
    { intros k [<-|[<-|[]]]; right; [exists l; exact EH|]. eexists. eapply given_all; eauto; [left; auto|discriminate]. }
    destruct (c60 e uni json st wb (UInput (PDict d)) q safe preserve st' out name pid p i fr) as (js & _ & F2); auto; [exact I|constructor; auto|].
    clear H F. induction F2 as [|j vs js data FH F2 IH]; constructor; auto. clear IH F2.
    destruct FH as (h & rc & al & v & s & last & holes & VH & NC & A1 & A2 & VD & S & EN & MS & D).
    destruct (Z _ _ VH) as [J (h' & rc' & E & IC & NC')]. injection E as <-.
    assert (rc' = rc). { apply cell_named_iff in NC, NC'. rewrite NC in NC'. injection NC' as E1 E2. destruct rc, rc'. cbn in *. congruence. } subst rc'.
    exists rc, al, last, holes. split; auto.
    split. { intros G. apply A1. eapply alignment_said; eauto. discriminate. }
    split. { intros G. apply A2. eapply alignment_said; eauto. discriminate. }
    split.
    { intros z NZ G. assert (EL : dgetN (pname "data_ends") p = VList (repeat (VInt z) n)) by (eapply given_all; eauto; [right; left; auto|discriminate]).
      assert (EG : ends_given p). { exists (repeat (VInt z) n). split; auto. apply Forall_forall. intros x I. apply repeat_spec in I. subst. eauto. }
      destruct (EN EG) as (l' & E & V). rewrite EL in E. injection E as <-. apply nth_error_In in V. apply repeat_spec in V. congruence. }
    split. { intros G. apply MS. eapply c09_once; eauto; [|discriminate]. do 4 right. left. auto. }
    assert (s = starts); [|subst; auto]. assert (V : series_value p (pname "data_starts") j (VInt starts)) by (eapply c09_once; eauto; [left; auto|discriminate]).
    apply S. destruct VD as (l1 & E1 & V1). destruct V as (l2 & E2 & V2). rewrite E1 in E2. injection E2 as ->. congruence.
Qed.
