(** Building Parameters depends on a header parameter only through its expansion. *)
From Coq Require Import ZifyBool ZifyNat ZifyN.
From Verif Require Import Base BaseFacts Coord XlMethods Params.
Local Open Scope Z_scope.

Lemma dset_dset k v v' d : dset k v (dset k v' d) = dset k v d.
Proof.
  induction d as [|[k2 v2] d IH]; cbn.
  - rewrite text_eqb_refl; auto.
  - destruct (text_eqb k k2) eqn:E; cbn; rewrite E; auto. congruence.
Qed.
Lemma dset_comm k k' v v' d : k <> k' -> In k (map fst d) ->
  dset k' v' (dset k v d) = dset k v (dset k' v' d).
Proof.
  intros N. induction d as [|[k2 v2] d IH]; cbn; [intros []|].
  intros Hi. destruct (text_eqb k k2) eqn:E1.
  - apply text_eqb_eq in E1; subst k2.
    destruct (text_eqb k' k) eqn:E2; [apply text_eqb_eq in E2; congruence|].
    cbn. rewrite E2. cbn. rewrite text_eqb_refl. auto.
  - destruct (text_eqb k' k2) eqn:E2; cbn; rewrite ?E1, ?E2; auto.
    rewrite IH; auto. destruct Hi as [Hi|Hi]; auto. subst. rewrite text_eqb_refl in E1. discriminate.
Qed.
Lemma dset_has k v d : In k (map fst (dset k v d)).
Proof. apply dset_In_keys; auto. Qed.
Lemma dset_keep k k' v d : In k (map fst d) -> In k (map fst (dset k' v d)).
Proof. intros. apply dset_In_keys; auto. Qed.
Lemma dget_has k d v : dget k d = Some v -> In k (map fst d).
Proof. intros H. apply dget_In in H. apply in_map_iff. exists (k, v); auto. Qed.

Lemma validate_fold_err l x : foldM (fun _ kv => validate_one (fst kv) (snd kv)) l x
  = foldM (fun _ kv => validate_one (fst kv) (snd kv)) l tt.
Proof. destruct x; auto. Qed.
Lemma validate_dset k v1 v2 d : validate_one k v1 = validate_one k v2 ->
  validate_parameters (dset k v1 d) = validate_parameters (dset k v2 d).
Proof.
  unfold validate_parameters. intros H. induction d as [|[k2 v] d IH]; cbn.
  - rewrite H; auto.
  - destruct (text_eqb k k2) eqn:E; cbn.
    + apply text_eqb_eq in E; subst k2. rewrite H; auto.
    + destruct (validate_one k2 v) as [[]|]; cbn; auto.
Qed.

Lemma check_critical_dset k v1 v2 d : is_none v1 = is_none v2 ->
  check_has_critical (dset k v1 d) = check_has_critical (dset k v2 d).
Proof.
  intros H. unfold check_has_critical. unfold CRITICAL. cbn [foldM fst].
  rewrite !dget_dset.
  repeat match goal with |- context [text_eqb k ?n] => destruct (text_eqb k n) end;
    rewrite ?H; auto.
Qed.

Lemma missings_dset k v d : k <> n_time_alignment -> k <> n_missing_value -> In k (map fst d) ->
  missings_to_default (dset k v d) = do d' <- missings_to_default d; Ok (dset k v d').
Proof.
  intros N1 N2 Hi. unfold missings_to_default, USE_DEFAULT. cbn [foldM].
  rewrite !dgetN_dset.
  rewrite (proj2 (text_eqb_neq k n_time_alignment)) by auto.
  rewrite (proj2 (text_eqb_neq k n_missing_value)) by auto.
  destruct (valid_values n_time_alignment) as [vv1|]; cbn [bind]; auto.
  destruct (valid_values n_missing_value) as [vv2|]; cbn [bind].
  2: { destruct (is_none (dgetN n_time_alignment d) && negb (none_in vv1)); cbn [bind]; auto. }
  destruct (is_none (dgetN n_time_alignment d) && negb (none_in vv1)); cbn [bind].
  - destruct (dgetE n_time_alignment DEFAULT_VALUES) as [a|]; cbn [bind]; auto.
    destruct (is_none (dgetN n_missing_value d) && negb (none_in vv2)); cbn [bind].
    + destruct (dgetE n_missing_value DEFAULT_VALUES) as [b|]; cbn [bind]; auto.
      rewrite (dset_comm k n_time_alignment) by auto.
      rewrite (dset_comm k n_missing_value) by (auto using dset_keep). auto.
    + rewrite (dset_comm k n_time_alignment) by auto. auto.
  - destruct (is_none (dgetN n_missing_value d) && negb (none_in vv2)); cbn [bind].
    + destruct (dgetE n_missing_value DEFAULT_VALUES) as [b|]; cbn [bind]; auto.
      rewrite (dset_comm k n_missing_value) by auto. auto.
    + auto.
Qed.
Lemma missings_keys k d d' : missings_to_default d = Ok d' -> In k (map fst d) -> In k (map fst d').
Proof.
  unfold missings_to_default. intros H Hi. revert H.
  apply (foldM_inv _ (fun d => In k (map fst d))); auto.
  intros s x s' _ Hs H. inv_bind H. destruct (is_none (dgetN x d) && negb (none_in a)).
  - inv_bind H. inversion H; subst. apply dset_keep; auto.
  - inversion H; subst; auto.
Qed.

Lemma build_headers_same v1 v2 d : is_none v1 = is_none v2 ->
  validate_one n_headers_coord v1 = validate_one n_headers_coord v2 ->
  process_headers_coord v1 = process_headers_coord v2 ->
  build (dset n_headers_coord v1 d) = build (dset n_headers_coord v2 d).
Proof.
  intros H1 H2 H3.
  set (D := dset n_headers_coord VNone d).
  assert (HD : In n_headers_coord (map fst D)) by apply dset_has.
  rewrite <- (dset_dset n_headers_coord v1 VNone d), <- (dset_dset n_headers_coord v2 VNone d).
  fold D. unfold build.
  rewrite (check_critical_dset n_headers_coord v1 v2 D) by auto.
  destruct (check_has_critical (dset n_headers_coord v2 D)); cbn [bind]; auto.
  rewrite !dgetE_dset. cbn [text_eqb].
  change (text_eqb n_headers_coord n_frequency) with false. cbn iota.
  destruct (dgetE n_frequency D) as [f0|]; cbn [bind]; auto.
  destruct (curate_frequency f0) as [f|]; cbn [bind]; auto.
  rewrite !(dset_comm n_headers_coord n_frequency) by (auto; vm_compute; congruence).
  set (E := dset n_frequency f D). assert (HE : In n_headers_coord (map fst E)) by (apply dset_keep; auto).
  rewrite (validate_dset n_headers_coord v1 v2 E) by auto.
  destruct (validate_parameters (dset n_headers_coord v2 E)); cbn [bind]; auto.
  rewrite !missings_dset by (auto; vm_compute; congruence).
  destruct (missings_to_default E) as [F|] eqn:EF; cbn [bind]; auto.
  rewrite !dgetE_dset, text_eqb_refl. cbn [bind]. rewrite H3.
  destruct (process_headers_coord v2) as [ch|]; cbn [bind]; auto.
  rewrite !dset_dset. auto.
Qed.

Lemma build_time_header_same v1 v2 d : is_none v1 = is_none v2 ->
  validate_one n_time_header v1 = validate_one n_time_header v2 ->
  unpack_header_ranges v1 = unpack_header_ranges v2 ->
  build (dset n_time_header v1 d) = build (dset n_time_header v2 d).
Proof.
  intros H1 H2 H3.
  set (D := dset n_time_header VNone d).
  assert (HD : In n_time_header (map fst D)) by apply dset_has.
  rewrite <- (dset_dset n_time_header v1 VNone d), <- (dset_dset n_time_header v2 VNone d).
  fold D. unfold build.
  rewrite (check_critical_dset n_time_header v1 v2 D) by auto.
  destruct (check_has_critical (dset n_time_header v2 D)); cbn [bind]; auto.
  rewrite !dgetE_dset.
  change (text_eqb n_time_header n_frequency) with false. cbn iota.
  destruct (dgetE n_frequency D) as [f0|]; cbn [bind]; auto.
  destruct (curate_frequency f0) as [f|]; cbn [bind]; auto.
  rewrite !(dset_comm n_time_header n_frequency) by (auto; vm_compute; congruence).
  set (E := dset n_frequency f D). assert (HE : In n_time_header (map fst E)) by (apply dset_keep; auto).
  rewrite (validate_dset n_time_header v1 v2 E) by auto.
  destruct (validate_parameters (dset n_time_header v2 E)); cbn [bind]; auto.
  rewrite !missings_dset by (auto; vm_compute; congruence).
  destruct (missings_to_default E) as [F|] eqn:EF; cbn [bind]; auto.
  rewrite !dgetE_dset. change (text_eqb n_time_header n_headers_coord) with false. cbn iota.
  destruct (dgetE n_headers_coord F) as [h|]; cbn [bind]; auto.
  destruct (process_headers_coord h) as [ch|]; cbn [bind]; auto.
  assert (HF : In n_time_header (map fst F)) by (eapply missings_keys; eauto).
  rewrite !(dset_comm n_time_header n_headers_coord) by (auto; vm_compute; congruence).
  set (G := dset n_headers_coord (VList (snd ch)) F).
  assert (HG : In n_time_header (map fst G)) by (apply dset_keep; auto).
  destruct (existsb truthy (fst ch)).
  - rewrite !(dset_comm n_time_header n_composed) by (auto; vm_compute; congruence).
    rewrite !dgetE_dset, !text_eqb_refl. cbn [bind]. rewrite H3.
    destruct (unpack_header_ranges v2) as [th|]; cbn [bind]; auto. rewrite !dset_dset. auto.
  - rewrite !dgetE_dset, !text_eqb_refl. cbn [bind]. rewrite H3.
    destruct (unpack_header_ranges v2) as [th|]; cbn [bind]; auto. rewrite !dset_dset. auto.
Qed.
