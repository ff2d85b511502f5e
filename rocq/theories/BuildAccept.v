(** Proof of C55: which dictionaries build a Parameters object. *)
From Coq Require Import ZifyBool ZifyNat ZifyN.
From Verif Require Import Base BaseFacts Coord XlMethods Params CoordFacts
  SpecCoord SpecParams SpecCoordFacts HeaderFacts ComposedFacts ScopeFacts CoordProofs BuildFacts BuildInv ParamsFacts
  ParamsProofs ParamsProofs2 ParamsProofs3.
From Verif Require Import SpecEnd.
Local Open Scope Z_scope.

Lemma foldM_units {A} (f : A -> res unit) l : (forall x, In x l -> f x = Ok tt) ->
  foldM (fun _ x => f x) l tt = Ok tt.
Proof. intros H. apply foldM_unit. auto. Qed.

Lemma each_validate k v vv : text_eqb k n_frequency = false -> text_eqb k n_context = false ->
  valid_values k = Ok vv -> each (fun x => valid_param_value x vv = true) v -> validate_one k v = Ok tt.
Proof.
  intros F C V E. unfold validate_one. rewrite F, C. destruct (is_none v) eqn:N; auto.
  apply (foldM_units (fun v => do vv0 <- valid_values k; if valid_param_value v vv0 then Ok tt else Err EInvalid)).
  intros x Hx. rewrite V. cbn [bind].
  assert (G : valid_param_value x vv = true); [|rewrite G; auto].
  destruct v; cbn [each] in E; try (destruct Hx as [<-|[]]; auto; fail).
  rewrite Forall_forall in E. auto.
Qed.
Lemma each_weak (P Q : pyval -> Prop) v : (forall x, P x -> Q x) -> each P v -> each Q v.
Proof. intros H. destruct v; cbn; auto. apply Forall_impl; auto. Qed.

Lemma acceptable_validates k v : In k PARAM_NAMES -> k <> n_frequency -> acceptable k v -> validate_one k v = Ok tt.
Proof.
  intros K NF H. inversion H; subst; clear H.
  - auto.
  - eapply (each_validate n_alignment); try reflexivity. eapply each_weak; [|exact H0].
    intros x [-> | ->]; reflexivity.
  - assert (G : each (fun x => valid_param_value x [VBool true; VBool false] = true) v).
    { eapply each_weak; [|exact H1]. intros x Hx. cbn [valid_param_value existsb]. rewrite orb_false_r. apply orb_true_iff. exact Hx. }
    cbn in H0. destruct H0 as [<-|[<-|[<-|[<-|[<-|[]]]]]]; eapply each_validate; try reflexivity; exact G.
  - eapply (each_validate n_time_alignment); try reflexivity. eapply each_weak; [|exact H0].
    intros x Hx. cbn [valid_param_value existsb]. rewrite !orb_false_r. rewrite !orb_true_iff. tauto.
  - eapply (each_validate n_data_starts); try reflexivity. eapply each_weak; [|exact H0].
    intros x [[z ->]|[b ->]]; reflexivity.
  - eapply (each_validate n_data_ends); try reflexivity. eapply each_weak; [|exact H0].
    intros x [[[z ->]|[b ->]]| ->]; reflexivity.
  - eapply (each_validate n_headers_coord); try reflexivity. eapply each_weak; [|exact H0].
    intros x [t ->]; reflexivity.
  - eapply (each_validate n_series_names); try reflexivity. eapply each_weak; [|exact H0].
    intros x [[t ->]| ->]; reflexivity.
  - eapply (each_validate n_composed); try reflexivity. eapply each_weak; [|exact H0].
    intros x [[t ->]|[[t ->]| ->]]; reflexivity.
  - eapply (each_validate n_time_header); try reflexivity. eapply each_weak; [|exact H0].
    intros x [[t ->]|[t ->]]; reflexivity.
  - eapply (each_validate n_missing_value); try reflexivity.
    destruct v; cbn; auto. apply Forall_forall. auto.
  - unfold validate_one. cbn [is_none]. change (text_eqb (pname "context") n_frequency) with false.
    change (text_eqb (pname "context") n_context) with true. cbn [foldM].
    change (valid_values (pname "context")) with (Ok [VType TyDict; VType TyList; VType TyStr; VType TyStr; VNone]).
    cbn [bind].
    match goal with |- context [forallb ?f l] => assert (G : forallb f l = true) end.
    { apply forallb_forall. rewrite Forall_forall in H0. intros kv Hkv. specialize (H0 kv Hkv).
      destruct H0 as [[x ->]|[[x ->]|[[x ->]| ->]]]; reflexivity. }
    rewrite G. auto.
  - reflexivity.
  - exfalso. apply NF. reflexivity.
Qed.

Lemma each_curates f0 : each frequency_text f0 -> exists f, curate_frequency f0 = Ok f /\ validate_one n_frequency f = Ok tt /\
  (f = match f0 with VList l => f | _ => f end) /\ is_none f = false /\
  (forall l0, f0 = VList l0 -> exists l, f = VList l /\ List.length l = List.length l0) /\
  (forall l, f = VList l -> exists l0, f0 = VList l0).
Proof.
  intros E.
  assert (L : forall c, In c (pname "ASQMWD") ->
     existsb (py_eq (VStr [c])) [str_ "A"; str_ "S"; str_ "Q"; str_ "M"; str_ "W"; str_ "D"] = true).
  { intros c Hc. cbn in Hc. repeat (destruct Hc as [<-|Hc]; [reflexivity|]). contradiction. }
  assert (G : forall x, frequency_text x -> exists y, curate_freq_value x = Ok y /\
     (do vv <- valid_values n_frequency; if valid_freq y vv then Ok tt else Err EInvalid) = Ok tt).
  { intros x [t [-> F]]. eexists. split; [reflexivity|]. rewrite freq_translation_reading.
    change (valid_values n_frequency) with (Ok [str_ "A"; str_ "S"; str_ "Q"; str_ "M"; str_ "W"; str_ "D"]).
    cbn [bind valid_freq]. rewrite Forall_forall in F.
    rewrite (proj2 (forallb_forall _ _)); auto. }
  destruct f0; cbn [each] in E; try (destruct E as [t0 [E _]]; discriminate).
  - destruct (G _ E) as [y [A B]]. exists y. destruct E as [t0 [E F]]. inversion E; subst t0.
    cbn in A. inversion A; subst y. split; auto. split.
    + unfold validate_one. cbn [is_none foldM]. change (text_eqb n_frequency n_frequency) with true. cbn beta iota.
      rewrite B. auto.
    + repeat split; auto; intros; discriminate.
  - assert (M : exists l', mapM curate_freq_value l = Ok l' /\ List.length l' = List.length l /\
       forall y, In y l' -> (do vv <- valid_values n_frequency; if valid_freq y vv then Ok tt else Err EInvalid) = Ok tt).
    { induction E as [|x l Hx E IH].
      - exists []. split; [reflexivity|]. split; auto. intros y [].
      - destruct IH as [l' [A [C B]]]. destruct (G x Hx) as [y [Y1 Y2]]. exists (y :: l'). cbn [mapM].
        rewrite Y1. cbn [bind]. rewrite A. split; auto. split; [cbn; lia|]. intros z [<-|Hz]; auto. }
    destruct M as [l' [A [C B]]]. exists (VList l'). cbn [curate_frequency]. rewrite A. split; auto. split.
    + unfold validate_one. cbn [is_none]. change (text_eqb n_frequency n_frequency) with true. cbn beta iota.
      apply (foldM_units (fun v => do vv <- valid_values n_frequency; if valid_freq v vv then Ok tt else Err EInvalid)). auto.
    + repeat split; auto.
      * intros l0 E0. inversion E0; subst. eauto.
      * intros; eauto.
Qed.

Lemma consecutive_total (ts : list text) cells : names_cells ts cells -> exists b, consecutive_cells ts = Ok b.
Proof.
  intros N. destruct N as [|t p ts cells H N]; [exists true; reflexivity|]. cbn [consecutive_cells].
  apply cell_named_iff in H. rewrite H. cbn [bind]. 
  set (a := fst (fst p, snd p)). set (b := snd (fst p, snd p)). clearbody a b. generalize (@None bool). revert a b.
  induction N as [|t' q ts cells H' N IH]; intros a b o; [exists true; reflexivity|]. cbn [consecutive_from].
  apply cell_named_iff in H'. rewrite H'. cbn [bind].
  repeat match goal with
  | |- context [match ?x with _ => _ end] => destruct x; eauto
  | |- context [if ?x then _ else _] => destruct x; eauto
  end.
Qed.

Lemma guess_total (ts : list text) cells : names_cells ts cells -> exists g, guess_alignment (VList (map VStr ts)) = Ok g.
Proof.
  intros N. unfold guess_alignment. destruct (Nat.leb _ 1); [eauto|].
  assert (M : mapM as_text (map VStr ts) = Ok ts).
  { clear. induction ts as [|t ts IH]; auto. cbn [map mapM as_text bind]. rewrite IH. auto. }
  rewrite M. cbn [bind].
  assert (P : mapM parse_coord ts = Ok cells).
  { clear M. induction N as [|t p ts cells H N IH]; auto. cbn [mapM]. apply cell_named_iff in H. rewrite H. cbn [bind].
    rewrite IH. destruct p; auto. }
  destruct (consecutive_total _ _ N) as [b B].
  destruct (Nat.ltb _ 4); [rewrite B|]; cbn [bind]; [destruct b; [|eauto]|]; rewrite P; cbn [bind];
  repeat match goal with |- context [if ?x then _ else _] => destruct x; eauto end.
Qed.

Lemma guess_multi_total (ts : list text) cells n : names_cells ts cells -> ts <> [] ->
  exists b, guess_time_multicolumn (VList (map VStr ts)) (Some n) = Ok (VBool b).
Proof.
  intros N NE. unfold guess_time_multicolumn. destruct ts as [|t ts]; [congruence|].
  destruct (is_repeated _); [exists false; reflexivity|]. cbn [bind].
  destruct (negb _); [eauto|].
  assert (M : as_texts (VList (map VStr (t :: ts))) = Ok (t :: ts)).
  { clear. cbn [as_texts]. induction (t :: ts) as [|x l IH]; auto. cbn [map mapM as_text bind]. rewrite IH. auto. }
  change (map VStr (t :: ts)) with (VStr t :: map VStr ts) in M. cbn [map]. rewrite M. cbn [bind].
  destruct (consecutive_total _ _ N) as [b B]. rewrite B. cbn [bind]. eauto.
Qed.

Lemma valid_known k : In k PARAM_NAMES -> exists vv, valid_values k = Ok vv.
Proof.
  intros H. cbn in H. repeat (destruct H as [<-|H]; [eexists; reflexivity|]). contradiction.
Qed.

(** [first_of] of the time_multicolumn parameter is readable *)
Definition tm_ok (d : dict) : Prop := exists x, (do t <- dgetE n_time_multicolumn d; first_of t) = Ok x.

Lemma apply_all_total n : forall keys d,
  Forall (fun k => In k PARAM_NAMES) keys -> NoDup keys -> Forall (fun k => In k (map fst d)) keys -> tm_ok d ->
  (In n_time_header keys -> exists t l, dgetN n_time_header d = VList (VStr t :: l)) ->
  (In n_missing_value keys -> forall m l, dgetN n_missing_value d <> VList (VList m :: l)) ->
  exists d', apply_all (Some n) keys d = Ok d'.
Proof.
  unfold apply_all. induction keys as [|k keys IH]; intros d K ND I TM TH MV; [eexists; reflexivity|].
  inversion K as [|? ? K1 K2]; subst. inversion ND as [|? ? N1 N2]; subst. inversion I as [|? ? I1 I2]; subst.
  cbn [foldM]. destruct (valid_known k K1) as [vv V]. rewrite V. cbn [bind].
  rewrite (proj2 (dgetE_ok k d (dgetN k d)) (dgetN_in k d I1)). cbn [bind].
  assert (A : exists v', apply_to_all k (dgetN k d) (Some n) d vv = Ok v').
  { unfold apply_to_all. destruct (text_eqb k n_time_header) eqn:E1.
    - apply text_eqb_eq in E1; subst k. destruct (TH (or_introl eq_refl)) as [t [l ->]].
      unfold apply_to_all_time_header. change (py_index (VList (VStr t :: l)) 0) with (Ok (VStr t)). cbn [bind is_list].
      destruct TM as [x TM]. destruct (dgetE n_time_multicolumn d) as [tm0|]; [|discriminate]. cbn [bind] in *.
      fold (first_of tm0). rewrite TM. cbn [bind]. destruct (negb true || negb (truthy x)); eauto.
    - destruct (text_eqb k n_missing_value) eqn:E2; [|eauto].
      apply text_eqb_eq in E2; subst k. unfold apply_to_all_missing_value.
      specialize (MV (or_introl eq_refl)).
      destruct (dgetN n_missing_value d); try (eexists; reflexivity).
      destruct l as [|x l]; [eexists; reflexivity|].
      destruct x; try (eexists; reflexivity). edestruct MV; reflexivity. }
  destruct A as [v' A]. rewrite A. cbn [bind].
  destruct (IH (dset k v' d)) as [d' D]; auto.
  - eapply Forall_impl; [|exact I2]. intros. apply dset_keep; auto.
  - destruct TM as [x TM]. exists x. rewrite dgetE_dset.
    destruct (text_eqb k n_time_multicolumn) eqn:E2; auto.
    apply text_eqb_eq in E2; subst k. cbn [bind].
    change (apply_to_all n_time_multicolumn (dgetN n_time_multicolumn d) (Some n) d vv)
      with (Ok (apply_to_all_gen (dgetN n_time_multicolumn d) (Some n) vv)) in A.
    inversion A; subst v'. rewrite first_gen'.
    rewrite (proj2 (dgetE_ok _ d _) (dgetN_in _ d I1)) in TM. auto.
  - intros H. rewrite dgetN_dset. destruct (text_eqb k n_time_header) eqn:E; [|apply TH; right; auto].
    apply text_eqb_eq in E; subst k. contradiction.
  - intros H. rewrite dgetN_dset. destruct (text_eqb k n_missing_value) eqn:E; [|apply MV; right; auto].
    apply text_eqb_eq in E; subst k. contradiction.
  - exists d'. exact D.
Qed.

Lemma apply_optional_total n d : exists d', apply_optional (Some n) d = Ok d'.
Proof.
  unfold apply_optional. assert (G : forall ks, incl ks OPTIONAL -> forall d, exists d',
    foldM (fun acc k => if negb (truthy (dgetN k acc)) then
      do def <- dgetE k DEFAULT_VALUES; do vv <- valid_values k;
      do v' <- apply_to_all k def (Some n) acc vv; Ok (dset k v' acc) else Ok acc) ks d = Ok d').
  { clear. induction ks as [|k ks IH]; intros I d; [eexists; reflexivity|]. cbn [foldM].
    assert (K : In k OPTIONAL) by (apply I; left; auto).
    assert (I' : incl ks OPTIONAL) by (intros x Hx; apply I; right; auto).
    destruct (negb (truthy (dgetN k d))); cbn [bind]; [|apply IH; auto].
    cbn in K. destruct K as [<-|[<-|[<-|[<-|[]]]]]; cbn -[apply_to_all_gen dset foldM]; apply IH; auto. }
  apply G. intros x; auto.
Qed.

Lemma known_names k : In k parameter_names <-> In k PARAM_NAMES.
Proof. reflexivity. Qed.

Lemma c55 json d headers z : well_formed d headers z -> data_after_header d headers z ->
  exists p, make_params json (PDict d) = Ok p.
Proof.
  intros [ND VA [hv [Hh HC]] [tv [tcells [Ht [TC TN]]]] ST FR MV CX] DA.
  change (pname "headers_coord") with n_headers_coord in *. change (pname "time_header_coord") with n_time_header in *.
  assert (HN : headers <> []) by (intros ->; exact DA).
  destruct (headers_processed _ _ HC) as [comps [names [P [N LC]]]].
  destruct (value_unpack _ _ TC) as [ts [U TS]].
  assert (TSN : ts <> []). { intros ->. inversion TS; subst; congruence. }
  destruct ST as [sv [sx [D1 [D2 D3]]]]. change (pname "data_starts") with n_data_starts in *.
  destruct FR as [f0 [F0 F1]]. change (pname "frequency") with n_frequency in *.
  assert (AF : each frequency_text f0).
  { destruct (VA n_frequency f0) as [_ A]; [apply dget_In; auto|]. inversion A; subst; try congruence; try discriminate; auto.
    all: try (cbn in H; repeat (destruct H as [H|H]; [discriminate|]); contradiction).  }
  destruct (each_curates f0 AF) as [f [Cf [Vf [_ [Nf [Lf1 Lf2]]]]]].
  assert (GV : forall v, header_cells v headers -> v <> VNone).
  { intros v H. inversion H as [? ? H'|]; subst; [inversion H'|]; congruence. }
  assert (GT : tv <> VNone) by (inversion TC; congruence).
  assert (GS : sv <> VNone). { destruct D2 as [->|[l ->]]; [inversion D3|]; congruence. }
  unfold make_params. destruct d as [|kv d]; [discriminate|]. remember (kv :: d) as d0 eqn:Ed. clear Ed kv d.
  cut (exists b, build d0 = Ok b). { intros [b B]. rewrite B. cbn [bind]. eauto. }
  unfold build.
  rewrite critical_iff.
  assert (CR : forallb (fun k => if given_dec k d0 then true else false) critical_names = true).
  { apply forallb_forall. intros k Hk. destruct (given_dec k d0) as [|G]; auto. destruct G.
    cbn in Hk. destruct Hk as [<-|[<-|[<-|[<-|[]]]]]; eexists; split; eauto. }
  rewrite CR. cbn [bind]. rewrite (proj2 (dgetE_ok n_frequency d0 f0) F0). cbn [bind]. rewrite Cf. cbn [bind]. cbv zeta.
  assert (VP : validate_parameters (dset n_frequency f d0) = Ok tt).
  { unfold validate_parameters. apply (foldM_units (fun kv => validate_one (fst kv) (snd kv))).
    intros [k v] Hkv. cbn [fst snd].
    assert (E : dget k (dset n_frequency f d0) = Some v) by (apply dget_NoDup; auto; apply dset_NoDup; auto).
    destruct (text_eqb n_frequency k) eqn:K.
    - apply text_eqb_eq in K; subst k. rewrite dget_dset_same in E. inversion E; subst; auto.
    - apply text_eqb_neq in K. rewrite dget_dset_other in E by congruence. apply dget_In in E.
      destruct (VA _ _ E) as [A B]. apply acceptable_validates; auto. }
  rewrite VP. cbn [bind].
  destruct (missings_to_default (dset n_frequency f d0)) as [d2|e] eqn:M.
  2:{ exfalso. revert M. unfold missings_to_default, USE_DEFAULT. cbn [foldM].
      change (valid_values n_time_alignment) with (Ok [VInt (-1); VInt 0; VInt 1]).
      change (valid_values n_missing_value) with (@Ok (list pyval) []).
      change (dgetE n_time_alignment DEFAULT_VALUES) with (Ok (VInt 0)).
      change (dgetE n_missing_value DEFAULT_VALUES) with (Ok (dgetN n_missing_value DEFAULT_VALUES)). cbn [bind].
      destruct (_ && _); destruct (_ && _); cbn [bind]; discriminate. }
  cbn [bind]. destruct (missings_spec _ _ M) as [M1 [M2 M3]].
  specialize (M3 (dset_NoDup _ _ _ ND)).
  assert (S2 : forall k, ~ In k [n_frequency; n_time_alignment; n_missing_value] -> dget k d2 = dget k d0).
  { intros k NK. destruct (dget k d0) as [v|] eqn:E.
    - rewrite (dgetN_in k d2).
      + f_equal. rewrite M1, defaulted_other by (intros ->; apply NK; cbn; tauto).
        rewrite dgetN_dset. destruct (text_eqb n_frequency k) eqn:K; [apply text_eqb_eq in K; subst k; destruct NK; cbn; auto|].
        apply dgetN_some; auto.
      + apply M2. left. apply dset_keep. eapply dget_has; eauto.
    - apply dget_None. rewrite M2. apply dget_None in E. rewrite dset_In_keys.
      intros [[->|H]|[_ [->| ->]]]; auto; apply NK; cbn; tauto. }
  assert (K2 : forall k, In k (map fst d2) -> In k PARAM_NAMES).
  { intros k Hk. apply M2 in Hk. rewrite dset_In_keys in Hk. destruct Hk as [[->|H]|[_ [->| ->]]]; try (cbn; tauto).
    apply in_map_iff in H. destruct H as [[k' v] [<- H]]. apply (VA _ _ H). }
  assert (T2 : In n_time_alignment (map fst d2) /\ In n_missing_value (map fst d2)).
  { split; apply M2.
    all: match goal with |- In ?k (map fst ?d) \/ _ => destruct (dget k d) as [v|] eqn:E end;
      [left; eapply dget_has; eauto|right; split; auto]; unfold dgetN; rewrite E; reflexivity. }
  assert (MV2 : forall m l, dgetN n_missing_value d2 <> VList (VList m :: l)).
  { intros m l. rewrite M1. unfold defaulted.
    rewrite dgetN_dset. change (text_eqb n_frequency n_missing_value) with false. cbn beta iota.
    destruct (is_none (dgetN n_missing_value d0)) eqn:E; [discriminate|].
    intros X. apply (MV m l). unfold dgetN in X. destruct (dget n_missing_value d0) as [v|] eqn:E2; [|discriminate].
    change (pname "missing_value") with n_missing_value. congruence. }
  rewrite (proj2 (dgetE_ok n_headers_coord d2 hv)) by (rewrite S2; auto; cbn; intuition discriminate).
  cbn [bind]. rewrite P. cbn [bind fst snd].
  set (d4 := if existsb truthy comps then _ else _).
  assert (S4 : forall k, ~ In k [n_headers_coord; n_composed] -> dget k d4 = dget k d2).
  { intros k NK. unfold d4. destruct (existsb truthy comps); rewrite ?dget_dset_other; auto; intros E; subst k; apply NK; cbn; tauto. }
  assert (H4 : dget n_headers_coord d4 = Some (VList (map VStr names))).
  { unfold d4. destruct (existsb truthy comps); rewrite ?(dget_dset_other n_composed) by discriminate; apply dget_dset_same. }
  assert (K4 : forall k, In k (map fst d4) -> In k PARAM_NAMES).
  { intros k. unfold d4. destruct (existsb truthy comps); rewrite !dset_In_keys.
    - intros [->|[->|H]]; auto; cbn; tauto.
    - intros [->|H]; auto; cbn; tauto. }
  assert (N4 : NoDup (map fst d4)) by (unfold d4; destruct (existsb truthy comps); repeat apply dset_NoDup; auto).
  assert (I4 : forall k, In k (map fst d2) -> In k (map fst d4)).
  { intros k H. unfold d4. destruct (existsb truthy comps); repeat apply dset_keep; auto. }
  clearbody d4.
  rewrite (proj2 (dgetE_ok n_time_header d4 tv)) by (rewrite S4, S2; auto; cbn; intuition discriminate).
  cbn [bind]. rewrite U. cbn [bind].
  set (d5 := dset n_time_header (VList (map VStr ts)) d4).
  assert (D6 : exists d6, (if truthy (dgetN n_context d5) then
              do c <- process_context (dgetN n_context d5) (map VStr names);
              Ok (dset n_context c d5)
            else Ok d5) = Ok d6 /\ (d6 = d5 \/ exists c, d6 = dset n_context c d5)).
  { assert (C5 : dgetN n_context d5 = dgetN n_context d0).
    { unfold d5, dgetN. rewrite dget_dset_other, S4, S2; auto; cbn; intuition discriminate. }
    rewrite C5. destruct CX as [CX|[entries [C1 [C2 C3]]]].
    - rewrite not_given_falsy by auto. cbn [truthy]. eauto.
    - change (pname "context") with n_context in C1. rewrite (dgetN_some _ _ _ C1).
      destruct (c04_horizontal entries names headers C2 C3 N) as [rows [R _]].
      destruct (truthy _); [|eauto]. rewrite R. cbn [bind]. eauto. }
  destruct D6 as [d6 [D6 D6c]]. rewrite D6. cbn [bind].
  assert (S6 : forall k, ~ In k [n_frequency; n_time_alignment; n_missing_value; n_headers_coord; n_composed; n_time_header; n_context] ->
    dget k d6 = dget k d0).
  { intros k NK. assert (E5 : dget k d5 = dget k d0).
    { unfold d5. rewrite dget_dset_other, S4, S2; auto; try (intros E; subst k; apply NK; cbn; tauto); intros H; apply NK; cbn in H |- *; tauto. }
    destruct D6c as [->|[c ->]]; auto. rewrite dget_dset_other; auto. intros E; subst k; apply NK; cbn; tauto. }
  assert (H6 : dget n_headers_coord d6 = Some (VList (map VStr names))).
  { destruct D6c as [->|[c ->]]; rewrite ?(dget_dset_other n_context) by discriminate; unfold d5;
    rewrite dget_dset_other by discriminate; auto. }
  assert (TH6 : dget n_time_header d6 = Some (VList (map VStr ts))).
  { destruct D6c as [->|[c ->]]; rewrite ?(dget_dset_other n_context) by discriminate; unfold d5; apply dget_dset_same. }
  assert (MV6 : dget n_missing_value d6 = dget n_missing_value d2).
  { destruct D6c as [->|[c ->]]; rewrite ?(dget_dset_other n_context) by discriminate; unfold d5;
    rewrite dget_dset_other by discriminate; rewrite S4; auto; cbn; intuition discriminate. }
  assert (K6 : forall k, In k (map fst d6) -> In k PARAM_NAMES).
  { intros k. destruct D6c as [->|[c ->]]; unfold d5; rewrite !dset_In_keys.
    - intros [->|H]; auto; cbn; tauto.
    - intros [->|[->|H]]; auto; cbn; tauto. }
  assert (N6 : NoDup (map fst d6)).
  { destruct D6c as [->|[c ->]]; unfold d5; repeat apply dset_NoDup; auto. }
  clear D6 D6c. clearbody d5.
  assert (CC : check_consistency d6 = Ok tt).
  { unfold check_consistency.
    rewrite (proj2 (dgetE_ok n_data_starts d6 sv)) by (rewrite S6; auto; cbn; intuition discriminate).
    cbn [bind].
    assert (E1 : (match sv with VList _ => py_index sv 0 | _ => Ok sv end) = Ok sx).
    { destruct D2 as [->|[l ->]]; [|reflexivity]. destruct D3; auto. }
    rewrite E1. cbn [bind]. rewrite (proj2 (dgetE_ok _ d6 _) H6). cbn [bind].
    rewrite (mapM_coords _ _ N). cbn [bind].
    rewrite S6 by (cbn; intuition discriminate).
    destruct headers as [|[r0 c0] others]; [congruence|]. cbn [data_after_header] in DA.
    change (pname "alignment") with n_alignment in DA. destruct DA as [DV DH].
    assert (Pos : forall l0 l, (l0 < z) -> (do q <- head_err (l0 :: l); do g <- int_gt sx q; assert_ g) = Ok tt).
    { intros l0 l Hl. cbn [head_err bind]. rewrite (int_value_gt _ _ _ D3). cbn [bind].
      replace (l0 <? z) with true by lia. reflexivity. }
    cbv zeta. change (map fst ((r0, c0) :: others)) with (r0 :: map fst others) in *.
    change (map snd ((r0, c0) :: others)) with (c0 :: map snd others) in *.
    destruct (dget n_alignment d0) as [a|].
    - cbn [orb]. rewrite !orb_false_r.
      destruct (py_eq a (str_ "vertical")) eqn:EV.
      + apply py_eq_str in EV. rewrite (Pos r0) by (apply DV; left; subst; reflexivity). cbn [bind].
        destruct (py_eq a (str_ "horizontal")) eqn:EH; auto.
        apply py_eq_str in EH. rewrite EV in EH. discriminate.
      + cbn [bind]. destruct (py_eq a (str_ "horizontal")) eqn:EH; auto.
        apply py_eq_str in EH. apply Pos. apply DH. left. subst. reflexivity.
    - assert (L : List.length (map VStr names) = S (List.length others)) by (rewrite map_length, (names_len _ _ N); auto).
      destruct (Nat.ltb 1 _) eqn:E2; [|reflexivity]. apply Nat.ltb_lt in E2. rewrite L in E2.
      assert (ON : others <> []) by (destruct others; [cbn in E2; lia|discriminate]).
      cbn [py_eq str_ orb].
      assert (HN' : (r0, c0) :: others <> []) by discriminate.
      destruct (all_same (r0 :: map fst others) && distinct (c0 :: map snd others)) eqn:EV.
      + apply andb_true_iff in EV. destruct EV as [EV1 EV2]. rewrite distinct_NoDup in EV2.
        apply (in_one_row_iff ((r0, c0) :: others)) in EV1; auto.
        rewrite (Pos r0) by (apply DV; right; auto). cbn [bind].
        destruct (all_same (c0 :: map snd others) && distinct (r0 :: map fst others)) eqn:EH; auto.
        apply andb_true_iff in EH. destruct EH as [EH1 EH2]. rewrite distinct_NoDup in EH2.
        apply (in_one_column_iff ((r0, c0) :: others)) in EH1; auto.
        apply (Pos c0). apply DH; right; auto.
      + cbn [bind]. destruct (all_same (c0 :: map snd others) && distinct (r0 :: map fst others)) eqn:EH; auto.
        apply andb_true_iff in EH. destruct EH as [EH1 EH2]. rewrite distinct_NoDup in EH2.
        apply (in_one_column_iff ((r0, c0) :: others)) in EH1; auto.
        apply (Pos c0). apply DH; right; auto. }
  rewrite CC. cbn [bind].
  destruct (num_series_some d6 n_headers_coord _ (dget_In _ _ _ H6)) as [ns NS]; [discriminate|].
  rewrite NS.
  assert (D7 : exists d7, (if truthy (dgetN n_time_multicolumn d6) then Ok d6
            else do g <- guess_time_multicolumn (VList (map VStr ts)) (Some ns);
                 Ok (dset n_time_multicolumn g d6)) = Ok d7 /\ tm_ok d7 /\
            (d7 = d6 \/ exists g, d7 = dset n_time_multicolumn g d6)).
  { destruct (truthy (dgetN n_time_multicolumn d6)) eqn:T.
    - exists d6. split; auto. split; auto. unfold tm_ok, dgetE. unfold dgetN in T.
      destruct (dget n_time_multicolumn d6) as [v|]; [|discriminate]. cbn [bind].
      destruct v; try (eexists; reflexivity). destruct l; [discriminate|]. eexists; reflexivity.
    - destruct (guess_multi_total ts tcells ns TS TSN) as [b G]. rewrite G. cbn [bind].
      eexists. split; auto. split; eauto. exists (VBool b). unfold dgetE. rewrite dget_dset_same. reflexivity. }
  destruct D7 as [d7 [D7 [TM7 D7c]]]. rewrite D7. cbn [bind].
  assert (D8 : exists d8, (if truthy (dgetN n_alignment d7) then Ok d7
            else do g <- guess_alignment (VList (map VStr names));
                 Ok (dset n_alignment g d7)) = Ok d8 /\ (d8 = d7 \/ exists g, d8 = dset n_alignment g d7)).
  { destruct (truthy (dgetN n_alignment d7)); eauto.
    destruct (guess_total names headers N) as [g G]. rewrite G. cbn [bind]. eauto. }
  destruct D8 as [d8 [D8 D8c]]. rewrite D8. cbn [bind].
  assert (S8 : forall k, k <> n_time_multicolumn -> k <> n_alignment -> dget k d8 = dget k d6).
  { intros k A B. destruct D8c as [->|[g ->]]; rewrite ?dget_dset_other by congruence;
    destruct D7c as [->|[g' ->]]; rewrite ?dget_dset_other by congruence; auto. }
  assert (TM8 : tm_ok d8).
  { destruct D8c as [->|[g ->]]; auto. destruct TM7 as [x X]. exists x. unfold dgetE in *.
    rewrite dget_dset_other by discriminate. auto. }
  assert (K8 : forall k, In k (map fst d8) -> In k PARAM_NAMES).
  { assert (K7 : forall k, In k (map fst d7) -> In k PARAM_NAMES).
    { intros k Hk. destruct D7c as [->|[g ->]]; auto. rewrite dset_In_keys in Hk. destruct Hk as [->|Hk]; auto. cbn; tauto. }
    intros k Hk. destruct D8c as [->|[g ->]]; auto. rewrite dset_In_keys in Hk. destruct Hk as [->|Hk]; auto. cbn; tauto. }
  assert (N8 : NoDup (map fst d8)).
  { destruct D8c as [->|[g ->]]; destruct D7c as [->|[g' ->]]; repeat apply dset_NoDup; auto. }
  destruct (apply_all_total ns (map fst d8) d8) as [d9 D9]; auto.
  - apply Forall_forall. auto.
  - apply Forall_forall. auto.
  - intros _. unfold dgetN. rewrite S8 by discriminate. rewrite TH6.
    destruct ts as [|t ts]; [congruence|]. cbn [map]. eauto.
  - intros _. intros m l. unfold dgetN. rewrite S8 by discriminate. rewrite MV6. apply MV2.
  - rewrite D9. cbn [bind]. apply apply_optional_total.
Qed.
