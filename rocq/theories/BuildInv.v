(** Inversion of a successful [build]. *)
From Coq Require Import ZifyBool ZifyNat ZifyN.
From Verif Require Import Base BaseFacts Coord XlMethods Params BuildFacts.
Local Open Scope Z_scope.

(** ** Broadcasting *)
Definition first_of (v : pyval) : res pyval :=
  match v with VList _ => py_index v 0 | _ => Ok v end.

Lemma first_gen v ns vv : first_of (apply_to_all_gen v ns vv) = first_of v \/
  (is_none v = true /\ exists x, first_of (apply_to_all_gen v ns vv) = Ok x /\ x = VNone).
Proof.
  unfold apply_to_all_gen. destruct (is_none v && _ && _) eqn:E.
  - right. split; [destruct (is_none v); auto|]. exists VNone. auto.
  - left. destruct v; try (destruct ns as [[|n]|]; cbn; auto; fail).
    destruct l as [|x [|y l]]; auto. destruct ns as [[|n]|]; cbn; auto.
Qed.
Lemma first_gen' v ns vv : first_of (apply_to_all_gen v ns vv) = first_of v.
Proof.
  destruct (first_gen v ns vv) as [H|[H [x [H1 ->]]]]; auto.
  destruct v; cbn in H; try discriminate. auto.
Qed.

Lemma time_header_dep thc ns p p' vv :
  (do t <- dgetE n_time_multicolumn p; first_of t) = (do t <- dgetE n_time_multicolumn p'; first_of t) ->
  apply_to_all_time_header thc ns p vv = apply_to_all_time_header thc ns p' vv.
Proof.
  intros H. unfold apply_to_all_time_header.
  destruct (match thc with VList _ => _ | _ => _ end) as [[]|]; cbn [bind]; auto.
  destruct (dgetE n_time_multicolumn p) as [a|], (dgetE n_time_multicolumn p') as [a'|]; cbn [bind] in *.
  - fold (first_of a). fold (first_of a'). rewrite H. auto.
  - change (match a with VList _ => py_index a 0 | _ => Ok a end) with (first_of a). rewrite H. auto.
  - change (match a' with VList _ => py_index a' 0 | _ => Ok a' end) with (first_of a'). rewrite <- H. auto.
  - auto.
Qed.

Lemma apply_to_all_dep k v ns p p' vv :
  (do t <- dgetE n_time_multicolumn p; first_of t) = (do t <- dgetE n_time_multicolumn p'; first_of t) ->
  apply_to_all k v ns p vv = apply_to_all k v ns p' vv.
Proof.
  intros H. unfold apply_to_all. destruct (text_eqb k n_time_header); auto.
  apply time_header_dep; auto.
Qed.

Lemma apply_all_spec ns keys : forall d d', NoDup keys -> apply_all ns keys d = Ok d' ->
  (forall k, In k keys -> exists v vv v', dget k d = Some v /\ valid_values k = Ok vv /\
      apply_to_all k v ns d vv = Ok v' /\ dget k d' = Some v') /\
  (forall k, ~ In k keys -> dget k d' = dget k d) /\
  (Forall (fun k => In k (map fst d)) keys -> map fst d' = map fst d) /\
  (do t <- dgetE n_time_multicolumn d'; first_of t) = (do t <- dgetE n_time_multicolumn d; first_of t).
Proof.
  unfold apply_all. induction keys as [|k keys IH]; intros d d' N H; cbn [foldM] in H.
  - inversion H; subst. split; [intros k []|]. auto.
  - apply bind_ok in H. destruct H as [d1 [Hs H2]].
    apply bind_ok in Hs. destruct Hs as [a [EA Hs]].
    apply bind_ok in Hs. destruct Hs as [a0 [E0 Hs]].
    apply bind_ok in Hs. destruct Hs as [a1 [E1 Hs]].
    inversion Hs; subst d1; clear Hs.
    inversion N as [|? ? H3 H4]; subst.
    assert (Hd : dget k d = Some a0) by (apply dgetE_ok; auto).
    assert (TM : (do t <- dgetE n_time_multicolumn (dset k a1 d); first_of t)
                 = (do t <- dgetE n_time_multicolumn d; first_of t)).
    { rewrite dgetE_dset. destruct (text_eqb k n_time_multicolumn) eqn:E2; auto.
      apply text_eqb_eq in E2; subst k. cbn [bind]. rewrite E0 in *. cbn [bind].
      change (apply_to_all n_time_multicolumn a0 ns d a) with (Ok (apply_to_all_gen a0 ns a)) in E1.
      inversion E1; subst. apply first_gen'. }
    destruct (IH _ _ H4 H2) as [A [B [C D]]]. split; [|split; [|split]].
    + intros k' [<-|Hk].
      * exists a0, a, a1. rewrite (B k) by auto. rewrite dget_dset_same. auto.
      * destruct (A k' Hk) as [v [vv [v' [V1 [V2 [V3 V4]]]]]].
        rewrite dget_dset_other in V1 by congruence.
        exists v, vv, v'. repeat split; auto. rewrite <- V3. symmetry. apply apply_to_all_dep; auto.
    + intros k' Hk. rewrite B by (intros F; apply Hk; right; auto). rewrite dget_dset_other; auto.
      intros ->. apply Hk. left; auto.
    + intros F. inversion F as [|? ? H5 H6]; subst. rewrite C.
      * apply dset_keys; auto.
      * eapply Forall_impl; [|exact H6]. intros. apply dset_keep; auto.
    + rewrite D. exact TM.
Qed.

Definition filled (n : nat) (v : pyval) : pyval := if truthy v then v else VList (repeat VNone n).

Lemma apply_optional_spec n d d' : apply_optional (Some (S n)) d = Ok d' ->
  forall k, dget k d' = if text_in k OPTIONAL then Some (filled (S n) (dgetN k d)) else dget k d.
Proof.
  unfold apply_optional. intros H.
  assert (G : forall ks, NoDup ks -> incl ks OPTIONAL -> forall d d',
    foldM (fun acc k => if negb (truthy (dgetN k acc)) then
      do def <- dgetE k DEFAULT_VALUES; do vv <- valid_values k;
      do v' <- apply_to_all k def (Some (S n)) acc vv; Ok (dset k v' acc) else Ok acc) ks d = Ok d' ->
    forall k, dget k d' = if text_in k ks then Some (filled (S n) (dgetN k d)) else dget k d).
  { clear. induction ks as [|k ks IH]; intros N I d d' H k'; cbn [foldM] in H.
    - inversion H; subst; auto.
    - inv_bind H. rename a into d1. inversion N as [|? ? H2 H3]; subst.
      assert (dget k d1 = Some (filled (S n) (dgetN k d)) /\ forall k', k' <> k -> dget k' d1 = dget k' d).
      { assert (HO : In k OPTIONAL) by (apply I; left; auto).
        unfold filled. destruct (truthy (dgetN k d)) eqn:T; cbn [negb] in E.
        - inversion E; subst. split; auto. unfold dgetN in *. destruct (dget k d1); auto. discriminate.
        - assert (E' : Ok (dset k (VList (repeat VNone (S n))) d) = Ok d1).
          { rewrite <- E. cbn in HO. destruct HO as [<-|[<-|[<-|[<-|[]]]]]; reflexivity. }
          inversion E'; subst. rewrite dget_dset_same. split; auto. intros. apply dget_dset_other; auto. }
      destruct H0 as [A B]. rewrite (IH H3 (fun x Hx => I x (or_intror Hx)) _ _ H k').
      cbn [text_in existsb]. destruct (text_eqb k' k) eqn:E2; cbn [orb].
      + apply text_eqb_eq in E2; subst k'. replace (existsb (text_eqb k) ks) with (text_in k ks) by auto.
        destruct (text_in k ks) eqn:E3; [apply text_in_In in E3; contradiction|]. auto.
      + apply text_eqb_neq in E2. change (existsb (text_eqb k') ks) with (text_in k' ks).
        destruct (text_in k' ks); unfold dgetN; rewrite B; auto. }
  apply (G OPTIONAL); auto.
  - vm_compute. repeat constructor; cbn; intuition discriminate.
  - intros x; auto.
Qed.

(** ** The number of series *)
Definition ns_step (acc : option nat) (kv : text * pyval) : option nat :=
  match snd kv with
  | VList l =>
      if text_eqb (fst kv) n_missing_value then acc
      else match acc with
           | Some n => if Nat.eqb n 0 || Nat.ltb n (List.length l) then Some (List.length l) else acc
           | None => Some (List.length l)
           end
  | _ => acc
  end.
Lemma get_num_series_step d : get_num_series d = fold_left ns_step d None.
Proof. reflexivity. Qed.

(** [ns] is the largest length of the lists in [d], missing_value apart *)
Lemma ns_fold d : forall acc n, fold_left ns_step d acc = Some n ->
  (forall m, acc = Some m -> (m <= n)%nat) /\
  (forall k l, In (k, VList l) d -> k <> n_missing_value -> (List.length l <= n)%nat) /\
  (acc = Some n \/ exists k l, In (k, VList l) d /\ k <> n_missing_value /\ List.length l = n).
Proof.
  induction d as [|[k v] d IH]; intros acc n H; cbn [fold_left] in H.
  - subst acc. split; [intros m E; inversion E; lia|]. split; [intros k l []|left; auto].
  - destruct (IH _ _ H) as [A [B C]]. unfold ns_step in *. cbn [fst snd] in *.
    destruct v; try (split; [auto|split; [intros k' l' [E|E]; [discriminate|eauto]|
      destruct C as [C|[k' [l' [C1 [C2 C3]]]]]; [left; auto|right; exists k', l'; repeat split; auto; right; auto]]]; fail).
    destruct (text_eqb k n_missing_value) eqn:E.
    + apply text_eqb_eq in E; subst k. split; auto. split.
      * intros k' l' [E|E] N; [inversion E; subst; congruence|eauto].
      * destruct C as [C|[k' [l' [C1 [C2 C3]]]]]; [left; auto|right; exists k', l'; repeat split; auto; right; auto].
    + apply text_eqb_neq in E.
      assert (D : (List.length l <= n)%nat /\ (forall m, acc = Some m -> (m <= n)%nat)).
      { destruct acc as [m|].
        - destruct (Nat.eqb m 0 || Nat.ltb m (List.length l)) eqn:E2.
          + specialize (A _ eq_refl). split; auto. intros m' Em; inversion Em; subst. lia.
          + specialize (A _ eq_refl). split; [lia|]. intros m' Em; inversion Em; subst. lia.
        - specialize (A _ eq_refl). split; auto. discriminate. }
      split; [tauto|]. split.
      * intros k' l' [E'|E'] N; [inversion E'; subst; tauto|eauto].
      * destruct C as [C|[k' [l' [C1 [C2 C3]]]]].
        -- destruct acc as [m|].
           ++ destruct (Nat.eqb m 0 || Nat.ltb m (List.length l)).
              ** right. exists k, l. repeat split; auto; [left; auto|congruence].
              ** left; auto.
           ++ right. exists k, l. repeat split; auto; [left; auto|congruence].
        -- right. exists k', l'. repeat split; auto; right; auto.
Qed.
Lemma ns_fold_some d : forall acc, (acc <> None \/ exists k l, In (k, VList l) d /\ k <> n_missing_value) ->
  exists n, fold_left ns_step d acc = Some n.
Proof.
  induction d as [|[k v] d IH]; intros acc H; cbn [fold_left].
  - destruct H as [H|[k [l [[] _]]]]. destruct acc; [eauto|congruence].
  - apply IH. destruct H as [H|[k' [l' [[E|E] N]]]].
    + left. unfold ns_step. cbn [snd fst]. destruct v; auto. destruct (text_eqb k n_missing_value); auto.
      destruct acc; [|congruence]. destruct (_ || _); discriminate.
    + inversion E; subst. left. unfold ns_step. cbn [snd fst].
      rewrite (proj2 (text_eqb_neq _ _) N). destruct acc; [destruct (_ || _)|]; discriminate.
    + right. eauto.
Qed.
Lemma num_series_max d n : get_num_series d = Some n ->
  (forall k l, In (k, VList l) d -> k <> n_missing_value -> (List.length l <= n)%nat) /\
  (exists k l, In (k, VList l) d /\ k <> n_missing_value /\ List.length l = n).
Proof.
  rewrite get_num_series_step. intros H. destruct (ns_fold _ _ _ H) as [_ [A [B|B]]]; [discriminate|]. auto.
Qed.
Lemma num_series_some d k l : In (k, VList l) d -> k <> n_missing_value -> exists n, get_num_series d = Some n.
Proof. intros. rewrite get_num_series_step. apply ns_fold_some. right. eauto. Qed.
Lemma num_series_eq d n :
  (forall k l, In (k, VList l) d -> k <> n_missing_value -> (List.length l <= n)%nat) ->
  (exists k l, In (k, VList l) d /\ k <> n_missing_value /\ List.length l = n) ->
  get_num_series d = Some n.
Proof.
  intros A [k [l [B [C D]]]]. destruct (num_series_some _ _ _ B C) as [m Hm]. rewrite Hm. f_equal.
  destruct (num_series_max _ _ Hm) as [E [k' [l' [F [G H]]]]].
  specialize (E _ _ B C). specialize (A _ _ F G). lia.
Qed.

(** ** Missing defaults *)
Definition defaulted (k : text) (v : pyval) : pyval :=
  if is_none v then
    if text_eqb k n_time_alignment then VInt 0
    else if text_eqb k n_missing_value then dgetN n_missing_value DEFAULT_VALUES
    else v
  else v.
Lemma missings_spec d d' : missings_to_default d = Ok d' ->
  (forall k, dgetN k d' = defaulted k (dgetN k d)) /\
  (forall k, In k (map fst d') <-> In k (map fst d) \/
     (is_none (dgetN k d) = true /\ (k = n_time_alignment \/ k = n_missing_value))) /\
  (NoDup (map fst d) -> NoDup (map fst d')).
Proof.
  unfold missings_to_default, USE_DEFAULT. cbn [foldM].
  change (valid_values n_time_alignment) with (Ok [VInt (-1); VInt 0; VInt 1]).
  change (valid_values n_missing_value) with (@Ok (list pyval) []). cbn [bind].
  change (negb (none_in [VInt (-1); VInt 0; VInt 1])) with true.
  change (negb (none_in [])) with true. rewrite !andb_true_r.
  change (dgetE n_time_alignment DEFAULT_VALUES) with (Ok (VInt 0)).
  change (dgetE n_missing_value DEFAULT_VALUES) with (Ok (dgetN n_missing_value DEFAULT_VALUES)).
  cbn [bind]. unfold defaulted.
  set (MV := dgetN n_missing_value DEFAULT_VALUES).
  destruct (is_none (dgetN n_time_alignment d)) eqn:E1; destruct (is_none (dgetN n_missing_value d)) eqn:E2;
   cbn [bind]; intros H; inversion H; subst d'; clear H; (split; [|split]); try (intros; repeat apply dset_NoDup; auto; fail).
  all: intros k.
  all: try (rewrite ?dgetN_dset; destruct (text_eqb n_missing_value k) eqn:K1;
      [apply text_eqb_eq in K1; subst k; rewrite ?E1, ?E2; rewrite ?text_eqb_refl; try reflexivity|];
      (destruct (text_eqb n_time_alignment k) eqn:K2;
      [apply text_eqb_eq in K2; subst k; rewrite ?E1, ?E2; reflexivity|]);
      rewrite (text_eqb_sym k n_missing_value), (text_eqb_sym k n_time_alignment), K1, K2; destruct (is_none (dgetN k d)); reflexivity).
  all: rewrite ?dset_In_keys.
  - split; [intros [->|[->|H]]; auto|]. intros [H|[H [->| ->]]]; auto.
  - split; [intros [->|H]; auto|]. intros [H|[H [->| ->]]]; auto. congruence.
  - split; [intros [->|H]; auto|]. intros [H|[H [->| ->]]]; auto. congruence.
  - split; auto. intros [H|[H [->| ->]]]; auto; congruence.
Qed.

(** ** Inversion *)
Record built (d0 b : dict) (f th tmv alv ctxv : pyval) (comps hs : list pyval)
    (ns : nat) (d6 d8 d9 : dict) : Prop := mkbuilt {
  bt_critical : check_has_critical d0 = Ok tt;
  bt_freq : exists f0, dget n_frequency d0 = Some f0 /\ curate_frequency f0 = Ok f;
  bt_valid : validate_parameters (dset n_frequency f d0) = Ok tt;
  bt_headers : process_headers_coord (dgetN n_headers_coord d0) = Ok (comps, hs);
  bt_time : unpack_header_ranges (dgetN n_time_header d0) = Ok th;
  bt_context : if truthy (dgetN n_context d0) then process_context (dgetN n_context d0) hs = Ok ctxv
               else ctxv = dgetN n_context d0;
  bt_d6 : forall k, dgetN k d6 =
     if text_eqb k n_frequency then f
     else if text_eqb k n_headers_coord then VList hs
     else if text_eqb k n_composed then (if existsb truthy comps then VList comps else dgetN k d0)
     else if text_eqb k n_time_header then th
     else if text_eqb k n_context then ctxv
     else defaulted k (dgetN k d0);
  bt_consistent : check_consistency d6 = Ok tt;
  bt_ns : get_num_series d6 = Some ns;
  bt_tm : if truthy (dgetN n_time_multicolumn d0) then tmv = dgetN n_time_multicolumn d0
          else guess_time_multicolumn th (Some ns) = Ok tmv;
  bt_al : if truthy (dgetN n_alignment d0) then alv = dgetN n_alignment d0
          else guess_alignment (VList hs) = Ok alv;
  bt_d8 : forall k, dgetN k d8 =
     if text_eqb k n_time_multicolumn then tmv
     else if text_eqb k n_alignment then alv else dgetN k d6;
  bt_keys6 : forall k, In k (map fst d0) -> In k (map fst d6);
  bt_keys6' : forall k, In k (map fst d6) -> In k (map fst d0) \/ In k [n_composed; n_time_alignment; n_missing_value];
  bt_mv6 : In n_missing_value (map fst d6);
  bt_ta6 : In n_time_alignment (map fst d6);
  bt_keys8 : forall k, In k (map fst d8) <-> In k (map fst d6) \/
     (truthy (dgetN n_time_multicolumn d0) = false /\ k = n_time_multicolumn) \/
     (truthy (dgetN n_alignment d0) = false /\ k = n_alignment);
  bt_nodup : NoDup (map fst d0) -> NoDup (map fst d6) /\ NoDup (map fst d8);
  bt_apply : apply_all (Some ns) (map fst d8) d8 = Ok d9;
  bt_optional : apply_optional (Some ns) d9 = Ok b
}.

Lemma dgetN_some k d v : dget k d = Some v -> dgetN k d = v.
Proof. unfold dgetN. intros ->. auto. Qed.
Lemma critical_has d k v : check_has_critical d = Ok tt -> In (k, v) CRITICAL ->
  exists w, dget k d = Some w /\ is_none w = false.
Proof.
  intros H I. unfold check_has_critical in H.
  pose proof (proj1 (foldM_unit (fun kv : text * pyval => match dget (fst kv) d with
           | None => Err ECritical
           | Some v => do vv <- valid_values (fst kv);
               if is_none v && negb (none_in vv) then Err ECritical else Ok tt
           end) CRITICAL) H (k, v) I) as G.
  cbn [fst] in G. destruct (dget k d) as [w|]; [|discriminate]. exists w. split; auto.
  destruct (is_none w); auto. exfalso.
  cbn in I. destruct I as [I|[I|[I|[I|[]]]]]; inversion I; subst; cbn in G; discriminate.
Qed.

Ltac tneq := apply text_eqb_neq; vm_compute; reflexivity.

Lemma build_inv d0 b : build d0 = Ok b ->
  exists f th tmv alv ctxv comps hs ns d6 d8 d9, built d0 b f th tmv alv ctxv comps hs ns d6 d8 d9.
Proof.
  unfold build. intros H.
  inv_bind H. destruct a. rename E into Crit.
  inv_bind H. rename a into f0. rename E into Hf0.
  inv_bind H. rename a into f. rename E into Hf.
  inv_bind H. destruct a. rename E into Val.
  inv_bind H. rename a into d2. rename E into Hm.
  inv_bind H. rename a into hc0. rename E into Hhc.
  inv_bind H. destruct a as [comps hs]. rename E into Hch. cbn [fst snd] in H.
  set (d4 := if existsb truthy comps then _ else _) in H.
  inv_bind H. rename a into th0. rename E into Hth0.
  inv_bind H. rename a into th. rename E into Hth.
  set (d5 := dset n_time_header th d4) in *.
  inv_bind H. rename a into d6. rename E into Hd6.
  inv_bind H. destruct a. rename E into Cons.
  destruct (missings_spec _ _ Hm) as [M1 [M2 M3]].
  apply dgetE_ok in Hf0.
  assert (Nf : dset n_frequency f d0 = dset n_frequency f d0) by auto.
  assert (V4 : forall k, dgetN k d4 =
     if text_eqb k n_composed && existsb truthy comps then VList comps
     else if text_eqb k n_headers_coord then VList hs
     else dgetN k d2).
  { intros k. unfold d4. destruct (existsb truthy comps); rewrite ?andb_true_r, ?andb_false_r, ?dgetN_dset.
    - rewrite (text_eqb_sym n_composed k), (text_eqb_sym n_headers_coord k). auto.
    - rewrite (text_eqb_sym n_headers_coord k). auto. }
  assert (V2 : forall k, dgetN k d2 = if text_eqb k n_frequency then f else defaulted k (dgetN k d0)).
  { intros k. rewrite M1, dgetN_dset, (text_eqb_sym n_frequency k).
    destruct (text_eqb k n_frequency) eqn:E; auto. apply text_eqb_eq in E; subst k.
    unfold defaulted. destruct (is_none f) eqn:E; auto. }
  assert (Vh : hc0 = dgetN n_headers_coord d0).
  { apply dgetE_ok, dgetN_some in Hhc. rewrite V2 in Hhc. rewrite <- Hhc.
    change (text_eqb n_headers_coord n_frequency) with false. cbn beta iota.
    unfold defaulted. destruct (is_none _); reflexivity. }
  assert (Vt : th0 = dgetN n_time_header d0).
  { apply dgetE_ok, dgetN_some in Hth0. rewrite V4 in Hth0.
    change (text_eqb n_time_header n_composed) with false in Hth0.
    change (text_eqb n_time_header n_headers_coord) with false in Hth0. cbn [andb] in Hth0.
    rewrite V2 in Hth0. rewrite <- Hth0. change (text_eqb n_time_header n_frequency) with false.
    unfold defaulted. destruct (is_none _); reflexivity. }
  assert (Vc5 : dgetN n_context d5 = dgetN n_context d0).
  { unfold d5. rewrite dgetN_dset. change (text_eqb n_time_header n_context) with false. cbn beta iota.
    rewrite V4. change (text_eqb n_context n_composed) with false. change (text_eqb n_context n_headers_coord) with false.
    cbn [andb]. rewrite V2. change (text_eqb n_context n_frequency) with false. unfold defaulted. destruct (is_none _); reflexivity. }
  rewrite Vc5 in Hd6.
  assert (C6 : exists ctxv, (if truthy (dgetN n_context d0) then process_context (dgetN n_context d0) hs = Ok ctxv
               else ctxv = dgetN n_context d0) /\
     (d6 = if truthy (dgetN n_context d0) then dset n_context ctxv d5 else d5)).
  { destruct (truthy (dgetN n_context d0)).
    - inv_bind Hd6. inversion Hd6; subst. eauto.
    - inversion Hd6; subst. eauto. }
  destruct C6 as [ctxv [C6a C6b]].
  assert (V6 : forall k, dgetN k d6 =
     if text_eqb k n_frequency then f
     else if text_eqb k n_headers_coord then VList hs
     else if text_eqb k n_composed then (if existsb truthy comps then VList comps else dgetN k d0)
     else if text_eqb k n_time_header then th
     else if text_eqb k n_context then ctxv
     else defaulted k (dgetN k d0)).
  { intros k.
    assert (V5 : dgetN k d5 = if text_eqb k n_time_header then th else dgetN k d4)
      by (unfold d5; rewrite dgetN_dset, text_eqb_sym; auto).
    assert (V6' : dgetN k d6 = if text_eqb k n_context then ctxv else dgetN k d5).
    { rewrite C6b. destruct (text_eqb k n_context) eqn:E.
      - apply text_eqb_eq in E; subst k. destruct (truthy (dgetN n_context d0)); [rewrite dgetN_dset, text_eqb_refl; auto|congruence].
      - destruct (truthy (dgetN n_context d0)); auto. rewrite dgetN_dset, text_eqb_sym, E. auto. }
    rewrite V6', V5, V4, V2.
    destruct (text_eqb k n_frequency) eqn:E1; [apply text_eqb_eq in E1; subst k; reflexivity|].
    destruct (text_eqb k n_headers_coord) eqn:E2; [apply text_eqb_eq in E2; subst k; reflexivity|].
    destruct (text_eqb k n_composed) eqn:E3; [apply text_eqb_eq in E3; subst k; cbn [andb]|].
    { change (text_eqb n_composed n_context) with false. change (text_eqb n_composed n_time_header) with false.
      destruct (existsb truthy comps); auto. unfold defaulted. destruct (is_none _); reflexivity. }
    cbn [andb].
    destruct (text_eqb k n_time_header) eqn:E4; [apply text_eqb_eq in E4; subst k; reflexivity|]. auto. }
  assert (K0 : forall k, In k (map fst (dset n_frequency f d0)) <-> In k (map fst d0)).
  { intros k. rewrite dset_In_keys. split; [intros [->|]; auto|auto]. eapply dget_has; eauto. }
  assert (K6 : forall k, In k (map fst d6) <-> In k (map fst d2) \/ (k = n_composed /\ existsb truthy comps = true)).
  { intros k.
    assert (A : In n_headers_coord (map fst d2)) by (apply dgetE_ok in Hhc; eapply dget_has; eauto).
    assert (A4 : forall k, In k (map fst d4) <-> In k (map fst d2) \/ (k = n_composed /\ existsb truthy comps = true)).
    { intros k'. unfold d4. destruct (existsb truthy comps); rewrite ?dset_In_keys.
      - split; [intros [->|[->|]]; auto|]. intros [|[-> _]]; auto.
      - split; [intros [->|]; auto|]. intros [|[_ C]]; auto. discriminate. }
    assert (A5 : forall k, In k (map fst d5) <-> In k (map fst d4)).
    { intros k'. unfold d5. rewrite dset_In_keys. split; [intros [->|]; auto|auto].
      apply dgetE_ok in Hth0. eapply dget_has; eauto. }
    rewrite C6b. destruct (truthy (dgetN n_context d0)) eqn:TC.
    - rewrite dset_In_keys, A5, A4. split; [intros [->|]; auto|auto]. left. apply M2. left. apply K0.
      unfold dgetN in TC. destruct (dget n_context d0) eqn:E; [eapply dget_has; eauto|discriminate].
    - rewrite A5, A4. tauto. }
  assert (ND6 : NoDup (map fst d0) -> NoDup (map fst d6)).
  { intros N. rewrite C6b. assert (NoDup (map fst d5)).
    { unfold d5. apply dset_NoDup. unfold d4. destruct (existsb truthy comps); repeat apply dset_NoDup; apply M3, dset_NoDup; auto. }
    destruct (truthy _); auto. apply dset_NoDup; auto. }
  assert (L6 : In (n_headers_coord, VList hs) d6).
  { apply dget_In. pose proof (V6 n_headers_coord) as X. rewrite text_eqb_refl in X.
    change (text_eqb n_headers_coord n_frequency) with false in X. cbn beta iota in X.
    unfold dgetN in X. destruct (dget n_headers_coord d6); [congruence|discriminate]. }
  destruct (num_series_some _ _ _ L6) as [ns Hns]; [tneq|].
  rewrite Hns in H.
  inv_bind H. rename a into d7. rename E into H7.
  inv_bind H. rename a into d8. rename E into H8.
  inv_bind H. rename a into d9. rename E into H9.
  assert (TM6 : dgetN n_time_multicolumn d6 = dgetN n_time_multicolumn d0).
  { rewrite V6. change (text_eqb n_time_multicolumn n_frequency) with false.
    change (text_eqb n_time_multicolumn n_headers_coord) with false.
    change (text_eqb n_time_multicolumn n_composed) with false.
    change (text_eqb n_time_multicolumn n_time_header) with false.
    change (text_eqb n_time_multicolumn n_context) with false. unfold defaulted. destruct (is_none _); reflexivity. }
  assert (AL6 : dgetN n_alignment d6 = dgetN n_alignment d0).
  { rewrite V6. change (text_eqb n_alignment n_frequency) with false.
    change (text_eqb n_alignment n_headers_coord) with false.
    change (text_eqb n_alignment n_composed) with false.
    change (text_eqb n_alignment n_time_header) with false.
    change (text_eqb n_alignment n_context) with false. unfold defaulted. destruct (is_none _); reflexivity. }
  rewrite TM6 in H7.
  assert (D7 : exists tmv, (if truthy (dgetN n_time_multicolumn d0) then tmv = dgetN n_time_multicolumn d0
          else guess_time_multicolumn th (Some ns) = Ok tmv) /\
     d7 = if truthy (dgetN n_time_multicolumn d0) then d6 else dset n_time_multicolumn tmv d6).
  { destruct (truthy (dgetN n_time_multicolumn d0)).
    - inversion H7; subst. eauto.
    - inv_bind H7. inversion H7; subst. eauto. }
  destruct D7 as [tmv [D7a D7b]].
  assert (AL7 : dgetN n_alignment d7 = dgetN n_alignment d0).
  { rewrite D7b. destruct (truthy (dgetN n_time_multicolumn d0)); auto. rewrite dgetN_dset. change (text_eqb n_time_multicolumn n_alignment) with false. auto. }
  rewrite AL7 in H8.
  assert (D8 : exists alv, (if truthy (dgetN n_alignment d0) then alv = dgetN n_alignment d0
          else guess_alignment (VList hs) = Ok alv) /\
     d8 = if truthy (dgetN n_alignment d0) then d7 else dset n_alignment alv d7).
  { destruct (truthy (dgetN n_alignment d0)).
    - inversion H8; subst. eauto.
    - inv_bind H8. inversion H8; subst. eauto. }
  destruct D8 as [alv [D8a D8b]].
  exists f, th, tmv, alv, ctxv, comps, hs, ns, d6, d8, d9. constructor; auto.
  - eauto.
  - congruence.
  - congruence.
  - intros k.
    assert (V7 : dgetN k d7 = if text_eqb k n_time_multicolumn then tmv else dgetN k d6).
    { rewrite D7b. destruct (text_eqb k n_time_multicolumn) eqn:E.
      - apply text_eqb_eq in E; subst k. destruct (truthy (dgetN n_time_multicolumn d0)); [congruence|]. rewrite dgetN_dset, text_eqb_refl. auto.
      - destruct (truthy (dgetN n_time_multicolumn d0)); auto. rewrite dgetN_dset, text_eqb_sym, E. auto. }
    assert (V8 : dgetN k d8 = if text_eqb k n_alignment then alv else dgetN k d7).
    { rewrite D8b. destruct (text_eqb k n_alignment) eqn:E.
      - apply text_eqb_eq in E; subst k. destruct (truthy (dgetN n_alignment d0)); [congruence|]. rewrite dgetN_dset, text_eqb_refl. auto.
      - destruct (truthy (dgetN n_alignment d0)); auto. rewrite dgetN_dset, text_eqb_sym, E. auto. }
    rewrite V8, V7. destruct (text_eqb k n_alignment) eqn:E; auto.
    apply text_eqb_eq in E; subst k. reflexivity.
  - intros k Hk. apply K6. left. apply M2. left. apply K0. auto.
  - intros k Hk. apply K6 in Hk. destruct Hk as [Hk|[-> _]]; [|right; left; auto].
    apply M2 in Hk. destruct Hk as [Hk|[_ [->| ->]]]; [left; apply K0; auto|right; cbn; auto|right; cbn; auto].
  - apply K6. left. apply M2. destruct (is_none (dgetN n_missing_value (dset n_frequency f d0))) eqn:E; [right; auto|].
    left. unfold dgetN in E. destruct (dget n_missing_value (dset n_frequency f d0)) eqn:E2; [eapply dget_has; eauto|discriminate].
  - apply K6. left. apply M2. destruct (is_none (dgetN n_time_alignment (dset n_frequency f d0))) eqn:E; [right; auto|].
    left. unfold dgetN in E. destruct (dget n_time_alignment (dset n_frequency f d0)) eqn:E2; [eapply dget_has; eauto|discriminate].
  - intros k.
    assert (K7 : In k (map fst d7) <-> In k (map fst d6) \/ (truthy (dgetN n_time_multicolumn d0) = false /\ k = n_time_multicolumn)).
    { rewrite D7b. destruct (truthy (dgetN n_time_multicolumn d0)); [intuition discriminate|]. rewrite dset_In_keys. intuition. }
    rewrite D8b. destruct (truthy (dgetN n_alignment d0)).
    + rewrite K7. intuition discriminate.
    + rewrite dset_In_keys, K7. intuition.
  - intros N. split; auto. rewrite D8b, D7b. destruct (truthy (dgetN n_alignment d0)), (truthy (dgetN n_time_multicolumn d0)); repeat apply dset_NoDup; auto.
Qed.

Lemma dgetN_in k d : In k (map fst d) -> dget k d = Some (dgetN k d).
Proof.
  intros H. unfold dgetN. destruct (dget k d) eqn:E; auto. apply dget_None in E. contradiction.
Qed.

(** the value of a parameter after broadcasting *)
Lemma built_d9 d0 b f th tmv alv ctxv comps hs ns d6 d8 d9 :
  built d0 b f th tmv alv ctxv comps hs ns d6 d8 d9 -> NoDup (map fst d0) ->
  (forall k, In k (map fst d8) -> exists vv, valid_values k = Ok vv /\
     apply_to_all k (dgetN k d8) (Some ns) d8 vv = Ok (dgetN k d9) /\ In k (map fst d9)) /\
  (forall k, In k (map fst d9) <-> In k (map fst d8)).
Proof.
  intros B N. destruct (bt_nodup _ _ _ _ _ _ _ _ _ _ _ _ _ B N) as [_ N8].
  destruct (apply_all_spec _ _ _ _ N8 (bt_apply _ _ _ _ _ _ _ _ _ _ _ _ _ B)) as [A [_ [C _]]].
  assert (K : map fst d9 = map fst d8) by (apply C; apply Forall_forall; auto).
  split.
  - intros k Hk. destruct (A k Hk) as [v [vv [v' [V1 [V2 [V3 V4]]]]]].
    exists vv. rewrite (dgetN_some _ _ _ V1), (dgetN_some _ _ _ V4), K. auto.
  - intros k. rewrite K. tauto.
Qed.
Lemma built_value d0 b f th tmv alv ctxv comps hs n d6 d8 d9 :
  built d0 b f th tmv alv ctxv comps hs (S n) d6 d8 d9 ->
  forall k, dgetN k b = if text_in k OPTIONAL then filled (S n) (dgetN k d9) else dgetN k d9.
Proof.
  intros B k. unfold dgetN at 1.
  rewrite (apply_optional_spec _ _ _ (bt_optional _ _ _ _ _ _ _ _ _ _ _ _ _ B) k).
  destruct (text_in k OPTIONAL); auto.
Qed.
