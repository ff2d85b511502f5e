(** Validation, broadcasting and guesses (C06 - C13). *)
From Coq Require Import ZifyBool ZifyNat ZifyN.
From Verif Require Import Base BaseFacts Coord XlMethods Params CoordFacts
  SpecCoord SpecParams SpecCoordFacts HeaderFacts ScopeFacts BuildFacts BuildInv.
Local Open Scope Z_scope.

(** ** C06 *)
Lemma not_given_cases k d : ~ given k d -> dget k d = None \/ dget k d = Some VNone.
Proof.
  unfold given. intros H. destruct (dget k d) as [v|]; auto. right. f_equal.
  destruct v; auto; exfalso; apply H; eexists; (split; [reflexivity|discriminate]).
Qed.
Lemma given_dec k d : {given k d} + {~ given k d}.
Proof.
  unfold given. destruct (dget k d) as [[]|].
  1: right; intros [v [H N]]; inversion H; congruence.
  9: right; intros [v [H N]]; discriminate.
  all: left; eexists; split; [reflexivity|discriminate].
Defined.
Lemma crit_step d k : In k critical_names ->
  (match dget k d with
   | None => Err ECritical
   | Some v => do vv <- valid_values k; if is_none v && negb (none_in vv) then Err ECritical else Ok tt
   end) = if given_dec k d then Ok tt else Err ECritical.
Proof.
  intros H.
  assert (exists vv, valid_values k = Ok vv /\ none_in vv = false).
  { cbn in H. destruct H as [<-|[<-|[<-|[<-|[]]]]]; eexists; split; reflexivity. }
  destruct H0 as [vv [V1 V2]]. destruct (given_dec k d) as [G|G].
  - destruct G as [v [G1 G2]]. rewrite G1, V1. cbn [bind]. destruct v; auto. congruence.
  - destruct (not_given_cases _ _ G) as [E|E]; rewrite E; auto. rewrite V1. cbn [bind is_none andb]. rewrite V2. auto.
Qed.
Lemma critical_iff d : check_has_critical d =
  if forallb (fun k => if given_dec k d then true else false) critical_names then Ok tt else Err ECritical.
Proof.
  unfold check_has_critical.
  unfold CRITICAL. cbv zeta. cbn [foldM fst].
  change n_time_header with (pname "time_header_coord"). change n_headers_coord with (pname "headers_coord").
  change n_data_starts with (pname "data_starts"). change n_frequency with (pname "frequency").
  rewrite !crit_step by (cbn; auto). unfold critical_names. cbn [forallb].
  destruct (given_dec (pname "time_header_coord") d); cbn [bind andb]; auto.
  destruct (given_dec (pname "headers_coord") d); cbn [bind andb]; auto.
  destruct (given_dec (pname "data_starts") d); cbn [bind andb]; auto.
  destruct (given_dec (pname "frequency") d); cbn [bind andb]; auto.
Qed.
Lemma missing_critical d k : In k critical_names -> ~ given k d -> build d = Err ECritical.
Proof.
  intros H N. unfold build. rewrite critical_iff.
  replace (forallb _ critical_names) with false; auto. symmetry. apply not_true_is_false. intros F.
  rewrite forallb_forall in F. specialize (F k H). destruct (given_dec k d); [contradiction|discriminate].
Qed.

(** ** C07 *)
Lemma py_eq_str v t : py_eq v (VStr t) = true -> v = VStr t.
Proof. destruct v; cbn; try discriminate. intros H. f_equal. apply text_eqb_eq; auto. Qed.
Lemma py_eq_none v : py_eq v VNone = true -> v = VNone.
Proof. destruct v; cbn; try discriminate; auto. Qed.
Lemma py_eq_type v t : isinstance v t || py_eq v (VType t) = true -> isinstance v t = true \/ v = VType t.
Proof.
  intros H. apply orb_true_iff in H. destruct H as [H|H]; auto.
  right. destruct v; cbn in H; try discriminate. destruct t, t0; try discriminate; auto.
Qed.

Lemma validate_each k v vv : text_eqb k n_frequency = false -> text_eqb k n_context = false ->
  valid_values k = Ok vv -> is_none v = false -> validate_one k v = Ok tt ->
  each (fun x => valid_param_value x vv = true) v.
Proof.
  intros F C V N H. unfold validate_one in H. rewrite N, F, C in H.
  pose proof (proj1 (foldM_unit (fun v => do vv0 <- valid_values k; if valid_param_value v vv0 then Ok tt else Err EInvalid) _) H) as G.
  assert (G' : forall x, In x (match v with VList l => l | _ => [v] end) -> valid_param_value x vv = true).
  { intros x Hx. specialize (G x Hx). rewrite V in G. cbn [bind] in G. destruct (valid_param_value x vv); auto. discriminate. }
  unfold each. destruct v; try (apply G'; left; auto; fail). apply Forall_forall. auto.
Qed.
Lemma each_impl (P Q : pyval -> Prop) v : (forall x, not_type x -> P x -> Q x) -> plain v -> each P v -> each Q v.
Proof.
  intros H [N1 N2] E. unfold each in *. destruct v; auto.
  rewrite Forall_forall in *. auto.
Qed.

Lemma known_cases k vv : vget k VALID_VALUES = Some vv ->
  In (k, vv) VALID_VALUES.
Proof.
  generalize VALID_VALUES. induction l as [|[k' v'] l IH]; cbn; [discriminate|].
  destruct (text_eqb k k') eqn:E; auto. apply text_eqb_eq in E; subst. intros H; inversion H; auto.
Qed.
Lemma valid_values_in k vv : valid_values k = Ok vv -> In (k, vv) VALID_VALUES.
Proof. unfold valid_values. destruct (vget k VALID_VALUES) eqn:E; [|discriminate]. intros H; inversion H; subst. apply known_cases; auto. Qed.

Lemma freq_translation_reading t : freq_translation (upper t) = freq_reading t.
Proof. reflexivity. Qed.
Lemma valid_freq_text v vv : valid_values n_frequency = Ok vv -> valid_freq v vv = true ->
  exists t, v = VStr t /\ Forall (fun c => In c (pname "ASQMWD")) t.
Proof.
  intros V H. inversion V; subst; clear V. destruct v; cbn in H; try discriminate. exists t. split; auto.
  apply Forall_forall. intros c Hc. rewrite forallb_forall in H. specialize (H c Hc).
  cbn [existsb py_eq text_eqb str_ T list_ascii_of_string] in H. rewrite !andb_true_r, !orb_false_r in H.
  cbn. repeat (apply orb_true_iff in H; destruct H as [H|H]); apply ch_eqb_eq in H; subst; auto 10.
Qed.

Lemma curate_each f0 f : curate_frequency f0 = Ok f -> validate_one n_frequency f = Ok tt -> each frequency_text f0.
Proof.
  intros C V. unfold curate_frequency in C.
  assert (G : forall l, foldM (fun _ v => do vv <- valid_values n_frequency; if valid_freq v vv then Ok tt else Err EInvalid) l tt = Ok tt ->
     forall l0, mapM curate_freq_value l0 = Ok l -> Forall frequency_text l0).
  { intros l H l0 M. pose proof (proj1 (foldM_unit (fun v => do vv <- valid_values n_frequency; if valid_freq v vv then Ok tt else Err EInvalid) l) H) as G.
    apply mapM_ok in M. clear H. induction M as [|x y l0 l Hx M IH]; constructor.
    - specialize (G y (or_introl eq_refl)). cbn [bind] in G.
      destruct (valid_freq y [str_ "A"; str_ "S"; str_ "Q"; str_ "M"; str_ "W"; str_ "D"]) eqn:E.
      2:{ unfold valid_values in G. cbn in G. fold (valid_freq y [str_ "A"; str_ "S"; str_ "Q"; str_ "M"; str_ "W"; str_ "D"]) in G.
          rewrite E in G. discriminate. }
      destruct (valid_freq_text y _ eq_refl E) as [t [-> F]]. destruct x; cbn in Hx; try discriminate.
      inversion Hx; subst. exists t0. split; auto.
    - apply IH. intros z Hz. apply G. right; auto. }
  destruct f0; try discriminate.
  - cbn in C. inversion C; subst. unfold validate_one in V. cbn [is_none] in V.
    specialize (G [VStr (freq_translation (upper t))] V [VStr t] eq_refl). inversion G; auto.
  - inv_bind C. inversion C; subst. unfold validate_one in V. cbn [is_none] in V. exact (G a V l E).
Qed.

Lemma validate_acceptable k v : In k (map fst VALID_VALUES) -> k <> n_frequency -> plain v ->
  validate_one k v = Ok tt -> acceptable k v.
Proof.
  intros K NF P H. destruct (is_none v) eqn:N; [destruct v; try discriminate; constructor|].
  assert (EV : forall vv, text_eqb k n_context = false -> valid_values k = Ok vv -> each (fun x => valid_param_value x vv = true) v).
  { intros vv C V. eapply validate_each; eauto. apply text_eqb_neq; auto. }
  cbn [VALID_VALUES map fst] in K.
  repeat (destruct K as [K|K]; [subst k|]); try contradiction.
  - apply acc_alignment. eapply each_impl; [|exact P|apply (EV _ eq_refl eq_refl)].
    intros x _ Hx. cbn [valid_param_value existsb str_] in Hx. rewrite orb_false_r in Hx.
    apply orb_true_iff in Hx. destruct Hx as [Hx|Hx]; apply py_eq_str in Hx; auto.
  - apply acc_names. eapply each_impl; [|exact P|apply (EV _ eq_refl eq_refl)].
    intros x NT Hx. destruct x; cbn in Hx; try discriminate; [right|left; eexists|exfalso; eapply NT]; reflexivity.
  - apply acc_headers. eapply each_impl; [|exact P|apply (EV _ eq_refl eq_refl)].
    intros x NT Hx. destruct x; cbn in Hx; try discriminate; [eexists|exfalso; eapply NT]; reflexivity.
  - apply acc_composed. eapply each_impl; [|exact P|apply (EV _ eq_refl eq_refl)].
    intros x NT Hx. destruct x; cbn in Hx; try discriminate;
      [right; right|right; left; eexists|left; eexists|exfalso; eapply NT]; reflexivity.
  - destruct v; try (unfold validate_one in H; cbn in H; discriminate).
    + destruct l; [apply acc_no_context|]. unfold validate_one in H; cbn in H; discriminate.
    + apply acc_context. unfold validate_one in H. cbn [is_none foldM] in H.
      change (text_eqb n_context n_frequency) with false in H. change (text_eqb n_context n_context) with true in H.
      cbn beta iota in H. change (valid_values n_context) with (Ok [VType TyDict; VType TyList; VType TyStr; VType TyStr; VNone]) in H.
      cbn [bind] in H.
      destruct (forallb _ d) eqn:E in H; [|discriminate].
      rewrite forallb_forall in E. destruct P as [_ P]. rewrite Forall_forall in *. intros [k v] Hkv.
      specialize (E _ Hkv). specialize (P _ Hkv). cbn [snd] in *.
      destruct v; cbn in E; try discriminate;
      [right; right; right|right; right; left; eexists|right; left; eexists|left; eexists|exfalso; eapply P]; reflexivity.
  - apply acc_data_starts. eapply each_impl; [|exact P|apply (EV _ eq_refl eq_refl)].
    intros x NT Hx. destruct x; cbn in Hx; try discriminate; [right; eexists|left; eexists|exfalso; eapply NT]; reflexivity.
  - apply acc_data_ends. eapply each_impl; [|exact P|apply (EV _ eq_refl eq_refl)].
    intros x NT Hx. destruct x; cbn in Hx; try discriminate;
      [right; reflexivity|left; right; eexists; reflexivity|left; left; eexists; reflexivity|exfalso; eapply NT; reflexivity].
  - apply acc_flag; [cbn; auto|]. eapply each_impl; [|exact P|apply (EV _ eq_refl eq_refl)].
    intros x _ Hx. cbn [valid_param_value existsb] in Hx. rewrite orb_false_r in Hx. apply orb_true_iff in Hx. exact Hx.
  - apply acc_flag; [cbn; auto|]. eapply each_impl; [|exact P|apply (EV _ eq_refl eq_refl)].
    intros x _ Hx. cbn [valid_param_value existsb] in Hx. rewrite orb_false_r in Hx. apply orb_true_iff in Hx. exact Hx.
  - apply acc_flag; [cbn; auto|]. eapply each_impl; [|exact P|apply (EV _ eq_refl eq_refl)].
    intros x _ Hx. cbn [valid_param_value existsb] in Hx. rewrite orb_false_r in Hx. apply orb_true_iff in Hx. exact Hx.
  - apply acc_missing_value.
  - apply acc_time_alignment. eapply each_impl; [|exact P|apply (EV _ eq_refl eq_refl)].
    intros x _ Hx. cbn [valid_param_value existsb] in Hx. rewrite orb_false_r in Hx.
    apply orb_true_iff in Hx. destruct Hx as [Hx|Hx]; auto. apply orb_true_iff in Hx. tauto.
  - apply acc_flag; [cbn; auto|]. eapply each_impl; [|exact P|apply (EV _ eq_refl eq_refl)].
    intros x _ Hx. cbn [valid_param_value existsb] in Hx. rewrite orb_false_r in Hx. apply orb_true_iff in Hx. exact Hx.
  - apply acc_time_header. eapply each_impl; [|exact P|apply (EV _ eq_refl eq_refl)].
    intros x NT Hx. destruct x; cbn in Hx; try discriminate; [left; eexists|right; eexists|exfalso; eapply NT]; reflexivity.
  - apply acc_flag; [cbn; auto 6|]. eapply each_impl; [|exact P|apply (EV _ eq_refl eq_refl)].
    intros x _ Hx. cbn [valid_param_value existsb] in Hx. rewrite orb_false_r in Hx. apply orb_true_iff in Hx. exact Hx.
Qed.

Lemma built_known d0 b f th tmv alv ctxv comps hs ns d6 d8 d9 k :
  built d0 b f th tmv alv ctxv comps hs ns d6 d8 d9 -> NoDup (map fst d0) ->
  In k (map fst d0) -> In k (map fst VALID_VALUES).
Proof.
  intros B N Hk. destruct (built_d9 _ _ _ _ _ _ _ _ _ _ _ _ _ B N) as [D9 _].
  destruct (D9 k) as [vv [V _]].
  - apply (bt_keys8 _ _ _ _ _ _ _ _ _ _ _ _ _ B). left. apply (bt_keys6 _ _ _ _ _ _ _ _ _ _ _ _ _ B); auto.
  - apply valid_values_in in V. apply in_map_iff. exists (k, vv); auto.
Qed.

Lemma build_acceptable d b k v : NoDup (map fst d) -> build d = Ok b -> In (k, v) d -> plain v ->
  acceptable k v.
Proof.
  intros N Hb Hk P.
  destruct (build_inv _ _ Hb) as [f [th [tmv [alv [ctxv [comps [hs [ns [d6 [d8 [d9 B]]]]]]]]]]].
  assert (K : In k (map fst VALID_VALUES)).
  { eapply built_known; eauto. apply in_map_iff. exists (k, v); auto. }
  pose proof (bt_valid _ _ _ _ _ _ _ _ _ _ _ _ _ B) as V. unfold validate_parameters in V.
  pose proof (proj1 (foldM_unit (fun kv => validate_one (fst kv) (snd kv)) _) V) as V'.
  destruct (text_dec k n_frequency) as [->|NF].
  - apply acc_frequency. destruct (bt_freq _ _ _ _ _ _ _ _ _ _ _ _ _ B) as [f0 [F1 F2]].
    rewrite (dget_NoDup _ _ _ N Hk) in F1. inversion F1; subst f0.
    eapply curate_each; eauto. apply (V' (n_frequency, f)). apply dget_In. apply dget_dset_same.
  - apply validate_acceptable; auto. apply (V' (k, v)). apply dget_In. rewrite dget_dset_other by congruence.
    apply dget_NoDup; auto.
Qed.
Lemma build_known d b k v : NoDup (map fst d) -> build d = Ok b -> In (k, v) d -> In k PARAM_NAMES.
Proof.
  intros N Hb Hk.
  destruct (build_inv _ _ Hb) as [f [th [tmv [alv [ctxv [comps [hs [ns [d6 [d8 [d9 B]]]]]]]]]]].
  change PARAM_NAMES with (map fst VALID_VALUES). eapply built_known; eauto. apply in_map_iff. exists (k, v); auto.
Qed.

(** ** C08 *)
Lemma build_freq_same v1 v2 d : is_none v1 = is_none v2 -> curate_frequency v1 = curate_frequency v2 ->
  build (dset n_frequency v1 d) = build (dset n_frequency v2 d).
Proof.
  intros H1 H2. unfold build. rewrite (check_critical_dset _ v1 v2) by auto.
  rewrite !dgetE_dset, !text_eqb_refl. cbn [bind]. rewrite H2. 
  destruct (check_has_critical _) as [[]|]; cbn [bind]; auto.
  destruct (curate_frequency v2) as [f|]; cbn [bind]; auto. rewrite !dset_dset. auto.
Qed.
Lemma c08_text t t' d : freq_reading t = freq_reading t' ->
  build (dset n_frequency (VStr t) d) = build (dset n_frequency (VStr t') d).
Proof. intros H. apply build_freq_same; auto. cbn. rewrite !freq_translation_reading, H. auto. Qed.
Lemma c08_list ts ts' d : map freq_reading ts = map freq_reading ts' ->
  build (dset n_frequency (VList (map VStr ts)) d) = build (dset n_frequency (VList (map VStr ts')) d).
Proof.
  intros H. apply build_freq_same; auto. cbn [curate_frequency].
  assert (G : forall l, mapM curate_freq_value (map VStr l) = Ok (map VStr (map freq_reading l))).
  { intros l. rewrite (mapM_pure _ (fun v => match v with VStr t => VStr (freq_reading t) | _ => v end)).
    - f_equal. rewrite !map_map. auto.
    - intros x Hx. apply in_map_iff in Hx. destruct Hx as [t [<- _]]. reflexivity. }
  rewrite !G, H. auto.
Qed.

(** ** C09, C10: what every series sees *)
Lemma params_of_get b k : In k PARAM_NAMES -> dgetN k (params_of b) = dgetN k b.
Proof.
  unfold params_of. intros H. unfold dgetN at 1.
  assert (G : forall l, In k l -> dget k (map (fun k => (k, dgetN k b)) l) = Some (dgetN k b)).
  { induction l as [|k' l IH]; cbn; [intros []|]. intros [->|Hl].
    - rewrite text_eqb_refl. auto.
    - destruct (text_eqb k k') eqn:E; auto. apply text_eqb_eq in E; subst; auto. }
  rewrite G; auto.
Qed.
Lemma params_of_In b k v : In (k, v) (params_of b) <-> In k PARAM_NAMES /\ v = dgetN k b.
Proof.
  unfold params_of. rewrite in_map_iff. split.
  - intros [k' [E H]]. inversion E; subst; auto.
  - intros [H ->]. exists k; auto.
Qed.

Definition bcast (n : nat) (v : pyval) : pyval :=
  match v with
  | VList [x] => VList (repeat x n)
  | VList _ => v
  | _ => VList (repeat v n)
  end.
Lemma gen_bcast v n vv : v <> VNone \/ none_in vv = true \/ vv = [] -> apply_to_all_gen v (Some (S n)) vv = bcast (S n) v.
Proof.
  intros H. unfold apply_to_all_gen.
  replace (is_none v && negb (Nat.eqb (List.length vv) 0) && negb (none_in vv)) with false.
  - destruct v as [| | | | | |[|x [|y l]]| |]; reflexivity.
  - symmetry. destruct H as [H|[H|H]].
    + destruct v; auto. congruence.
    + rewrite H. rewrite !andb_false_r. auto.
    + subst. cbn. rewrite andb_false_r. auto.
Qed.

Section built_facts.
Context {d0 b : dict} {f th tmv alv ctxv : pyval} {comps hs : list pyval} {n : nat} {d6 d8 d9 : dict}.
Hypothesis B : built d0 b f th tmv alv ctxv comps hs (S n) d6 d8 d9.
Hypothesis ND : NoDup (map fst d0).

Lemma b_in8 k : In k (map fst d0) -> In k (map fst d8).
Proof.
  intros H. apply (bt_keys8 _ _ _ _ _ _ _ _ _ _ _ _ _ B). left. apply (bt_keys6 _ _ _ _ _ _ _ _ _ _ _ _ _ B); auto.
Qed.
Lemma b_gen9 k vv : In k (map fst d8) -> k <> n_time_header -> k <> n_missing_value -> valid_values k = Ok vv ->
  dgetN k d9 = apply_to_all_gen (dgetN k d8) (Some (S n)) vv.
Proof.
  intros H N1 N2 V. destruct (built_d9 _ _ _ _ _ _ _ _ _ _ _ _ _ B ND) as [D _].
  destruct (D k H) as [vv' [V1 [V2 _]]]. rewrite V in V1. inversion V1; subst vv'.
  unfold apply_to_all in V2. rewrite (proj2 (text_eqb_neq _ _) N1), (proj2 (text_eqb_neq _ _) N2) in V2.
  inversion V2; auto.
Qed.
Lemma b_gen k vv : In k (map fst d8) -> k <> n_time_header -> k <> n_missing_value -> valid_values k = Ok vv ->
  dgetN k d8 <> VNone \/ none_in vv = true -> dgetN k d8 <> VList [] ->
  dgetN k b = bcast (S n) (dgetN k d8).
Proof.
  intros H N1 N2 V NN NE. rewrite (built_value _ _ _ _ _ _ _ _ _ _ _ _ _ B).
  rewrite (b_gen9 _ _ H N1 N2 V), gen_bcast by tauto.
  destruct (text_in k OPTIONAL); auto. unfold filled.
  replace (truthy (bcast (S n) (dgetN k d8))) with true; auto.
  destruct (dgetN k d8) as [| | | | | |[|x [|y l]]| |]; auto. congruence.
Qed.
Lemma b_tm_al : (forall l, tmv = VList l -> truthy (dgetN n_time_multicolumn d0) = true) /\
  (forall l, alv = VList l -> truthy (dgetN n_alignment d0) = true).
Proof.
  split; intros l E.
  - pose proof (bt_tm _ _ _ _ _ _ _ _ _ _ _ _ _ B) as H. destruct (truthy (dgetN n_time_multicolumn d0)); auto.
    exfalso. subst tmv. unfold guess_time_multicolumn in H. inv_bind H.
    destruct a; try discriminate. destruct (negb _); try discriminate.
    inv_bind H. inv_bind H. discriminate.
  - pose proof (bt_al _ _ _ _ _ _ _ _ _ _ _ _ _ B) as H. destruct (truthy (dgetN n_alignment d0)); auto.
    exfalso. subst alv. cbn [guess_alignment] in H. destruct (Nat.leb _ _); [discriminate|].
    inv_bind H. inv_bind H. destruct a0; [|discriminate]. inv_bind H.
    destruct (_ && _); [discriminate|]. destruct (_ && _); discriminate.
Qed.
Lemma defaulted_other k v : k <> n_time_alignment -> k <> n_missing_value -> defaulted k v = v.
Proof.
  intros A C. unfold defaulted. rewrite (proj2 (text_eqb_neq _ _) A), (proj2 (text_eqb_neq _ _) C).
  destruct (is_none v); auto.
Qed.
Lemma b_tm6 : dgetN n_time_multicolumn d6 = dgetN n_time_multicolumn d0.
Proof. rewrite (bt_d6 _ _ _ _ _ _ _ _ _ _ _ _ _ B). apply (defaulted_other n_time_multicolumn); tneq. Qed.
Lemma b_al6 : dgetN n_alignment d6 = dgetN n_alignment d0.
Proof. rewrite (bt_d6 _ _ _ _ _ _ _ _ _ _ _ _ _ B). apply (defaulted_other n_alignment); tneq. Qed.
Lemma b_list8 k l : dgetN k d8 = VList l -> dgetN k d6 = VList l.
Proof.
  intros H. rewrite (bt_d8 _ _ _ _ _ _ _ _ _ _ _ _ _ B) in H.
  destruct (text_eqb k n_time_multicolumn) eqn:E1.
  - apply text_eqb_eq in E1; subst k. rewrite b_tm6.
    pose proof (proj1 b_tm_al l H) as T. pose proof (bt_tm _ _ _ _ _ _ _ _ _ _ _ _ _ B) as H'. rewrite T in H'. congruence.
  - destruct (text_eqb k n_alignment) eqn:E2; auto.
    apply text_eqb_eq in E2; subst k. rewrite b_al6.
    pose proof (proj2 b_tm_al l H) as T. pose proof (bt_al _ _ _ _ _ _ _ _ _ _ _ _ _ B) as H'. rewrite T in H'. congruence.
Qed.
Lemma b_list6 k l : (0 < List.length l)%nat -> dgetN k d6 = VList l -> dgetN k d8 = VList l.
Proof.
  intros L H. rewrite (bt_d8 _ _ _ _ _ _ _ _ _ _ _ _ _ B).
  destruct (text_eqb k n_time_multicolumn) eqn:E1.
  - apply text_eqb_eq in E1; subst k. rewrite b_tm6 in H.
    pose proof (bt_tm _ _ _ _ _ _ _ _ _ _ _ _ _ B) as H'. rewrite H in H'. cbn [truthy] in H'.
    destruct l; [cbn in L; lia|]. exact H'.
  - destruct (text_eqb k n_alignment) eqn:E2; auto.
    apply text_eqb_eq in E2; subst k. rewrite b_al6 in H.
    pose proof (bt_al _ _ _ _ _ _ _ _ _ _ _ _ _ B) as H'. rewrite H in H'. cbn [truthy] in H'.
    destruct l; [cbn in L; lia|]. exact H'.
Qed.
Lemma b_len6 k l : dgetN k d6 = VList l -> k <> n_missing_value -> (List.length l <= S n)%nat.
Proof.
  intros H N. destruct (num_series_max _ _ (bt_ns _ _ _ _ _ _ _ _ _ _ _ _ _ B)) as [M _].
  apply (M k l); auto. apply dget_In. unfold dgetN in H. destruct (dget k d6); [congruence|discriminate].
Qed.
Lemma bcast_len m v l : bcast m v = VList l -> List.length l = m \/ v = VList l.
Proof.
  intros H. destruct v as [| | | | | |[|x [|y l']]| |]; cbn in H; inversion H; subst; auto; left; apply repeat_length.
Qed.
Lemma gen_len v vv l : apply_to_all_gen v (Some (S n)) vv = VList l -> List.length l = S n \/ v = VList l.
Proof.
  unfold apply_to_all_gen. destruct (_ && _ && _); [discriminate|]. cbn [ns_pos ns_nat].
  intros H. destruct v as [| | | | | |[|x [|y l']]| |]; inversion H; subst; auto; left; apply (repeat_length _ (S n)).
Qed.
Lemma th_len thc p vv v' l : apply_to_all_time_header thc (Some (S n)) p vv = Ok v' -> v' = VList l ->
  List.length l = S n \/ thc = VList l.
Proof.
  unfold apply_to_all_time_header. intros H E. subst v'. inv_bind H. destruct a.
  - destruct thc; try discriminate. destruct (Nat.eqb _ _); [|discriminate]. inversion H; subst. auto.
  - inv_bind H. inv_bind H. destruct (_ || _).
    + assert (H1 : apply_to_all_gen thc (Some (S n)) vv = VList l) by congruence. eapply gen_len; eauto.
    + inversion H; subst. left. apply (repeat_length _ (S n)).
Qed.
Lemma b_len9 k l : In k (map fst d8) -> k <> n_missing_value -> dgetN k d9 = VList l ->
  List.length l = S n \/ dgetN k d8 = VList l.
Proof.
  intros H N E. destruct (built_d9 _ _ _ _ _ _ _ _ _ _ _ _ _ B ND) as [D _].
  destruct (D k H) as [vv [V1 [V2 _]]]. rewrite E in V2. unfold apply_to_all in V2.
  destruct (text_eqb k n_time_header); [eapply th_len; eauto|].
  rewrite (proj2 (text_eqb_neq _ _) N) in V2.
  assert (H1 : apply_to_all_gen (dgetN k d8) (Some (S n)) vv = VList l) by congruence. eapply gen_len; eauto.
Qed.
Lemma b_known8 k : In k (map fst d8) -> In k PARAM_NAMES.
Proof.
  intros H. destruct (built_d9 _ _ _ _ _ _ _ _ _ _ _ _ _ B ND) as [D _].
  destruct (D k H) as [vv [V1 _]]. change PARAM_NAMES with (map fst VALID_VALUES).
  apply valid_values_in in V1. apply in_map_iff. exists (k, vv); auto.
Qed.
Lemma b_not8 k : ~ In k (map fst d8) -> dgetN k d9 = VNone.
Proof.
  intros H. destruct (built_d9 _ _ _ _ _ _ _ _ _ _ _ _ _ B ND) as [_ K].
  unfold dgetN. destruct (dget k d9) eqn:E; auto. exfalso. apply H, K. eapply dget_has; eauto.
Qed.
Lemma b_num_series : get_num_series (params_of b) = Some (S n).
Proof.
  apply num_series_eq.
  - intros k l H N. apply params_of_In in H. destruct H as [K E]. symmetry in E.
    rewrite (built_value _ _ _ _ _ _ _ _ _ _ _ _ _ B) in E.
    assert (G : dgetN k d9 = VList l -> (List.length l <= S n)%nat).
    { intros E'. destruct (in_dec text_dec k (map fst d8)) as [I|I].
      - destruct (b_len9 _ _ I N E') as [->|E8]; [lia|]. apply b_list8 in E8. eapply b_len6; eauto.
      - rewrite (b_not8 _ I) in E'. discriminate. }
    destruct (text_in k OPTIONAL); auto. unfold filled in E. destruct (truthy (dgetN k d9)); auto.
    inversion E; subst. cbn. rewrite repeat_length. lia.
  - destruct (num_series_max _ _ (bt_ns _ _ _ _ _ _ _ _ _ _ _ _ _ B)) as [_ [k [l [H [N L]]]]].
    destruct (bt_nodup _ _ _ _ _ _ _ _ _ _ _ _ _ B ND) as [N6 _].
    pose proof (dgetN_some _ _ _ (dget_NoDup _ _ _ N6 H)) as E6.
    pose proof (b_list6 k l ltac:(lia) E6) as E8.
    assert (I8 : In k (map fst d8)).
    { unfold dgetN in E8. destruct (dget k d8) eqn:E; [eapply dget_has; eauto|discriminate]. }
    destruct (built_d9 _ _ _ _ _ _ _ _ _ _ _ _ _ B ND) as [D _].
    assert (E9 : exists l', dgetN k d9 = VList l' /\ List.length l' = S n).
    { destruct (D k I8) as [vv [V1 [V2 _]]]. unfold apply_to_all in V2. rewrite E8 in V2.
      assert (GE : exists l', apply_to_all_gen (VList l) (Some (S n)) vv = VList l' /\ List.length l' = S n).
      { unfold apply_to_all_gen. cbn [is_none andb]. destruct l as [|x [|y l]]; cbn in L; try lia.
        - exists (repeat x (S n)). split; auto. apply repeat_length.
        - exists (x :: y :: l). auto. }
      destruct (text_eqb k n_time_header).
      - generalize dependent (dgetN k d9). intros v9 V2. clear D.
        unfold apply_to_all_time_header in V2. inv_bind V2. destruct a.
        + destruct (Nat.eqb (List.length l) (S n)); [|discriminate]. inversion V2; subst; eauto.
        + inv_bind V2. inv_bind V2. destruct (_ || _).
          * destruct GE as [l' [G1 G2]]. rewrite G1 in V2. inversion V2; subst; eauto.
          * inversion V2; subst. eexists. split; [reflexivity|]. apply (repeat_length _ (S n)).
      - rewrite (proj2 (text_eqb_neq _ _) N) in V2. inversion V2. destruct GE as [l' [G1 G2]]. rewrite G1. eauto. }
    destruct E9 as [l' [E9 L9]]. exists k, l'. split; [|auto]. apply params_of_In. split; [apply b_known8; auto|].
    rewrite (built_value _ _ _ _ _ _ _ _ _ _ _ _ _ B), E9. unfold filled. cbn [truthy]. rewrite L9.
    destruct (text_in k OPTIONAL); auto.
Qed.

(** the missing value markers *)
Lemma b_missing_value :
  dgetN n_missing_value b =
   match dgetN n_missing_value d6 with
   | VList (VList x :: l) => VList (VList x :: l)
   | VList l => VList (repeat (VList l) (S n))
   | v => VList (repeat (VList [v]) (S n))
   end.
Proof.
  rewrite (built_value _ _ _ _ _ _ _ _ _ _ _ _ _ B).
  change (text_in n_missing_value OPTIONAL) with false. cbn beta iota.
  assert (I : In n_missing_value (map fst d8)).
  { apply (bt_keys8 _ _ _ _ _ _ _ _ _ _ _ _ _ B). left. apply (bt_mv6 _ _ _ _ _ _ _ _ _ _ _ _ _ B). }
  destruct (built_d9 _ _ _ _ _ _ _ _ _ _ _ _ _ B ND) as [D _].
  destruct (D _ I) as [vv [V1 [V2 _]]].
  rewrite (bt_d8 _ _ _ _ _ _ _ _ _ _ _ _ _ B) in V2.
  change (apply_to_all n_missing_value (dgetN n_missing_value d6) (Some (S n)) d8 vv
     = Ok (dgetN n_missing_value d9)) in V2.
  change (apply_to_all n_missing_value (dgetN n_missing_value d6) (Some (S n)) d8 vv)
    with (apply_to_all_missing_value (dgetN n_missing_value d6) (Some (S n))) in V2.
  unfold apply_to_all_missing_value in V2. destruct (dgetN n_missing_value d6) as [| | | | | |l| |]; try (inversion V2; auto; fail).
  destruct l as [|[] l]; try (inversion V2; auto; fail).
  inv_bind V2. inversion V2; auto.
Qed.
End built_facts.
