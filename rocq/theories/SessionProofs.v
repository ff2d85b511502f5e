(** Proofs of C56. *)
From Coq Require Import ZifyBool ZifyNat ZifyN.
From Verif Require Import Base BaseFacts Coord Comparing XlMethods Params ParseTime TimeIndex GetData PeriodRange DataFrame
  Attempts Scrape Xlseries Session SpecParams SpecAttempts SpecScrape SpecSession ScrapeFacts ScrapeProofs ScrapeProofs2.
Local Open Scope Z_scope.

Definition outputs (r : res (dfs_t * nat)) : res dfs_t := do x <- r; Ok (fst x).

(** ** what is scraped depends on the sheet and the parameters only *)
Lemma results_ids e safe w : forall l is js, List.length is = List.length l -> List.length js = List.length l ->
  map fst (results_of e safe w (combine l is)) = map fst (results_of e safe w (combine l js)).
Proof.
  induction l as [|p l IH]; intros [|i is] [|j js] A B; try discriminate; auto.
  cbn [combine results_of]. destruct (outcome e w p) as [dfs|x]; [|apply IH; cbn in *; lia].
  destruct safe; [|reflexivity]. cbn [map fst]. f_equal. apply IH; cbn in *; lia.
Qed.
Lemma repeated_ids a : forall us vs, map fst us = map fst vs -> is_repeated_result a us = is_repeated_result a vs.
Proof.
  induction us as [|[u i] us IH]; intros [|[v j] vs] E; try discriminate; auto. cbn in E. injection E as -> E.
  cbn. rewrite (IH _ E). reflexivity.
Qed.
Definition firsts (r : res (list (dfs_t * nat))) : res (list dfs_t) := do x <- r; Ok (map fst x).
Lemma unique_ids : forall rs ss us vs, map fst rs = map fst ss -> map fst us = map fst vs ->
  firsts (unique_results rs us) = firsts (unique_results ss vs).
Proof.
  induction rs as [|[r i] rs IH]; intros [|[s j] ss] us vs E F; try discriminate; cbn [unique_results].
  - cbn. rewrite F. auto.
  - cbn in E. injection E as -> E. cbn [fst]. rewrite (repeated_ids s us vs F).
    destruct (is_repeated_result s vs) as [[]|x]; cbn [bind]; auto. apply IH; auto. rewrite !map_app, F. auto.
Qed.
Lemma scrape_one_out e safe st si pi l a : (si < List.length (st_sheets st))%nat -> (pi < List.length (st_params st))%nat ->
  discover_parameters (params st pi) = Ok l -> l = [a] ->
  outputs (snd (scrape e safe st si pi)) = (do dfs <- snd (attempt_full e (sheet st si) a); Ok (DL (map DF dfs))) /\
  (List.length (st_sheets st) <= List.length (st_sheets (fst (scrape e safe st si pi))))%nat /\
  (List.length (st_params st) <= List.length (st_params (fst (scrape e safe st si pi))))%nat.
Proof.
  intros Hs Hp D N. pose proof D as D1.
  destruct (attempt_objects_one _ _ _ D) as [[A Q]|A]; [rewrite N; reflexivity| |]; unfold scrape; rewrite A.
  - subst l. injection Q as ->. rewrite run_full by auto. destruct (attempt_full _ _ _) as [[w p] [dfs|x]];
      (split; [reflexivity|]); cbn; rewrite !set_nth_length; auto.
  - destruct (st1_facts st l) as [S1 P1]. set (st1 := fst (alloc_params st l)) in *.
    rewrite run_full by (rewrite ?S1, ?P1, ?app_length, ?N; cbn; lia).
    assert (Es : sheet st1 si = sheet st si) by (unfold sheet; rewrite S1; auto).
    assert (Ep : params st1 (List.length (st_params st)) = a).
    { unfold params. rewrite P1, app_nth2, Nat.sub_diag, N; auto. }
    rewrite Es, Ep. destruct (attempt_full _ _ _) as [[w p] [dfs|x]]; (split; [reflexivity|]); cbn; rewrite !set_nth_length, S1, P1, app_length; lia.
Qed.
Lemma scrape_many_out e safe st si pi l : (si < List.length (st_sheets st))%nat ->
  discover_parameters (params st pi) = Ok l -> List.length l <> 1%nat ->
  (List.length (st_sheets st) <= List.length (st_sheets (fst (scrape e safe st si pi))))%nat /\
  (List.length (st_params st) <= List.length (st_params (fst (scrape e safe st si pi))))%nat.
Proof.
  intros Hs D N. rewrite (scrape_many e safe st si pi l Hs D N). cbn [fst].
  pose proof (many_try e safe st si l Hs N) as [F _]. destruct (st1_facts st l) as [S1 P1].
  pose proof (fo_ns _ _ _ _ F). pose proof (fo_np _ _ _ _ F). rewrite S1 in *. rewrite P1, app_length in *. lia.
Qed.
Lemma scrape_same e safe st si pi st' si' pi' : (si < List.length (st_sheets st))%nat -> (pi < List.length (st_params st))%nat ->
  (si' < List.length (st_sheets st'))%nat -> (pi' < List.length (st_params st'))%nat ->
  sheet st si = sheet st' si' -> params st pi = params st' pi' ->
  outputs (snd (scrape e safe st si pi)) = outputs (snd (scrape e safe st' si' pi')).
Proof.
  intros Hs Hp Hs' Hp' Es Ep. destruct (discover_parameters (params st pi)) as [l|x] eqn:D.
  - pose proof D as D'. rewrite Ep in D'. destruct (Nat.eq_dec (List.length l) 1) as [N|N].
    + destruct l as [|a [|]]; try discriminate.
      destruct (scrape_one_out e safe st si pi _ a Hs Hp D eq_refl) as [-> _].
      destruct (scrape_one_out e safe st' si' pi' _ a Hs' Hp' D' eq_refl) as [-> _]. rewrite Es. auto.
    + rewrite (scrape_many e safe st si pi l Hs D N), (scrape_many e safe st' si' pi' l Hs' D' N). cbn [snd]. rewrite Es.
      pose proof (unique_ids (results_of e safe (sheet st' si') (combine l (seq (List.length (st_params st)) (List.length l))))
        (results_of e safe (sheet st' si') (combine l (seq (List.length (st_params st')) (List.length l)))) [] []) as U.
      rewrite (results_ids e safe _ l _ (seq (List.length (st_params st')) (List.length l))) in U by apply seq_length.
      specialize (U eq_refl eq_refl).
      destruct (unique_results (results_of e safe (sheet st' si') (combine l (seq (List.length (st_params st)) (List.length l)))) []) as [us|x],
        (unique_results (results_of e safe (sheet st' si') (combine l (seq (List.length (st_params st')) (List.length l)))) []) as [vs|y];
        cbn [bind firsts] in *; try discriminate.
      * assert (F : map fst us = map fst vs) by congruence. destruct us as [|[u i] [|u2 us]], vs as [|[v j] [|v2 vs]]; try discriminate; auto.
        -- cbn in F. injection F as ->. reflexivity.
        -- unfold outputs. cbn [bind fst]. rewrite F. auto.
      * congruence.
  - pose proof D as D'. rewrite Ep in D'. unfold scrape. rewrite (attempt_objects_err _ _ _ D), (attempt_objects_err _ _ _ D'). auto.
Qed.
Lemma scrape_len e safe st si pi : (si < List.length (st_sheets st))%nat -> (pi < List.length (st_params st))%nat ->
  (List.length (st_sheets st) <= List.length (st_sheets (fst (scrape e safe st si pi))))%nat /\
  (List.length (st_params st) <= List.length (st_params (fst (scrape e safe st si pi))))%nat.
Proof.
  intros Hs Hp. destruct (discover_parameters (params st pi)) as [l|x] eqn:D.
  - destruct (Nat.eq_dec (List.length l) 1) as [N|N].
    + destruct l as [|a [|]]; try discriminate. eapply scrape_one_out; eauto.
    + eapply scrape_many_out; eauto.
  - rewrite (scrape_err_kept _ _ _ _ _ _ D). auto.
Qed.

(** the object reported exists *)
Lemma results_in e safe w x : forall l, In x (results_of e safe w l) -> In (snd x) (map snd l).
Proof.
  induction l as [|[p i] l IH]; cbn; auto. destruct (outcome e w p) as [dfs|y]; [|auto].
  destruct safe; cbn; [|intros [<-|[]]; auto]. intros [<-|H]; auto.
Qed.
Lemma unique_in : forall rs us out x, unique_results rs us = Ok out -> In x out -> In x rs \/ In x us.
Proof.
  induction rs as [|r rs IH]; intros us out x H Hx; cbn in H.
  - injection H as <-. auto.
  - apply bind_ok in H as [b [_ H]]. destruct (IH _ _ _ H Hx) as [A|A]; [left; right; auto|].
    destruct b; auto. apply in_app_or in A as [A|[A|[]]]; auto. left; left; auto.
Qed.
Lemma scrape_pid e safe st si pi out pid : (si < List.length (st_sheets st))%nat -> (pi < List.length (st_params st))%nat ->
  snd (scrape e safe st si pi) = Ok (out, pid) -> (pid < List.length (st_params (fst (scrape e safe st si pi))))%nat.
Proof.
  intros Hs Hp. destruct (discover_parameters (params st pi)) as [l|x] eqn:D.
  - destruct (Nat.eq_dec (List.length l) 1) as [N|N].
    + destruct (attempt_objects_one _ _ _ D N) as [[A Q]|A]; unfold scrape; rewrite A.
      * rewrite run_full by auto. destruct (attempt_full _ _ _) as [[w p] [dfs|x]]; cbn; [|discriminate].
        intros H. injection H as _ <-. rewrite set_nth_length. auto.
      * destruct (st1_facts st l) as [S1 P1]. set (st1 := fst (alloc_params st l)) in *.
        rewrite run_full by (rewrite ?S1, ?P1, ?app_length, ?N; cbn; lia).
        destruct (attempt_full _ _ _) as [[w p] [dfs|x]]; cbn; [|discriminate].
        intros H. injection H as _ <-. rewrite set_nth_length, P1, app_length. lia.
    + rewrite (scrape_many e safe st si pi l Hs D N). cbn [fst snd].
      pose proof (many_try e safe st si l Hs N) as [F _]. destruct (st1_facts st l) as [S1 P1].
      pose proof (fo_np _ _ _ _ F) as Np. rewrite <- Np, P1, app_length. clear F Np.
      destruct (unique_results _ _) as [us|x] eqn:U; cbn [bind]; [|discriminate]. destruct us as [|u [|u2 us]]; [discriminate| |].
      * intros H. injection H as ->. destruct (unique_in _ _ _ (out, pid) U (or_introl eq_refl)) as [A|[]].
        apply results_in in A. apply in_map_iff in A as [[q i] [Eq A]]. apply in_combine_r in A. apply in_seq in A. cbn in Eq. lia.
      * intros H. injection H as _ <-.
        assert (A : l <> []).
        { intros ->. cbn in U. discriminate. }
        destruct l as [|a l]; [congruence|]. cbn [List.length seq].
        assert (I : forall (z : list nat) d, z <> [] -> In (List.last z d) z).
        { clear. induction z as [|x [|y z] IH]; intros d Hz; [congruence|left; auto|]. right. apply IH. discriminate. }
        pose proof (I (List.length (st_params st) :: seq (S (List.length (st_params st))) (List.length l)) 0%nat ltac:(discriminate)) as J.
        destruct J as [J|J]; [rewrite <- J at 1; lia|]. apply in_seq in J. lia.
  - unfold scrape. rewrite (attempt_objects_err _ _ _ D). cbn. discriminate.
Qed.

(** ** a call *)
Section Calls.
Variables (e : env) (uni : text -> text) (json : text -> res dict) (wb : wb_obj).

Lemma entry_len st u q safe preserve : wb_ok st wb -> in_store st u ->
  (List.length (st_sheets st) <= List.length (st_sheets (fst (get_data_frames e uni json st wb u q safe preserve))))%nat /\
  (List.length (st_params st) <= List.length (st_params (fst (get_data_frames e uni json st wb u q safe preserve))))%nat.
Proof.
  intros W U. destruct (entry_cases e uni json st wb u q safe preserve W U) as
    [G|(st2 & si & pid & p & G & _ & _ & Lp & Ls & _ & _ & E)]; cbv zeta in *.
  - apply grows_len; auto.
  - rewrite E. pose proof (grows_len _ _ G). pose proof (scrape_len e safe st2 si pid Ls Lp). lia.
Qed.
Lemma do_call_store s c : fst (fst (do_call e uni json wb s c)) =
  fst (get_data_frames e uni json (fst s) wb (c_params c) (c_sheet c) (c_safe c) (c_preserve c)).
Proof. unfold do_call. destruct (get_data_frames _ _ _ _ _ _ _ _ _) as [st [[[out name] pid]|x]]; reflexivity. Qed.
Lemma do_call_answer s c : answer_of e uni json wb s c =
  (do x <- snd (get_data_frames e uni json (fst s) wb (c_params c) (c_sheet c) (c_safe c) (c_preserve c)); Ok (fst (fst x))).
Proof. unfold answer_of, do_call. destruct (get_data_frames _ _ _ _ _ _ _ _ _) as [st [[[out name] pid]|x]]; reflexivity. Qed.

(** the sheets of the workbook are as in [st0] *)
Definition same_book (st0 st : store) : Prop :=
  (List.length (st_sheets st0) <= List.length (st_sheets st))%nat /\ sheets_kept st0 st.
Lemma same_book_ok st0 st : same_book st0 st -> wb_ok st0 wb -> wb_ok st wb.
Proof. intros [L _] W. eapply Forall_impl; [|exact W]. cbn. intros. lia. Qed.
Lemma same_names st0 st : same_book st0 st -> wb_ok st0 wb -> names_of st wb = names_of st0 wb.
Proof.
  intros [L K] W. unfold names_of. apply map_ext_in. intros i I. rewrite K; auto. unfold wb_ok in W.
  rewrite Forall_forall in W. auto.
Qed.

Lemma answer_err_name s c : wb_ok (fst s) wb -> (forall name, ~ resolves uni strip (names_of (fst s) wb) (c_sheet c) name) ->
  answer_of e uni json wb s c = match name_chosen uni (names_of (fst s) wb) (c_sheet c) with Err x => Err x | Ok _ => Err EKey end.
Proof.
  intros W N. rewrite do_call_answer, gdf_unfold by auto. cbv zeta.
  destruct (name_chosen_spec uni (names_of (fst s) wb) (c_sheet c)) as [[m [E R]]|[_ [E|[m [E I]]]]]; [exfalso; eapply N; eauto| |]; rewrite E; auto.
  rewrite <- (start_names _ wb (c_preserve c) W) in I. rewrite by_name_none by auto. auto.
Qed.
Lemma answer_err_params s c name i x : wb_ok (fst s) wb -> resolves uni strip (names_of (fst s) wb) (c_sheet c) name ->
  c_params c = UInput i -> make_params json i = Err x -> answer_of e uni json wb s c = Err x.
Proof.
  intros W R U M. rewrite do_call_answer, gdf_unfold by auto. cbv zeta.
  destruct (name_chosen_spec uni (names_of (fst s) wb) (c_sheet c)) as [[m [E R2]]|[N _]]; [|exfalso; eapply N; eauto].
  assert (m = name) by (eapply resolves_det; eauto). subst m. rewrite E.
  assert (I : In name (sheetnames (fst (start (fst s) wb (c_preserve c))) (snd (start (fst s) wb (c_preserve c))))).
  { rewrite start_names by auto. eapply resolves_In; eauto. }
  destruct (by_name_first _ _ _ I) as [si [-> _]]. rewrite U. cbn [params_obj]. rewrite M. auto.
Qed.
(** the answer depends on the workbook and on the parameters given only *)
Lemma answer_same s0 s c : wb_ok (fst s0) wb -> in_store (fst s0) (c_params c) -> in_store (fst s) (c_params c) ->
  same_book (fst s0) (fst s) -> c_preserve c = true ->
  (forall k, c_params c = UObj k -> params (fst s) k = params (fst s0) k) ->
  answer_of e uni json wb s c = answer_of e uni json wb s0 c.
Proof.
  intros W0 U0 U B Pr Pk. pose proof (same_book_ok _ _ B W0) as W. pose proof (same_names _ _ B W0) as Nm.
  destruct (name_chosen_spec uni (names_of (fst s0) wb) (c_sheet c)) as [[name [En R]]|[N _]].
  2: { rewrite !answer_err_name by (auto; rewrite ?Nm; auto). rewrite Nm. auto. }
  assert (Ob : (exists p, object_of json (fst s0) (c_params c) p /\ object_of json (fst s) (c_params c) p) \/
    (exists i x, c_params c = UInput i /\ make_params json i = Err x)).
  { destruct (c_params c) as [i|k] eqn:Eu.
    - destruct (make_params json i) as [p|x] eqn:M; [left; exists p; split; constructor; auto|right; eauto].
    - left. exists (params (fst s0) k). split; [constructor|]. rewrite <- (Pk k eq_refl). constructor. }
  destruct Ob as [[p [O0 O]]|[i [x [Eu M]]]].
  2: { rewrite (answer_err_params s0 c name i x), (answer_err_params s c name i x); auto. rewrite Nm. auto. }
  rewrite !do_call_answer.
  destruct (c23_sheet e uni json (fst s0) wb (c_params c) (c_sheet c) (c_safe c) (c_preserve c) W0 U0 name p R O0)
    as (i0 & t0 & si0 & pid0 & F0 & _ & C0 & P0 & Ls0 & Lp0 & E0).
  rewrite <- Nm in R.
  destruct (c23_sheet e uni json (fst s) wb (c_params c) (c_sheet c) (c_safe c) (c_preserve c) W U name p R O)
    as (i & t & si & pid & F & _ & C & P & Ls & Lp & E).
  rewrite E0, E. clear E0 E.
  assert (I0 : In i0 wb) by (destruct F0 as (l1 & l2 & -> & _); apply in_or_app; right; left; auto).
  assert (Ei : i = i0).
  { apply (first_such_det (fun i => title (sheet (fst s0) i) = name) wb); auto.
    destruct F as (l1 & l2 & Ew & T1 & F1). unfold wb_ok in W0. rewrite Forall_forall in W0. destruct B as [BL BK].
    assert (Hin : forall j, In j wb -> sheet (fst s) j = sheet (fst s0) j) by (intros j J; apply BK; auto).
    exists l1, l2. split; auto. split.
    - rewrite <- Hin; auto. rewrite Ew. apply in_or_app; right; left; auto.
    - rewrite Forall_forall in *. intros j J. rewrite <- Hin; [apply F1; auto|]. rewrite Ew. apply in_or_app; auto. }
  subst i.
  assert (Q : outputs (snd (scrape e (c_safe c) t si pid)) = outputs (snd (scrape e (c_safe c) t0 si0 pid0))).
  { apply scrape_same; auto; [|congruence]. rewrite C, C0 by auto. f_equal. apply B. unfold wb_ok in W0. rewrite Forall_forall in W0. auto. }
  destruct (snd (scrape e (c_safe c) t si pid)) as [x|x], (snd (scrape e (c_safe c) t0 si0 pid0)) as [y|y];
    cbn in *; congruence.
Qed.

(** ** many calls *)
Lemma after_cons s c cs : after e uni json wb s (c :: cs) = after e uni json wb (fst (do_call e uni json wb s c)) cs.
Proof. unfold after. cbn [do_calls]. destruct (do_call e uni json wb s c) as [s1 r]. cbn [fst]. destruct (do_calls e uni json wb s1 cs); auto. Qed.

Lemma calls_keep : forall cs s, wb_ok (fst s) wb -> possible e uni json wb s cs -> preserving cs ->
  same_book (fst s) (fst (after e uni json wb s cs)) /\
  (List.length (st_params (fst s)) <= List.length (st_params (fst (after e uni json wb s cs))))%nat /\
  forall k, (k < List.length (st_params (fst s)))%nat -> (not_given k cs \/ several (params (fst s) k)) ->
    params (fst (after e uni json wb s cs)) k = params (fst s) k.
Proof.
  induction cs as [|c cs IH]; intros s W P Pr.
  - split; [split; [auto|intros i _; auto]|auto].
  - destruct P as [U P]. inversion Pr as [|? ? Pc Pr']; subst. rewrite after_cons.
    pose proof (do_call_store s c) as Es. set (s1 := fst (do_call e uni json wb s c)) in *.
    pose proof (entry_len (fst s) (c_params c) (c_sheet c) (c_safe c) (c_preserve c) W U) as [L1 L2].
    pose proof (c21_preserved e uni json (fst s) wb (c_params c) (c_sheet c) (c_safe c) (c_preserve c) W U Pc) as K1.
    rewrite <- Es in *. assert (B1 : same_book (fst s) (fst s1)) by (split; auto).
    destruct (IH s1 (same_book_ok _ _ B1 W) P Pr') as [[B2 B3] [L3 K3]].
    split; [|split; [lia|]].
    + split; [lia|]. intros i L. rewrite B3 by lia. apply K1; auto.
    + intros k L Hk.
      assert (K2 : params (fst s1) k = params (fst s) k).
      { rewrite Es. destruct (c_params c) as [i|j] eqn:Eu.
        - apply (c22_input e uni json (fst s) wb (UInput i) (c_sheet c) (c_safe c) (c_preserve c) W U i eq_refl); auto.
        - destruct (Nat.eq_dec k j) as [->|Nj].
          + destruct Hk as [Hk|Hk].
            * inversion Hk as [|? ? A]; subst. contradiction.
            * apply (several_attempts_kept e uni json (fst s) wb (UObj j) (c_sheet c) (c_safe c) (c_preserve c) W U); auto.
              intros p l O D. inversion O; subst. apply (Hk l D).
          + destruct (entry_cases e uni json (fst s) wb (UObj j) (c_sheet c) (c_safe c) (c_preserve c) W U) as
              [G|(st2 & si & pid & p & G & _ & _ & Lp & Ls & _ & -> & E)]; cbv zeta in *.
            * apply grows_params; auto.
            * rewrite E. destruct (scrape_effect e (c_safe c) st2 si j Ls Lp) as [_ [A _]]. cbv zeta in A.
              pose proof (grows_len _ _ G). rewrite A by lia. apply grows_params; auto. }
      rewrite K3 by (lia || (rewrite K2; destruct Hk as [Hk|Hk]; [left; inversion Hk; auto|right; auto])). exact K2.
Qed.

Lemma in_store_mono st st' u : (List.length (st_params st) <= List.length (st_params st'))%nat -> in_store st u -> in_store st' u.
Proof. destruct u; cbn; auto. lia. Qed.

Lemma c56 s cs c : wb_ok (fst s) wb -> possible e uni json wb s cs -> preserving cs -> c_preserve c = true ->
  in_store (fst s) (c_params c) ->
  (forall k, c_params c = UObj k -> not_given k cs \/ several (params (fst s) k)) ->
  answer_of e uni json wb (after e uni json wb s cs) c = answer_of e uni json wb s c.
Proof.
  intros W P Pr Pc U Hk. destruct (calls_keep cs s W P Pr) as [B [L K]].
  apply answer_same; auto.
  - eapply in_store_mono; eauto.
  - intros k E. apply K; auto. rewrite E in U. exact U.
Qed.

(** ** self.params *)
Lemma saved_save name pid l : saved_at name (save name pid l) = Some pid.
Proof. induction l as [|[n i] l IH]; cbn; [rewrite text_eqb_refl; auto|]. destruct (text_eqb n name) eqn:E; cbn; rewrite E; auto. Qed.
Lemma saved_other name name' pid l : name' <> name -> saved_at name (save name' pid l) = saved_at name l.
Proof.
  intros N. induction l as [|[n i] l IH]; cbn.
  - destruct (text_eqb name' name) eqn:E; auto. apply text_eqb_eq in E. contradiction.
  - destruct (text_eqb n name') eqn:E; cbn.
    + apply text_eqb_eq in E. subst n. destruct (text_eqb name' name) eqn:E2; auto. apply text_eqb_eq in E2. contradiction.
    + rewrite IH. auto.
Qed.
Lemma after_app cs1 : forall s cs2, after e uni json wb s (cs1 ++ cs2) = after e uni json wb (after e uni json wb s cs1) cs2.
Proof. induction cs1 as [|c cs1 IH]; intros s cs2; auto. rewrite <- app_comm_cons, !after_cons. apply IH. Qed.
Lemma kept_saved name : forall cs s,
  (forall cs3 c3 cs4, cs = cs3 ++ c3 :: cs4 -> ~ succeeds_on e uni json wb (after e uni json wb s cs3) c3 name) ->
  saved_at name (snd (after e uni json wb s cs)) = saved_at name (snd s).
Proof.
  induction cs as [|c cs IH]; intros s H; auto. rewrite after_cons, IH.
  - specialize (H [] c cs eq_refl). unfold after in H. cbn [do_calls fst] in H. unfold succeeds_on in H. unfold do_call.
    destruct (get_data_frames _ _ _ _ _ _ _ _ _) as [st [[[out n] pid]|x]]; auto. cbn [fst snd] in *.
    apply saved_other. intros ->. apply H. eauto.
  - intros cs3 c3 cs4 E. specialize (H (c :: cs3) c3 cs4). rewrite after_cons in H. apply H. rewrite E. auto.
Qed.
Lemma c56_saved s cs1 c cs2 st1 out name pid :
  get_data_frames e uni json (fst (after e uni json wb s cs1)) wb (c_params c) (c_sheet c) (c_safe c) (c_preserve c) = (st1, Ok (out, name, pid)) ->
  (forall cs3 c3 cs4, cs2 = cs3 ++ c3 :: cs4 -> ~ succeeds_on e uni json wb (after e uni json wb s (cs1 ++ c :: cs3)) c3 name) ->
  saved_at name (snd (after e uni json wb s (cs1 ++ c :: cs2))) = Some pid.
Proof.
  intros G H. rewrite after_app, after_cons, kept_saved.
  - unfold do_call. rewrite G. apply saved_save.
  - intros cs3 c3 cs4 E. specialize (H cs3 c3 cs4 E). rewrite after_app, after_cons in H. exact H.
Qed.
Lemma c56_never s cs name :
  (forall cs3 c3 cs4, cs = cs3 ++ c3 :: cs4 -> ~ succeeds_on e uni json wb (after e uni json wb s cs3) c3 name) ->
  saved_at name (snd (after e uni json wb s cs)) = saved_at name (snd s).
Proof. apply kept_saved. Qed.
Lemma possible_app : forall cs1 s cs2, possible e uni json wb s (cs1 ++ cs2) ->
  possible e uni json wb s cs1 /\ possible e uni json wb (after e uni json wb s cs1) cs2.
Proof.
  induction cs1 as [|c cs1 IH]; intros s cs2 H; [split; auto; exact I|]. cbn in H. destruct H as [U H].
  apply IH in H as [A B]. rewrite after_cons. cbn. auto.
Qed.
Lemma entry_pid st u q safe preserve st1 out name pid : wb_ok st wb -> in_store st u ->
  get_data_frames e uni json st wb u q safe preserve = (st1, Ok (out, name, pid)) -> (pid < List.length (st_params st1))%nat.
Proof.
  intros W U G. unfold get_data_frames in G. fold (start st wb preserve) in G.
  pose proof (start_facts st wb preserve W) as SF. destruct (start st wb preserve) as [st2 wb2]. cbn [fst snd] in SF.
  destruct SF as [Gr [Pp [W2 _]]].
  match type of G with (match ?x with Ok _ => _ | Err _ => _ end) = _ => destruct x as [nm|ex] end; [|discriminate].
  destruct (sheet_by_name st2 wb2 nm) as [si|x] eqn:E; [|discriminate].
  apply sheet_by_name_in in E as [Isi _].
  assert (Lsi : (si < List.length (st_sheets st2))%nat) by (unfold wb_ok in W2; rewrite Forall_forall in W2; auto).
  assert (P : match params_obj json st2 u with (st3, Ok k) => (si < List.length (st_sheets st3))%nat /\ (k < List.length (st_params st3))%nat | _ => True end).
  { destruct u as [i|k]; cbn.
    - destruct (make_params json i); auto. cbn. rewrite app_length. cbn. split; [auto|lia].
    - split; auto. rewrite Pp. exact U. }
  destruct (params_obj json st2 u) as [st3 [k|x]]; [|discriminate]. destruct P as [Ls Lk].
  pose proof (scrape_pid e safe st3 si k) as Q. destruct (scrape e safe st3 si k) as [st4 [[o q0]|x]]; [|discriminate].
  injection G as <- _ _ <-. apply (Q o); auto.
Qed.
Lemma c56_saved_params s cs1 c cs2 st1 out name pid : wb_ok (fst s) wb ->
  possible e uni json wb s (cs1 ++ c :: cs2) -> preserving (cs1 ++ c :: cs2) ->
  get_data_frames e uni json (fst (after e uni json wb s cs1)) wb (c_params c) (c_sheet c) (c_safe c) (c_preserve c) = (st1, Ok (out, name, pid)) ->
  not_given pid cs2 ->
  params (fst (after e uni json wb s (cs1 ++ c :: cs2))) pid = params st1 pid.
Proof.
  intros W P Pr G N. apply possible_app in P as [P1 P2]. apply Forall_app in Pr as [Pr1 Pr2]. inversion Pr2 as [|? ? Pc Pr3]; subst.
  destruct (calls_keep cs1 s W P1 Pr1) as [B1 [L1 _]].
  rewrite after_app, after_cons. destruct P2 as [U P2].
  pose proof (do_call_store (after e uni json wb s cs1) c) as Es. rewrite G in Es. cbn [fst] in Es.
  destruct (entry_len _ _ (c_sheet c) (c_safe c) (c_preserve c) (same_book_ok _ _ B1 W) U) as [L2 _].
  pose proof (c21_preserved e uni json _ wb _ (c_sheet c) (c_safe c) (c_preserve c) (same_book_ok _ _ B1 W) U Pc) as K.
  rewrite G in L2, K. cbn [fst] in L2, K.
  pose proof (entry_pid _ _ _ _ _ _ _ _ _ (same_book_ok _ _ B1 W) U G) as L.
  destruct (calls_keep cs2 (fst (do_call e uni json wb (after e uni json wb s cs1) c))) as [_ [_ K2]]; auto.
  - rewrite Es. eapply same_book_ok; [split; [exact L2|exact K]|]. eapply same_book_ok; eauto.
  - rewrite K2; rewrite ?Es; auto.
Qed.
End Calls.
