(** Proofs for C88: the frames. *)
From Coq Require Import ZifyBool ZifyNat.
From Verif Require Import Base BaseFacts Cal Coord CoordFacts XlMethods Params ParseTime TimeIndex TimeFacts TimeProofs GetData PeriodRange DataFrame Scrape Xlseries
  SpecCoord SpecCoordFacts SpecParams ParamsProofs3 SpecAttempts SpecTime SpecEnd SpecReach SpecFrames FrameProofs FrameProofs2 SpecScrape ScrapeFacts ScrapeProofs ScrapeProofs2 ReachProofs ReachProofs2 ReachProofs3
  SpecSelect SelectProofs SelectProofs2 SelectProofs3 SelectProofs4 SpecPrefix PrefixProofs PrefixProofs2.
Local Open Scope Z_scope.

Lemma mapM_pairs {A B} (R : B -> B -> Prop) (f f' : A -> res B) : forall l x y, (forall j a b, In j l -> f j = Ok a -> f' j = Ok b -> R a b) -> mapM f l = Ok x -> mapM f' l = Ok y -> Forall2 R x y.
Proof.
  induction l as [|j l IH]; intros x y H X Y; cbn [mapM] in *; [injection X as <-; injection Y as <-; constructor|].
  apply bind_ok in X as (a & A1 & X). apply bind_ok in X as (xs & XS & X). injection X as <-. apply bind_ok in Y as (b & B1 & Y). apply bind_ok in Y as (ys & YS & Y). injection Y as <-.
  constructor; [eapply H; eauto; left; auto|]. apply IH; auto. intros k a' b' I. apply H. right. auto.
Qed.
Lemma pair_names (gs gs' : list (text * list spec_float)) : Forall2 (fun g g' => fst g' = fst g /\ begins (snd g) (snd g')) gs gs' -> (forall cols, add_names gs' cols = add_names gs cols) /\ Forall2 begins (map snd gs) (map snd gs').
Proof.
  induction 1 as [|g g' gs gs' [E B] _ [IH1 IH2]]; cbn [add_names map]; [split; auto|]. split; [|constructor; auto]. intros cols. unfold add_names in *. cbn [fold_left]. rewrite E. apply IH1.
Qed.

Section Frames.
Variables (n : nat) (m m' : Z) (p p' : dict) (e : env) (w : worksheet).
Hypothesis N : (0 < n)%nat.
Hypothesis C : core n p.
Hypothesis SO : sooner n m m' p p'.
Hypothesis HB : headers_before m p.
Hypothesis DT : dates_in_time n p.
Variable c : ascii.
Hypothesis F : dget n_frequency p = Some (VList (repeat (VStr [c]) n)).

Lemma F' : dget n_frequency p' = Some (VList (repeat (VStr [c]) n)).
Proof. destruct SO as (S1 & _). rewrite S1 by discriminate. auto. Qed.
Lemma in_time j s : (j < n)%nat -> series_sp p j = Ok s -> sp_ta s <= 0 \/ (sp_ta s = 1 /\ sp_cont s = true).
Proof.
  intros J SS. pose proof (sp_until n m m' p p' N C SO j J) as H. rewrite SS in H. destruct H as (_ & _ & TA & CO). destruct DT as (ta & D & K).
  assert (R : forall (v : pyval), nth j (repeat v n) VNone = v) by (intros v; rewrite (nth_indep _ VNone v) by (rewrite repeat_length; auto); apply nth_repeat).
  unfold at_ in TA, CO. change (pname "time_alignment") with n_time_alignment in D. rewrite (dgetN_of _ _ _ D), R in TA. cbn in TA. injection TA as <-.
  destruct K as [K|[K D2]]; [auto|]. right. split; auto. change (pname "continuity") with n_continuity in D2. rewrite (dgetN_of _ _ _ D2), R in CO. exact CO.
Qed.
Ltac name_ := first [discriminate|unfold searched; cbn; intuition discriminate|eauto].
Lemma heads_of j s : series_sp p j = Ok s -> heads (sp_al s) m s.
Proof.
  intros SS. destruct (series_fields _ _ _ SS) as ((va & VA & AA) & VH & VC & _). assert (E : forall al r k, depth_of al (r, k) <= m -> early al m r k) by (intros [] r k H; exact H). split.
  - intros r k R. apply E. eapply (HB n_headers_coord j (sp_hc s)); [left; reflexivity| | |].
    + eapply name_of with (v := VStr (sp_hc s)); [apply inside_refl| | | | |]; name_.
    + eapply layout_of; eauto. apply inside_refl.
    + apply cell_named_iff. exact R.
  - intros cs t r k EC J R. apply E. eapply (HB n_composed j t); [right; reflexivity| | |].
    + eapply name_of with (v := sp_comp s); [apply inside_refl| | | | |]; name_.
    + eapply layout_of; eauto. apply inside_refl.
    + apply cell_named_iff. exact R.
Qed.
Lemma queries x x' : pr_query p 0 = Ok x -> pr_query p' 0 = Ok x' ->
  q_freq x' = q_freq x /\ q_starts x' = q_starts x /\ q_line x' = q_line x /\ q_ta x' = q_ta x /\ q_al x' = q_al x /\ q_starts x < m /\ q_ends x = m.
Proof.
  destruct SO as (S1 & S2 & S3 & B). assert (G : forall k, k <> pname "data_ends" -> dgetN k p' = dgetN k p) by (intros k K; unfold dgetN; rewrite S1; auto).
  unfold pr_query. rewrite (G n_frequency), (G n_data_starts), (G n_time_header), (G n_time_alignment), (G n_alignment), (G n_time_multicolumn) by discriminate.
  change n_data_ends with (pname "data_ends"). rewrite (dgetN_of _ _ _ S2), (dgetN_of _ _ _ S3), !rep_at by auto. cbn [bind truthy as_int]. replace (negb (m =? 0)) with true by lia. replace (negb (m' =? 0)) with true by lia. cbn [assert_ bind].
  intros H H'.
  do 10 (match type of H with bind ?a _ = Ok _ => destruct a; cbn [bind] in H, H'; [|discriminate H] end).
  match type of H with bind (assert_ ?b) _ = Ok _ => destruct b eqn:X; cbn [assert_ bind] in H; [|discriminate H] end.
  match type of H' with bind (assert_ ?b) _ = Ok _ => destruct b eqn:X'; cbn [assert_ bind] in H'; [|discriminate H'] end.
  do 2 (match type of H with bind ?a _ = Ok _ => destruct a; cbn [bind] in H, H'; [|discriminate H] end).
  injection H as <-. injection H' as <-. cbn. repeat (split; [reflexivity|]). split; [lia|reflexivity].
Qed.

Lemma column_goes_on w1 w1' s0 j g g' : series_sp p 0 = Ok s0 -> sp_starts s0 <= m -> w1 = fst (clean_time_index e w (until s0 m)) -> w1' = fst (clean_time_index e w (until s0 m')) -> (j < n)%nat ->
  (forall s, series_sp p j = Ok s -> sp_al s = sp_al s0 /\ sp_starts s = sp_starts s0 /\ sp_freq s = [c]) ->
  adds e w1 p j = Ok g -> adds e w1' p' j = Ok g' -> fst g' = fst g /\ begins (snd g) (snd g').
Proof.
  intros S0 ST -> -> J SH A A'. destruct SO as (_ & _ & _ & B). unfold adds in A, A'. pose proof (sp_until n m m' p p' N C SO j J) as U. destruct (series_sp p j) as [s|] eqn:SS; [|discriminate A]. destruct U as (U1 & U2 & _ & _).
  rewrite U2 in A'. cbn [bind] in A, A'. destruct (SH s eq_refl) as (AL & SS0 & FR). pose proof (index_until e w s0 m m' ltac:(lia) ST) as W. rewrite <- AL in W.
  destruct (find (fun k => dcombo_accepts k s) dcombos); [|discriminate A]. destruct (find (fun k => dcombo_accepts k (until s m')) dcombos); [|discriminate A'].
  apply bind_ok in A as (nvs & GD & A). apply bind_ok in A' as (nvs' & GD' & A'). destruct nvs as [|nv nvs]; [discriminate A|]. destruct nvs' as [|nv' nvs']; [discriminate A'|].
  apply bind_ok in A as (t & _ & A). injection A as <-. apply bind_ok in A' as (t' & _ & A'). injection A' as <-.
  unfold get_data in GD, GD'. rewrite U1 in GD. assert (FL : List.length (sp_freq s) = 1%nat) by (rewrite FR; reflexivity).
  pose proof (name_until e _ _ s m m' FL (heads_of j s SS) W) as NM. rewrite NM in GD'. apply bind_ok in GD as (nm & E1 & GD). rewrite E1 in GD'. cbn [bind] in GD'.
  apply bind_ok in GD as (vls & V & GD). apply bind_ok in GD' as (vls' & V' & GD'). destruct vls as [|v vls]; [discriminate GD|]. destruct vls' as [|v' vls']; [discriminate GD'|]. injection GD as <- <-. injection GD' as <- <-.
  cbn [fst snd]. split; auto. eapply (values_until _ _ s m m' W (in_time j s J SS)); eauto; lia.
Qed.

Lemma attempts_go_on l l' : snd (attempt_full e w p) = Ok l -> snd (attempt_full e w p') = Ok l' -> exists d d', l = [d] /\ l' = [d'] /\ goes_on d d'.
Proof.
  intros H H'. pose proof SO as (S1 & S2 & S3 & B). pose proof (core' n m m' p p' C SO) as C'. unfold attempt_full in *.
  destruct (clean_data e w p) as [[w1 p1] [[]|x]] eqn:CD; [|discriminate H]. destruct (clean_data e w p') as [[w1' p1'] [[]|x]] eqn:CD'; [|discriminate H'].
  destruct (clean_first e w n m p w1 p1 N C S2 ltac:(lia) CD) as (s0 & SS & W1 & ->). destruct (clean_first e w n m' p' w1' p1' N C' S3 ltac:(lia) CD') as (s0' & SS' & W1' & ->).
  pose proof (sp_until n m m' p p' N C SO 0 N) as U. rewrite SS in U. destruct U as (U1 & U2 & _). rewrite U2 in SS'. injection SS' as <-. rewrite U1 in W1.
  destruct (get_data_all e w1 p) as [w2 r2] eqn:G. destruct (get_data_all e w1' p') as [w2' r2'] eqn:G'. cbn [snd] in H, H'. subst r2 r2'.
  destruct (all_range e w1 n p c l C N F ltac:(rewrite G; reflexivity)) as (x & pr & gs & d & QX & PR & GS & BD & ->).
  destruct (all_range e w1' n p' c l' C' N F' ltac:(rewrite G'; reflexivity)) as (x' & pr' & gs' & d' & QX' & PR' & GS' & BD' & ->). exists d, d'. split; auto. split; auto.
  destruct (queries x x' QX QX') as (_ & Q1 & Q2 & Q3 & Q4 & Q5 & Q6). rewrite Q1, Q2, Q3, Q4 in PR'.
  assert (SM : forall j s, (j < n)%nat -> series_sp p j = Ok s -> sp_al s = sp_al s0 /\ sp_starts s = sp_starts s0 /\ sp_freq s = [c]).
  { intros j s J X. destruct (same_query n p c C N F j s x J X QX) as (A1 & A2 & _ & _ & A5 & _). destruct (same_query n p c C N F 0%nat s0 x N SS QX) as (Z1 & Z2 & _ & _ & Z5 & _).
    split; [congruence|]. split; [congruence|]. rewrite A1. apply (query_freq n p c N F x QX). }
  destruct (same_query n p c C N F 0%nat s0 x N SS QX) as (_ & ST & _ & TAQ & ALQ & _).
  assert (ST0 : sp_starts s0 <= m) by lia.
  assert (P2 : Forall2 (fun g g' => fst g' = fst g /\ begins (snd g) (snd g')) gs gs').
  { eapply mapM_pairs; [|exact GS|exact GS']. intros j a b J A A'. apply in_seq in J. eapply (column_goes_on w1 w1' s0 j a b SS ST0 W1 W1'); eauto; [lia|]. intros s X. apply (SM j s); auto. lia. }
  destruct (pair_names _ _ P2) as [PN PD]. destruct (build_index _ _ _ _ BD) as (K1 & K2 & K3 & K4). destruct (build_index _ _ _ _ BD') as (K1' & K2' & K3' & K4'). split; [rewrite K1, K1'; apply PN|]. split; [rewrite K2, K2'; exact PD|].
  assert (RB : pr_freq pr' = pr_freq pr /\ (begins (pr_dates pr) (pr_dates pr') \/ begins (pr_dates pr') (pr_dates pr))).
  { unfold series_prs in PR, PR'. cbn [accepts_freq List.length Nat.ltb Nat.leb Nat.eqb] in PR, PR'. unfold single_prs in PR, PR'.
    assert (AG : axis_read (q_al x) w1' (q_line x) (q_starts x + q_ta x) = axis_read (q_al x) w1 (q_line x) (q_starts x + q_ta x)).
    { apply (read_agree (early (sp_al s0) m) False); [subst w1 w1'; apply index_until; lia|]. rewrite ALQ. apply early_at. destruct (in_time 0%nat s0 N SS); lia. }
    rewrite AG in PR'. apply bind_ok in PR as (sv & A1 & PR). apply bind_ok in PR as (ev & _ & PR). apply bind_ok in PR as (r1 & R1 & PR). injection PR as <-.
    rewrite A1 in PR'. cbn [bind] in PR'. apply bind_ok in PR' as (ev' & _ & PR'). apply bind_ok in PR' as (r1' & R1' & PR'). injection PR' as <-. eapply range_begins; eauto. }
  destruct RB as [RB1 RB2].
  assert (LE : (List.length (pr_dates (df_index d)) <= List.length (pr_dates (df_index d')))%nat).
  { destruct gs as [|g gs]; [exfalso; destruct n as [|n0]; [lia|]; cbn [seq mapM] in GS; apply bind_ok in GS as (? & _ & GS); apply bind_ok in GS as (? & _ & GS); discriminate GS|].
    destruct gs' as [|g' gs']; [inversion P2|]. assert (BG : begins (snd g) (snd g')) by (inversion P2; tauto). destruct BG as (r & E). cbn [map] in K3, K3'.
    pose proof (Forall_inv K3) as L1. pose proof (Forall_inv K3') as L2. cbn beta in L1, L2. rewrite E, app_length in L2. lia. }
  destruct K4 as [K4|(K4 & a & b & PF & KB)]; destruct K4' as [K4'|(K4' & a' & b' & PF' & KB')].
  - rewrite K4, K4' in *. split; auto. intros _. apply begins_length; auto.
  - rewrite K4, KB' in *. split; [intros ND _; exfalso; congruence|]. cbn [business_range pr_freq]. intros E. exfalso. rewrite <- RB1, K4' in E. discriminate E.
  - rewrite K4', KB in *. split; [intros _ NB; exfalso; apply NB; reflexivity|]. cbn [business_range pr_freq]. intros E. exfalso. rewrite RB1, K4 in E. discriminate E.
  - rewrite KB, KB' in *. split; [reflexivity|]. intros _. rewrite (first_begins pr pr' a a' RB2 PF PF') in *. apply business_begins; auto.
Qed.
End Frames.

Section Calls.
Variables (e : env) (uni : text -> text) (json : text -> res dict) (st : store) (wb : wb_obj) (q : option text) (safe preserve : bool) (name : text) (i : nat).
Hypothesis WB : wb_ok st wb.
Hypothesis RES : resolves uni strip (names_of st wb) q name.
Hypothesis FS : first_such (fun i => title (sheet st i) = name) wb i.
Notation call u := (answered (snd (get_data_frames e uni json st wb u q safe preserve))).
Lemma c88 n m m' u u' p p' x x' : (0 < n)%nat -> sixteen p -> sixteen p' -> one_index n p -> sooner n m m' p p' -> headers_before m p -> dates_in_time n p ->
  in_store st u -> object_of json st u p -> in_store st u' -> object_of json st u' p' -> call u = Ok x -> call u' = Ok x' -> exists d d', x = DF d /\ x' = DF d' /\ goes_on d d'.
Proof.
  intros N X X' O SO HB DT IS OB IS' OB' H H'. pose proof O as (_ & _ & _ & c & F). pose proof (p_core n p O) as C.
  rewrite (call_full e uni json st wb q safe preserve name i WB RES FS u p IS OB) in H by (eapply complete; eauto; apply core_lists; auto).
  rewrite (call_full e uni json st wb q safe preserve name i WB RES FS u' p' IS' OB') in H' by (eapply complete; eauto; apply core_lists; eapply core'; eauto).
  apply bind_ok in H as (l & A & H). apply bind_ok in H' as (l' & A' & H'). injection H as <-. injection H' as <-.
  destruct (attempts_go_on n m m' p p' e _ N C SO HB DT c F l l' A A') as (d & d' & -> & -> & G). exists d, d'. auto.
Qed.
End Calls.
