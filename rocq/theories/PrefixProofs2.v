(** Proofs for C88: the call. *)
From Coq Require Import ZifyBool ZifyNat.
From Verif Require Import Base BaseFacts Cal Coord CoordFacts XlMethods Params ParseTime TimeIndex TimeFacts TimeProofs GetData PeriodRange DataFrame Scrape Xlseries
  SpecCoord SpecCoordFacts SpecParams ParamsProofs3 SpecAttempts SpecTime SpecEnd SpecReach SpecFrames FrameProofs FrameProofs2 SpecScrape ScrapeFacts ScrapeProofs ScrapeProofs2 ReachProofs ReachProofs2 ReachProofs3
  SpecSelect SelectProofs SelectProofs2 SelectProofs3 SelectProofs4 SpecPrefix PrefixProofs.
Local Open Scope Z_scope.

(** ** Names *)
Definition only_name (s : sp) : sp :=
  mksp (sp_al s) (sp_name s) (sp_hc s) (sp_comp s) (sp_ctx s) (sp_starts s) (Some (sp_starts s - 1)) (sp_cont s) (sp_blank s) (sp_missings s) (sp_mv s) (sp_ta s) (sp_multi s) (ThList []) (sp_composed s) (sp_freq s).
Definition heads (al : align) (m : Z) (s : sp) : Prop :=
  (forall r c, parse_coord (sp_hc s) = Ok (r, c) -> early al m r c) /\ (forall cs t r c, sp_comp s = VList cs -> In (VStr t) cs -> parse_coord t = Ok (r, c) -> early al m r c).
Lemma name_until e w w' s m m' : List.length (sp_freq s) = 1%nat -> heads (sp_al s) m s -> agree (early (sp_al s) m) False w w' -> get_name e w' (until s m') = get_name e w (until s m).
Proof.
  intros F [H1 H2] A. change (get_name e w' (only_name s) = get_name e w (only_name s)). apply (name_agree (early (sp_al s) m) False); auto.
  split; cbn [only_name sp_ends sp_freq sp_hc sp_comp sp_al sp_starts sp_th sp_ta th_texts].
  - discriminate.
  - intros N. contradiction.
  - auto.
  - auto.
  - intros line pos _ X Y. specialize (Y _ eq_refl). lia.
  - intros t line pos [].
Qed.

(** ** Objects *)
Section Object.
Variables (n : nat) (m m' : Z) (p p' : dict).
Hypothesis N : (0 < n)%nat.
Hypothesis C : core n p.
Hypothesis SO : sooner n m m' p p'.
Lemma core' : core n p'.
Proof.
  destruct C as (A & B & D). destruct SO as (S1 & S2 & S3 & _). split; [|split].
  - intros k K. destruct (text_eqb k (pname "data_ends")) eqn:E.
    + apply text_eqb_eq in E. subst k. eauto.
    + apply text_eqb_neq in E. rewrite S1 by auto. auto.
  - intros k K. rewrite S1; auto. intros ->. cbn in K. intuition discriminate.
  - intros l L. rewrite S1 in L by discriminate. auto.
Qed.
Lemma at_same j k : k <> pname "data_ends" -> at_ p' j k = at_ p j k.
Proof. intros E. destruct SO as (S1 & _). unfold at_, dgetN. rewrite S1 by auto. auto. Qed.
Lemma at_end j : (j < n)%nat -> at_ p j n_data_ends = VInt m /\ at_ p' j n_data_ends = VInt m'.
Proof.
  intros J. destruct SO as (_ & S2 & S3 & _). unfold at_. change n_data_ends with (pname "data_ends"). rewrite (dgetN_of _ _ _ S2), (dgetN_of _ _ _ S3).
  assert (R : forall z d k, (k < n)%nat -> nth k (repeat (VInt z) n) d = VInt z) by (intros z d k K; rewrite (nth_indep _ d (VInt z)) by (rewrite repeat_length; auto); apply nth_repeat).
  cbn. auto.
Qed.
Lemma sp_until j : (j < n)%nat ->
  match series_sp p j with
  | Ok s => s = until s m /\ series_sp p' j = Ok (until s m') /\ as_int (at_ p j n_time_alignment) = Ok (sp_ta s) /\ sp_cont s = truthy (at_ p j n_continuity)
  | Err x => series_sp p' j = Err x
  end.
Proof.
  intros J. rewrite (sp_at n p j C J), (sp_at n p' j core' J). unfold body.
  assert (X : forall g, sp_of (map (fun k => (k, g k)) PARAM_NAMES) =
    do al' <- as_align (g n_alignment); do hc' <- as_text (g n_headers_coord); do ds' <- as_int (g n_data_starts);
    do de' <- (if truthy (g n_data_ends) then do z <- as_int (g n_data_ends); Ok (Some z) else Ok None);
    do ta' <- as_int (g n_time_alignment); do th' <- as_theader (g n_time_header); do fr' <- as_text (g n_frequency);
    Ok (mksp al' (g n_series_names) hc' (g n_composed) (g n_context) ds' de' (truthy (g n_continuity)) (truthy (g n_blank_rows)) (truthy (g n_missings)) (g n_missing_value) ta'
        (truthy (g n_time_multicolumn)) th' (truthy (g n_time_composed)) fr')) by (intros g; reflexivity).
  rewrite !X. clear X. rewrite (at_same j n_alignment), (at_same j n_headers_coord), (at_same j n_data_starts), (at_same j n_time_alignment), (at_same j n_time_header), (at_same j n_frequency), (at_same j n_series_names), (at_same j n_composed), (at_same j n_context), (at_same j n_continuity), (at_same j n_blank_rows), (at_same j n_missings), (at_same j n_missing_value), (at_same j n_time_multicolumn), (at_same j n_time_composed) by discriminate. destruct (at_end j J) as [-> ->]. destruct SO as (_ & _ & _ & B). cbn [truthy as_int].
  replace (negb (m =? 0)) with true by lia. replace (negb (m' =? 0)) with true by lia. cbn [bind].
  destruct (as_align _); cbn [bind]; [|reflexivity]. destruct (as_text (at_ p j n_headers_coord)); cbn [bind]; [|reflexivity]. destruct (as_int (at_ p j n_data_starts)); cbn [bind]; [|reflexivity].
  destruct (as_int (at_ p j n_time_alignment)) eqn:TA; cbn [bind]; [|reflexivity]. destruct (as_theader _); cbn [bind]; [|reflexivity]. destruct (as_text (at_ p j n_frequency)); cbn [bind]; [|reflexivity].
  unfold until. cbn. auto.
Qed.
End Object.

Lemma rep_at (v : pyval) m i : (i < m)%nat -> py_index (VList (repeat v m)) i = Ok v.
Proof. intros I. cbn [py_index]. rewrite (nth_error_nth' _ v) by (rewrite repeat_length; lia). f_equal. apply nth_repeat. Qed.
Lemma rest_known e t z : forall k i w p n m, (i + k <= n)%nat -> dgetN n_time_header p = VList (repeat (VStr t) n) -> dgetN n_data_ends p = VList (repeat (VInt m) n) -> m <> 0 ->
  clean_many e k i [(t, z)] w p = (w, p, Ok tt).
Proof.
  induction k as [|k IH]; intros i w p n m L T E M; cbn [clean_many]; auto. rewrite T, rep_at by lia. cbn [bind as_text find fst snd]. rewrite text_eqb_refl, E, rep_at by lia. cbn [truthy].
  replace (negb (m =? 0)) with true by lia. apply (IH (S i) w p n m); auto. lia.
Qed.
Lemma clean_first e w n m p w1 p1 : (0 < n)%nat -> core n p -> dget (pname "data_ends") p = Some (VList (repeat (VInt m) n)) -> m <> 0 -> clean_data e w p = (w1, p1, Ok tt) ->
  exists s, series_sp p 0 = Ok s /\ w1 = fst (clean_time_index e w s) /\ p1 = p.
Proof.
  intros N C E M H. unfold clean_data in H. pose proof (dgetN_of _ _ _ E) as E'. change (pname "data_ends") with n_data_ends in E'.
  destruct (proj1 C n_time_multicolumn) as (tm & TM); [cbn; tauto|]. destruct (proj1 C n_time_header) as (th & TH); [cbn; tauto|].
  rewrite (dgetN_of _ _ _ TM), rep_at in H by auto. destruct (truthy tm).
  - destruct (series_sp p 0) as [s|x]; [|discriminate H]. exists s. destruct (clean_time_index e w s) as [w2 [z|x]]; [|discriminate H]. rewrite E', rep_at in H by auto. cbn [truthy] in H.
    replace (negb (m =? 0)) with true in H by lia. injection H as <- <-. auto.
  - rewrite (dgetN_of _ _ _ TH) in H. cbn [py_len] in H. rewrite repeat_length in H. destruct n as [|n0]; [lia|]. cbn [clean_many] in H. rewrite (dgetN_of _ _ _ TH), rep_at in H by auto. cbn [bind] in H.
    destruct (as_text th) as [t|x] eqn:AT; [|discriminate H]. cbn [find] in H. destruct (series_sp p 0) as [s|x]; [|discriminate H]. exists s.
    destruct (clean_time_index e w s) as [w2 r]. destruct (do z <- r; do _ <- assert_ (negb (z =? 0)); Ok z) as [z|x]; [|discriminate H]. rewrite E', rep_at in H by auto. cbn [truthy] in H.
    replace (negb (m =? 0)) with true in H by lia. assert (th = VStr t) by (destruct th; cbn in AT; congruence). subst th.
    rewrite (rest_known e t z n0 1 w2 p (S n0) m) in H by (auto; apply (dgetN_of _ _ _ TH)). injection H as <- <-. auto.
Qed.

Lemma all_range e w n q c l : core n q -> (0 < n)%nat -> dget n_frequency q = Some (VList (repeat (VStr [c]) n)) -> snd (get_data_all e w q) = Ok l ->
  exists x pr gs d, pr_query q 0 = Ok x /\ series_prs e w [c] (q_starts x) (q_line x) (q_ends x) (q_ta x) (q_al x) = Ok [pr] /\ mapM (adds e w q) (seq 0 n) = Ok gs /\
    build_df pr (add_names gs []) (map snd gs) = Ok d /\ l = [d].
Proof.
  intros Q N F H.
  assert (S0 : series_at (seq 0 n) q q).
  { intros k K. destruct (core_lists _ _ Q k K) as (lk & D & L). exists lk, lk. split; auto. split; auto. rewrite <- L. apply picked_all. }
  assert (L : List.length (seq 0 n) = n) by apply seq_length.
  unfold get_data_all in H. rewrite (zip_at n q Q N _ _ S0), (headers_at q _ _ S0), L in H.
  assert (XQ : exists k, n = S k) by (destruct n; [lia|eauto]). destruct XQ as (k & NK).
  assert (I1 : init_frames e n 0 w q [] = init_frames e (S k) 0 w q []) by congruence. rewrite I1 in H. cbn [init_frames] in H.
  destruct (pr_query q 0) as [x|y] eqn:QX; [|discriminate H]. pose proof (query_freq n q c N F x QX) as FX.
  destruct (series_prs e w (q_freq x) (q_starts x) (q_line x) (q_ends x) (q_ta x) (q_al x)) as [prs|y] eqn:P; [|discriminate H].
  destruct (prs_one e n q c N F w x prs QX P) as (pr & ->). destruct (pr_hash pr) as [h|y] eqn:HS; [|cbn [foldM] in H; unfold add_frame in H; rewrite HS in H; discriminate H].
  cbn [foldM] in H. unfold add_frame in H. rewrite HS in H. cbn [bind frame_has existsb app] in H.
  destruct (init_rest e w n q c Q N F x pr h (seq 0 n) q S0 QX P HS k 1 (touch_prs w (q_freq x) (q_starts x) (q_line x) (q_ends x) (q_ta x) (q_al x))) as (w1 & E1 & SC); [lia|apply touch_prs_same|].
  rewrite E1 in H. destruct (fill_all e w n q c Q N F x pr h (seq 0 n) q S0 QX P HS (seq 0 n) 0 w1 [] []) as (w2 & E2); [reflexivity|exact SC|]. rewrite L in E2. rewrite E2 in H.
  cbn [snd] in H. destruct (mapM (adds e w q) (seq 0 n)) as [gs|y]; cbn [bind] in H; [|discriminate H]. cbn [mapM snd f_pr f_cols f_data app] in H.
  destruct (build_df pr (add_names gs []) (map snd gs)) as [d|y] eqn:BD; cbn [bind] in H; [|discriminate H]. injection H as <-. rewrite FX in P. exists x, pr, gs, d. auto.
Qed.

(** ** Dates *)
Lemma gen_begins step en en' : forall f f' d, (List.length (gen_dates f step d en) <= List.length (gen_dates f' step d en'))%nat -> begins (gen_dates f step d en) (gen_dates f' step d en').
Proof.
  induction f as [|f IH]; intros [|f'] d; cbn [gen_dates]; try (intros; exists []; reflexivity); try (intros; eexists; reflexivity).
  - destruct (dt_leb d en); [cbn; intros H; lia|]. intros. exists []. reflexivity.
  - destruct (dt_leb d en); [|intros; eexists; reflexivity]. destruct (dt_leb d en'); [|cbn; intros H; lia]. cbn [List.length]. intros H. destruct (IH f' (step d)) as (r & E); [lia|]. exists r. rewrite E. reflexivity.
Qed.
Lemma gen_either step en en' f f' d : begins (gen_dates f step d en) (gen_dates f' step d en') \/ begins (gen_dates f' step d en') (gen_dates f step d en).
Proof.
  destruct (Nat.leb (List.length (gen_dates f step d en)) (List.length (gen_dates f' step d en'))) eqn:E; [left; apply gen_begins; apply Nat.leb_le; auto|right]. apply gen_begins. apply Nat.leb_gt in E. lia.
Qed.
Lemma begins_filter {A} (g : A -> bool) l l' : begins l l' -> begins (filter g l) (filter g l').
Proof. intros (r & ->). exists (filter g r). apply filter_app. Qed.
Lemma begins_length {A} (l l' : list A) : begins l l' \/ begins l' l -> (List.length l <= List.length l')%nat -> begins l l'.
Proof. intros [H|(r & ->)] L; auto. rewrite app_length in L. destruct r; [|cbn in L; lia]. exists []. rewrite !app_nil_r. auto. Qed.
Lemma business_begins a b b' : (List.length (pr_dates (business_range a b)) <= List.length (pr_dates (business_range a b')))%nat -> begins (pr_dates (business_range a b)) (pr_dates (business_range a b')).
Proof.
  intros L. apply begins_length; auto. unfold business_range. cbn [pr_dates].
  destruct (gen_either (fun d => add_days d 1) (roll_business (mkdt (dt_y b) (dt_m b) (dt_d b) 0)) (roll_business (mkdt (dt_y b') (dt_m b') (dt_d b') 0))
    (Z.to_nat (dt_ord (roll_business (mkdt (dt_y b) (dt_m b) (dt_d b) 0)) - dt_ord (roll_business (mkdt (dt_y a) (dt_m a) (dt_d a) 0)) + 1))
    (Z.to_nat (dt_ord (roll_business (mkdt (dt_y b') (dt_m b') (dt_d b') 0)) - dt_ord (roll_business (mkdt (dt_y a) (dt_m a) (dt_d a) 0)) + 1))
    (roll_business (mkdt (dt_y a) (dt_m a) (dt_d a) 0))); [left|right]; apply begins_filter; auto.
Qed.
Lemma range_begins e s en en' fr pr pr' : range_of e s en fr = Ok pr -> range_of e s en' fr = Ok pr' ->
  pr_freq pr' = pr_freq pr /\ (begins (pr_dates pr) (pr_dates pr') \/ begins (pr_dates pr') (pr_dates pr)).
Proof.
  unfold range_of. intros H H'. apply bind_ok in H as (a & A & H). apply bind_ok in H as (b & _ & H). rewrite A in H'. cbn [bind] in H'. apply bind_ok in H' as (b' & _ & H'). unfold date_range in *. cbv zeta in *.
  repeat match type of H with (if ?c then _ else _) = _ => destruct c; [injection H as <-; injection H' as <-; cbn [pr_freq pr_dates]; split; [reflexivity|apply gen_either]|] end. discriminate H.
Qed.
Lemma first_begins pr pr' a a' : begins (pr_dates pr) (pr_dates pr') \/ begins (pr_dates pr') (pr_dates pr) -> pr_first pr = Some a -> pr_first pr' = Some a' -> a' = a.
Proof.
  unfold pr_first. intros B. destruct (pr_dates pr) as [|d l]; [discriminate|]. destruct (pr_dates pr') as [|d' l']; [discriminate|]. destruct B as [(r & E)|(r & E)]; cbn [app hd_error] in *; congruence.
Qed.
Lemma build_index pr cols data d : build_df pr cols data = Ok d -> df_cols d = cols /\ df_data d = data /\ Forall (fun l => List.length l = List.length (pr_dates (df_index d))) data /\
  (df_index d = pr \/ (pr_freq pr = T "D" /\ exists a b, pr_first pr = Some a /\ df_index d = business_range a b)).
Proof.
  assert (M : forall pr, make_df pr cols data = Ok d -> d = mkdf pr cols data /\ Forall (fun l => List.length l = List.length (pr_dates pr)) data).
  { intros pr0 H. unfold make_df in H. destruct (_ && _) eqn:E; [|discriminate H]. injection H as <-. split; auto. apply andb_true_iff in E as [_ E]. rewrite forallb_forall in E. apply Forall_forall. intros l I.
    apply Nat.eqb_eq. auto. }
  unfold build_df. destruct (text_eqb (pr_freq pr) (T "D")) eqn:D.
  - apply text_eqb_eq in D. destruct (make_df pr cols data) as [d0|] eqn:M0.
    + intros H. injection H as ->. destruct (M pr M0) as [-> F]. cbn. auto.
    + destruct (pr_first pr) as [a|] eqn:PF; [|discriminate]. destruct (pr_last pr) as [b|]; [|discriminate]. intros H. destruct (M _ H) as [-> F]. cbn [df_cols df_data df_index]. split; auto. split; auto. split; auto. right. split; auto. exists a, b. split; auto.
  - intros H. destruct (M pr H) as [-> F]. cbn. auto.
Qed.
