(** Proofs about which series go to which frame (C34, C35, C36). *)
From Verif Require Import Base BaseFacts Cal SpecCal CalFacts Coord CoordFacts XlMethods Params ParseTime TimeIndex GetData PeriodRange DataFrame
  Scrape Xlseries SpecScrape ScrapeFacts TimeFacts SpecFrames FrameProofs.
Local Open Scope Z_scope.

(** ** sheets with the same cells *)
Lemma same_refl w : same_cells w w.
Proof. split; [auto|lia]. Qed.
Lemma same_trans a b c : same_cells a b -> same_cells b c -> same_cells a c.
Proof. intros (H & R & C) (G & R' & C'). split; [|lia]. intros i j. rewrite H. auto. Qed.
Lemma touch_same al l q w : same_cells w (axis_touch al l q w).
Proof. split; [auto|]. cbn. lia. Qed.
Lemma touch_prs_same w f s l en ta al : same_cells w (touch_prs w f s l en ta al).
Proof. unfold touch_prs. destruct (accepts_freq false f); [|apply same_refl]. eapply same_trans; apply touch_same. Qed.
Lemma touch_data_same w s : same_cells w (touch_data w s).
Proof.
  unfold touch_data. destruct (sp_ends s); [|apply same_refl]. destruct (coord_line (sp_al s) (sp_hc s)); [|apply same_refl]. destruct (sp_cont s); [apply touch_same|].
  destruct (time_line (sp_al s) (sp_multi s) (sp_th s)); [|apply touch_same]. eapply same_trans; apply touch_same.
Qed.
Lemma read_cells w w' : same_cells w w' -> forall r c, read w r c = read w' r c.
Proof. intros [H _] r c. unfold read. rewrite H. auto. Qed.
Lemma axis_read_cells w w' : same_cells w w' -> forall al l q, axis_read al w l q = axis_read al w' l q.
Proof. intros H al l q. apply read_cells; auto. Qed.
Lemma coord_cells w w' : same_cells w w' -> forall t, read_coord w t = read_coord w' t.
Proof. intros H t. unfold read_coord. destruct (parse_coord t); auto. cbn [bind]. apply read_cells; auto. Qed.
Lemma mapM_ext {A B} (f g : A -> res B) l : (forall x, f x = g x) -> mapM f l = mapM g l.
Proof. intros H. induction l as [|x l IH]; cbn [mapM]; auto. rewrite H, IH. auto. Qed.
Lemma collect_cells w w' p line : same_cells w w' -> forall l, collect w p line l = collect w' p line l.
Proof.
  intros H. induction l as [|q l IH]; auto. cbn [collect]. rewrite (axis_read_cells _ _ H), IH. unfold to_be_added.
  destruct (axis_read (sp_al p) w' line q) as [v|]; auto. cbn [bind].
  match goal with |- (do nv <- ?X; _) = _ => destruct X as [nv|]; auto end. cbn [bind]. destruct (sp_cont p); auto.
  destruct (time_line (sp_al p) (sp_multi p) (sp_th p)) as [l0|]; auto. cbn [bind]. rewrite (axis_read_cells _ _ H). auto.
Qed.
Lemma get_data_cells e w w' p : same_cells w w' -> get_data e w p = get_data e w' p.
Proof.
  intros H. unfold get_data.
  replace (get_name e w' p) with (get_name e w p).
  2: { unfold get_name. rewrite (coord_cells _ _ H). destruct (truthy (sp_name p)); auto. destruct (read_coord w' (sp_hc p)) as [v0|]; auto. cbn [bind].
       destruct (py_str e v0); auto. cbn [bind]. f_equal.
       destruct (truthy (sp_comp p)); auto. destruct (sp_comp p); auto.
       f_equal. apply mapM_ext. intros c. destruct (as_text c); auto. cbn [bind]. rewrite (coord_cells _ _ H). auto. }
  replace (get_values e w' p) with (get_values e w p); auto.
  unfold get_values. destruct (sp_ends p) as [en|]; auto. destruct (coord_line (sp_al p) (sp_hc p)) as [line|]; auto. cbn [bind].
  rewrite (collect_cells _ _ p line H). destruct (collect w' p line (zrange (sp_starts p) en)); auto. cbn [bind].
  match goal with |- (do groups <- ?X; _) = _ => destruct X as [groups|]; auto end. cbn [bind].
  match goal with |- (do imp <- ?X; _) = _ => destruct X as [imp|]; auto end. cbn [bind].
  destruct (_ && _); auto. destruct groups; auto. destruct (write_line (sp_al p) (sp_th p)) as [tl|]; auto. cbn [bind].
  rewrite (mapM_ext _ (axis_read (sp_al p) w' tl)); auto. intros x. apply axis_read_cells; auto.
Qed.

(** ** period ranges *)
Lemma hash_same a b h : pr_hash a = Ok h -> (same_periods a b <-> pr_hash b = Ok h).
Proof.
  unfold pr_hash, same_periods, pr_first, pr_last. destruct (hd_error (pr_dates a)) as [x|]; [|discriminate]. destruct (hd_error (rev (pr_dates a))) as [y|]; [|discriminate].
  intros H. injection H as <-. split.
  - intros (-> & <- & <-). auto.
  - destruct (hd_error (pr_dates b)); [|discriminate]. destruct (hd_error (rev (pr_dates b))); [|discriminate]. intros H. injection H as -> -> ->. auto.
Qed.
Lemma hash_eqb_eq a b : hash_eqb a b = true <-> a = b.
Proof.
  destruct a as [[a1 a2] a3], b as [[b1 b2] b3]. unfold hash_eqb. cbn. rewrite !andb_true_iff, text_eqb_eq, !dt_eqb_eq. split.
  - intros [[-> ->] ->]. auto.
  - intros H. injection H as -> -> ->. auto.
Qed.
Lemma belong_in pr l l' p : same_periods pr (fst p) -> belonging pr l l' -> belonging pr (l ++ [p]) (l' ++ [p]).
Proof. intros S. induction 1; cbn; constructor; auto. constructor. Qed.
Lemma belong_out pr l l' p : ~ same_periods pr (fst p) -> belonging pr l l' -> belonging pr (l ++ [p]) l'.
Proof.
  intros S. induction 1; cbn.
  - apply be_out; auto. constructor.
  - apply be_in; auto.
  - apply be_out; auto.
Qed.

(** ** the frames while they are filled: pieces [L] have been added *)
Definition frame_ok (L : list piece) (kf : (text * datetime * datetime) * frame) : Prop :=
  pr_hash (f_pr (snd kf)) = Ok (fst kf) /\ exists ps, belonging (f_pr (snd kf)) L ps /\
  column_names (map (fun p => fst (snd p)) ps) (f_cols (snd kf)) /\ f_data (snd kf) = map (fun p => snd (snd p)) ps.
Definition frames_ok (L : list piece) (fs : frames_t) : Prop :=
  NoDup (map fst fs) /\ Forall (frame_ok L) fs /\ Forall (fun p => exists h, pr_hash (fst p) = Ok h /\ In h (map fst fs)) L.

Lemma frame_has_In h fs : frame_has h fs = true <-> In h (map fst fs).
Proof.
  unfold frame_has. rewrite existsb_exists, in_map_iff. split.
  - intros (x & I & E). apply hash_eqb_eq in E. exists x. auto.
  - intros (x & E & I). exists x. split; auto. apply hash_eqb_eq. auto.
Qed.
Lemma nodup_app {A} (l : list A) x : NoDup l -> ~ In x l -> NoDup (l ++ [x]).
Proof. intros N X. apply NoDup_Add with (a := x) (l := l); [|auto]. rewrite <- (app_nil_r l) at 1. apply Add_app. Qed.
Lemma add_frame_ok fs pr fs' : add_frame fs pr = Ok fs' -> frames_ok [] fs -> frames_ok [] fs'.
Proof.
  unfold add_frame. intros H (N & F & _). apply bind_ok in H. destruct H as (h & Hh & H). injection H as <-. destruct (frame_has h fs) eqn:E; [split; auto|].
  split; [|split; [|constructor]].
  - rewrite map_app. cbn. apply nodup_app; auto. intros C. apply frame_has_In in C. congruence.
  - apply Forall_app. split; auto. constructor; auto. split; auto. exists []. split; [constructor|]. split; [constructor|auto].
Qed.
Lemma add_frames_ok prs : forall fs fs', foldM add_frame prs fs = Ok fs' -> frames_ok [] fs -> frames_ok [] fs'.
Proof.
  induction prs as [|pr prs IH]; intros fs fs' H F; cbn [foldM] in H; [injection H as <-; auto|].
  apply bind_ok in H. destruct H as (f1 & A & H). eapply IH; eauto. eapply add_frame_ok; eauto.
Qed.
Lemma init_ok e p : forall n i w fs w' fs', init_frames e n i w p fs = (w', Ok fs') -> frames_ok [] fs -> frames_ok [] fs' /\ same_cells w w'.
Proof.
  induction n as [|n IH]; intros i w fs w' fs' H F; cbn [init_frames] in H; [injection H as <- <-; split; auto using same_refl|].
  destruct (pr_query p i) as [q|]; [|discriminate].
  destruct (series_prs e w (q_freq q) (q_starts q) (q_line q) (q_ends q) (q_ta q) (q_al q)) as [prs|]; [|discriminate].
  destruct (foldM add_frame prs fs) as [f1|] eqn:A; [|discriminate]. apply IH in H; [|eapply add_frames_ok; eauto].
  destruct H as [H S]. split; auto. eapply same_trans; [|exact S]. apply touch_prs_same.
Qed.

Lemma put_ok pr h n vs L : pr_hash pr = Ok h -> forall fs fs', put_values h n vs fs = Ok fs' -> NoDup (map fst fs) -> Forall (frame_ok L) fs ->
  map fst fs' = map fst fs /\ In h (map fst fs) /\ Forall (frame_ok (L ++ [(pr, (n, vs))])) fs'.
Proof.
  intros Hh.
  assert (Out : forall kf, frame_ok L kf -> fst kf <> h -> frame_ok (L ++ [(pr, (n, vs))]) kf).
  { intros kf (F1 & ps & B & C & D) NE. split; auto. exists ps. split; auto. apply belong_out; auto. cbn. rewrite (hash_same _ _ _ F1). congruence. }
  induction fs as [|[k f] fs IH]; intros fs' H N F; cbn [put_values] in H; [discriminate|].
  inversion F as [|? ? Fk F']; subst. cbn [map fst] in N. inversion N as [|? ? Nk N']; subst. destruct (hash_eqb h k) eqn:E.
  - apply hash_eqb_eq in E. subst k. injection H as <-. cbn [map fst]. split; auto. split; [left; auto|]. constructor.
    + destruct Fk as (F1 & ps & B & C & D). cbn [fst snd] in *. split; auto. cbn [fst snd f_pr f_cols f_data]. exists (ps ++ [(pr, (n, vs))]). split; [|split].
      * apply belong_in; auto. cbn. rewrite (hash_same _ _ _ F1). auto.
      * rewrite map_app. cbn [map fst snd]. destruct (add_name_next n (f_cols f)) as (col & -> & NN). constructor; auto.
      * rewrite map_app. cbn. rewrite D. auto.
    + apply Forall_forall. intros kf I. rewrite Forall_forall in F'. apply Out; auto. intros C. apply Nk. rewrite <- C. apply in_map. auto.
  - apply bind_ok in H. destruct H as (r & R & H). injection H as <-. destruct (IH r R N' F') as (M & I & G). cbn [map fst]. rewrite M. split; auto. split; [right; auto|].
    constructor; auto. apply Out; auto. cbn. intros C. subst k. assert (hash_eqb h h = true) by (apply hash_eqb_eq; auto). congruence.
Qed.
Lemma put_frames_ok pr h n vs L fs fs' : pr_hash pr = Ok h -> put_values h n vs fs = Ok fs' -> frames_ok L fs -> frames_ok (L ++ [(pr, (n, vs))]) fs'.
Proof.
  intros Hh H (N & F & K). destruct (put_ok pr h n vs L Hh fs fs' H N F) as (M & I & G). split; [rewrite M; auto|]. split; auto. rewrite M. apply Forall_app. split; auto.
  constructor; auto. exists h. auto.
Qed.
Lemma put_all_ok : forall ps L fs fs', foldM (fun fs (pn : piece) => do h <- pr_hash (fst pn); put_values h (fst (snd pn)) (snd (snd pn)) fs) ps fs = Ok fs' ->
  frames_ok L fs -> frames_ok (L ++ ps) fs'.
Proof.
  induction ps as [|[pr [n vs]] ps IH]; intros L fs fs' H F; cbn [foldM] in H; [injection H as <-; rewrite app_nil_r; auto|].
  apply bind_ok in H. destruct H as (f1 & A & H). cbn [fst snd] in A. apply bind_ok in A. destruct A as (h & Hh & A).
  pose proof (IH (L ++ [(pr, (n, vs))]) f1 fs' H (put_frames_ok _ _ _ _ _ _ _ Hh A F)) as R. rewrite <- app_assoc in R. exact R.
Qed.
Lemma single_coord m th t : th_single m th = Ok t -> (th = ThStr t) \/ (m = true /\ exists ts, th = ThList (t :: ts)).
Proof. destruct th as [u|[|u us]]; cbn; [intros H; injection H as ->; auto| |]; destruct m; try discriminate. intros H; injection H as ->. right. split; eauto. Qed.
Lemma into_ok e w0 w s L fs w' fs' : same_cells w0 w -> series_into e w s fs = (w', Ok fs') -> frames_ok L fs ->
  same_cells w0 w' /\ exists ps, contributes e w0 s ps /\ frames_ok (L ++ ps) fs'.
Proof.
  intros SC. unfold series_into. destruct (find _ dcombos); [|intros H; discriminate]. destruct (get_data e w s) as [nvs|] eqn:G; [|intros H; discriminate].
  destruct nvs as [|nv nvs]; [intros H; discriminate|].
  destruct (th_single (sp_multi s) (sp_th s)) as [t|] eqn:T1; [|intros H; discriminate]. cbn [bind].
  destruct (coord_line (sp_al s) t) as [line|] eqn:T2; [|intros H; discriminate]. cbn [bind]. destruct (sp_ends s) as [en|] eqn:EN; [|intros H; discriminate].
  destruct (series_prs e (touch_data w s) (sp_freq s) (sp_starts s) line en (sp_ta s) (sp_al s)) as [prs|] eqn:SP; [|intros H; discriminate]. cbn [bind].
  intros H F. injection H as <- H. assert (S1 : same_cells w0 (touch_data w s)) by (eapply same_trans; [exact SC|apply touch_data_same]). split.
  - eapply same_trans; [exact S1|apply touch_prs_same].
  - exists (combine prs (nv :: nvs)). split; [|exact (put_all_ok (combine prs (nv :: nvs)) L fs fs' H F)].
    exists (touch_data w s), t, line, en, prs, (nv :: nvs). rewrite (get_data_cells e w0 w s SC). split; auto. split; auto. split; [apply single_coord; auto|]. split; auto. split; auto. split; [discriminate|auto].
Qed.
Lemma fill_ok e p w0 : forall n i w L fs w' fs', same_cells w0 w -> fill_frames e n i w p fs = (w', Ok fs') -> frames_ok L fs ->
  exists cs, List.length cs = n /\ frames_ok (L ++ List.concat cs) fs' /\
  forall k ps, nth_error cs k = Some ps -> exists s, series_sp p (i + k) = Ok s /\ contributes e w0 s ps.
Proof.
  induction n as [|n IH]; intros i w L fs w' fs' SC H F; cbn [fill_frames] in H.
  - injection H as <- <-. exists []. cbn. rewrite app_nil_r. split; auto. split; auto. intros [|k] ps K; discriminate.
  - destruct (series_sp p i) as [s|] eqn:SS; [|discriminate]. destruct (series_into e w s fs) as [w1 r] eqn:SI. destruct r as [f1|]; [|discriminate].
    destruct (into_ok e w0 w s L fs w1 f1 SC SI F) as (SC1 & ps & C & F1). destruct (IH (S i) w1 (L ++ ps) f1 w' fs' SC1 H F1) as (cs & Lc & F2 & Cs).
    exists (ps :: cs). cbn. split; [lia|]. rewrite app_assoc. split; auto. intros [|k] qs K; cbn in K.
    + injection K as <-. exists s. replace (i + 0)%nat with i by lia. auto.
    + destruct (Cs k qs K) as (s' & S' & C'). exists s'. replace (i + S k)%nat with (S i + k)%nat by lia. auto.
Qed.
(** the ranges of the frames are ranges of series *)
Section Ranges.
Variables (e : env) (w0 : worksheet) (Q : prange -> Prop).
Hypothesis HQ : forall w f s line en ta al prs, same_cells w0 w -> series_prs e w f s line en ta al = Ok prs -> Forall Q prs.
Definition ranges (fs : frames_t) : Prop := Forall (fun kf => Q (f_pr (snd kf))) fs.
Lemma add_ranges prs : Forall Q prs -> forall fs fs', foldM add_frame prs fs = Ok fs' -> ranges fs -> ranges fs'.
Proof.
  induction 1 as [|pr prs P F IH]; intros fs fs' H R; cbn [foldM] in H; [injection H as <-; auto|]. apply bind_ok in H. destruct H as (f1 & A & H). eapply IH; eauto.
  unfold add_frame in A. apply bind_ok in A. destruct A as (h & _ & A). injection A as <-. destruct (frame_has h fs); auto. apply Forall_app. split; [auto|constructor; auto].
Qed.
Lemma init_ranges p : forall n i w fs w' fs', same_cells w0 w -> init_frames e n i w p fs = (w', Ok fs') -> ranges fs -> ranges fs'.
Proof.
  induction n as [|n IH]; intros i w fs w' fs' SC H F; cbn [init_frames] in H; [injection H as <- <-; auto|].
  destruct (pr_query p i) as [q|]; [|discriminate].
  destruct (series_prs e w (q_freq q) (q_starts q) (q_line q) (q_ends q) (q_ta q) (q_al q)) as [prs|] eqn:SP; [|discriminate].
  destruct (foldM add_frame prs fs) as [f1|] eqn:A; [|discriminate]. apply IH in H; auto.
  - eapply same_trans; [exact SC|apply touch_prs_same].
  - exact (add_ranges prs (HQ _ _ _ _ _ _ _ _ SC SP) fs f1 A F).
Qed.
Lemma put_ranges h n vs : forall fs fs', put_values h n vs fs = Ok fs' -> ranges fs -> ranges fs'.
Proof.
  induction fs as [|[k f] fs IH]; intros fs' H R; cbn [put_values] in H; [discriminate|]. inversion R; subst. destruct (hash_eqb h k).
  - injection H as <-. constructor; auto.
  - apply bind_ok in H. destruct H as (r & X & H). injection H as <-. constructor; [auto|apply IH; auto].
Qed.
Lemma fill_ranges p : forall n i w fs w' fs', fill_frames e n i w p fs = (w', Ok fs') -> ranges fs -> ranges fs'.
Proof.
  induction n as [|n IH]; intros i w fs w' fs' H R; cbn [fill_frames] in H; [injection H as <- <-; auto|].
  destruct (series_sp p i) as [s|]; [|discriminate]. destruct (series_into e w s fs) as [w1 r] eqn:SI. destruct r as [f1|]; [|discriminate]. eapply IH; eauto.
  unfold series_into in SI. destruct (find _ dcombos); [|discriminate]. destruct (get_data e w s) as [nvs|]; [|discriminate]. destruct nvs as [|nv nvs]; [discriminate|].
  match type of SI with match ?X with _ => _ end = _ => destruct X as [[[line en] prs]|]; [|discriminate] end. injection SI as _ SI.
  revert SI. generalize (combine prs (nv :: nvs)). clear - R. intros l. revert fs R. induction l as [|[pr [m vs]] l IH]; intros fs R H; cbn [foldM] in H; [injection H as <-; auto|].
  apply bind_ok in H. destruct H as (f2 & A & H). apply bind_ok in A. destruct A as (h & _ & A). apply (IH f2); auto. eapply put_ranges; eauto.
Qed.
End Ranges.

Lemma build_frame L k f d : frame_ok L (k, f) -> build_df (f_pr f) (f_cols f) (f_data f) = Ok d ->
  exists ps, belonging (f_pr f) L ps /\ frame_with (f_pr f) ps d.
Proof.
  intros (_ & ps & B & C & D) H. apply build_df_rect in H. destruct H as (H1 & H2 & H3 & _). cbn [snd] in *. exists ps. split; auto. split; auto. rewrite H1, H2. auto.
Qed.
Lemma mapM_forall2 {A B} (f : A -> res B) l r : mapM f l = Ok r -> Forall2 (fun x y => f x = Ok y) l r.
Proof.
  revert r. induction l as [|x l IH]; intros r H; cbn [mapM] in H; [injection H as <-; constructor|].
  apply bind_ok in H. destruct H as (y & Y & H). apply bind_ok in H. destruct H as (ys & YS & H). injection H as <-. constructor; auto.
Qed.

Lemma c36_ranges e w p w' dfs (Q : prange -> Prop) : (forall w1 f s line en ta al prs, same_cells w w1 -> series_prs e w1 f s line en ta al = Ok prs -> Forall Q prs) ->
  get_data_all e w p = (w', Ok dfs) -> exists cs prs,
    py_len (dgetN n_headers_coord p) = Ok (List.length cs) /\
    (forall i ps, nth_error cs i = Some ps -> exists s, series_sp p i = Ok s /\ contributes e w s ps) /\
    Forall2 (fun pr d => exists ps, belonging pr (List.concat cs) ps /\ frame_with pr ps d) prs dfs /\
    (forall i j a b, nth_error prs i = Some a -> nth_error prs j = Some b -> same_periods a b -> i = j) /\
    (forall pc, In pc (List.concat cs) -> exists pr, In pr prs /\ same_periods pr (fst pc)) /\
    Forall (fun pr => Q pr /\ pr_dates pr <> []) prs.
Proof.
  intros HQ. unfold get_data_all. destruct (zip_len p) as [n|]; [|intros H; discriminate]. destruct (init_frames e n 0 w p []) as [w1 r1] eqn:IN. destruct r1 as [fs|]; [|intros H; discriminate].
  destruct (py_len (dgetN n_headers_coord p)) as [m|] eqn:PL; [|intros H; discriminate]. destruct (fill_frames e m 0 w1 p fs) as [w2 r2] eqn:FI.
  intros H. injection H as <- H. apply bind_ok in H. destruct H as (fs' & -> & H).
  assert (RG : ranges Q fs').
  { eapply fill_ranges; eauto. eapply init_ranges; eauto; [apply same_refl|constructor]. }
  apply init_ok in IN; [|split; [constructor|split; constructor]]. destruct IN as [F0 S0]. apply fill_ok with (w0 := w) (L := []) in FI; auto.
  destruct FI as (cs & Lc & (N & F & K) & Cs). cbn [app] in *. exists cs, (map (fun kf => f_pr (snd kf)) fs'). rewrite Lc. split; auto. split; [intros i ps I; exact (Cs i ps I)|].
  apply mapM_forall2 in H. split; [|split; [|split]].
  - clear - H F. induction H as [|[k f] d l l' X Y IH]; cbn; constructor; inversion F; subst; auto. eapply build_frame; eauto.
  - intros i j a b A B S. rewrite nth_error_map in A, B. destruct (nth_error fs' i) as [[ka fa]|] eqn:Ia; [|discriminate]. destruct (nth_error fs' j) as [[kb fb]|] eqn:Jb; [|discriminate].
    cbn in A, B. injection A as <-. injection B as <-. rewrite Forall_forall in F. destruct (F _ (nth_error_In _ _ Ia)) as (Ha & _). destruct (F _ (nth_error_In _ _ Jb)) as (Hb & _). cbn in Ha, Hb.
    apply (hash_same _ _ _ Ha) in S. rewrite Hb in S. injection S as ->. rewrite NoDup_nth_error in N. apply N.
    + apply nth_error_Some. rewrite nth_error_map, Ia. discriminate.
    + rewrite !nth_error_map, Ia, Jb. auto.
  - intros pc I. rewrite Forall_forall in K. destruct (K pc I) as (h & Hh & Ih). apply in_map_iff in Ih. destruct Ih as ([k f] & E & If). cbn in E. subst k.
    exists (f_pr f). split; [apply (in_map (fun kf => f_pr (snd kf)) fs' (h, f)); auto|]. rewrite Forall_forall in F. destruct (F _ If) as (Hf & _). apply (hash_same _ _ _ Hf). auto.
  - apply Forall_forall. intros pr I. apply in_map_iff in I. destruct I as ([k f] & <- & I). unfold ranges in RG. rewrite Forall_forall in RG, F. split; [apply (RG _ I)|].
    destruct (F _ I) as (Hf & _). cbn [fst snd] in *. intros E. unfold pr_hash, pr_first in Hf. rewrite E in Hf. discriminate.
Qed.
Lemma c36_frames e w p w' dfs : get_data_all e w p = (w', Ok dfs) -> sorted_into e w p dfs.
Proof.
  intros H. apply (c36_ranges e w p w' dfs (fun _ => True)) in H.
  - destruct H as (cs & prs & A & B & C & D & E & _). exists cs, prs. auto.
  - intros. apply Forall_forall. auto.
Qed.
