(** A table of several frequencies gives one frame per frequency (C67). *)
From Coq Require Import Sorted ZifyBool ZifyNat.
From Verif Require Import Base BaseFacts Cal Coord CoordFacts XlMethods Params ParseTime TimeIndex GetData PeriodRange Attempts DataFrame Scrape Xlseries
  SpecCal CalFacts CalProofs SpecCoord SpecCoordFacts SpecParams BuildFacts BuildInv ParamsFacts ParamsProofs SpecAttempts
  TimeFacts SpecTime SpecData DataFacts SpecFrames SpecScrape ScrapeFacts ScrapeProofs TextProofs FrameProofs FrameProofs2 FrameProofs3 DataProofs ScrapeProofs2 TimeProofs TimeProofs2 SpecEnd RangeExact TimeEnd
  EndFacts EndProofs EndAttempt EndBuild EndCall MultiRange IndexWalk SpecCycles CycleClean.
Local Open Scope Z_scope.

(** ** Several frames at once *)
Record item := mkitem { it_pr : prange; it_hash : text * datetime * datetime; it_col : nat -> list spec_float }.
Definition known_hash (k : item) : Prop := pr_hash (it_pr k) = Ok (it_hash k).
(** the frames once the first [i] series are in *)
Definition filled (names : list text) (i : nat) (k : item) (kf : (text * datetime * datetime) * frame) : Prop :=
  fst kf = it_hash k /\ exists cols, snd kf = mkframe (it_pr k) cols (map (it_col k) (seq 0 i)) /\ column_names (firstn i names) cols.

Lemma hash_neq h h' : h <> h' -> hash_eqb h h' = false.
Proof. intros N. destruct (hash_eqb h h') eqn:E; auto. apply hash_eqb_eq in E. contradiction. Qed.
Lemma put_here h name vs fr : forall fs1 fs2, ~ In h (map fst fs1) ->
  put_values h name vs (fs1 ++ (h, fr) :: fs2) = Ok (fs1 ++ (h, mkframe (f_pr fr) (add_name name (f_cols fr)) (f_data fr ++ [vs])) :: fs2).
Proof.
  induction fs1 as [|[k g] fs1 IH]; intros fs2 N; cbn [app put_values].
  - rewrite (proj2 (hash_eqb_eq h h) eq_refl). reflexivity.
  - cbn [map fst In] in N. rewrite hash_neq by (intros ->; tauto). rewrite IH by tauto. reflexivity.
Qed.
Lemma seq_snoc i : seq 0 (S i) = seq 0 i ++ [i].
Proof. rewrite seq_S. reflexivity. Qed.
Lemma put_all names name i : nth_error names i = Some name -> forall K fs1 fs2, Forall known_hash K -> NoDup (map it_hash K) ->
  (forall k, In k K -> ~ In (it_hash k) (map fst fs1)) -> Forall2 (filled names i) K fs2 ->
  exists fs3, foldM (fun fs pn => do h <- pr_hash (fst pn); put_values h (fst (snd pn)) (snd (snd pn)) fs)
    (combine (map it_pr K) (map (fun k => (name, it_col k i)) K)) (fs1 ++ fs2) = Ok (fs1 ++ fs3) /\ Forall2 (filled names (S i)) K fs3.
Proof.
  intros NM. induction K as [|k K IH]; intros fs1 fs2 H D N F.
  - inversion F; subst. exists []. split; auto.
  - inversion F as [|? [h fr] ? fs2' [F1 (cols & F2 & F3)] F4]; subst. cbn [fst snd] in *. subst h fr. inversion H as [|? ? H1 H2]; subst. cbn [map] in D. inversion D as [|? ? D1 D2]; subst.
    cbn [map combine foldM fst snd]. rewrite H1. cbn [bind]. rewrite put_here by (apply N; left; auto). cbn [bind f_pr f_cols f_data].
    set (new := (it_hash k, mkframe (it_pr k) (add_name name cols) (map (it_col k) (seq 0 i) ++ [it_col k i]))).
    destruct (IH (fs1 ++ [new]) fs2' H2 D2) as (fs3 & E & G); auto.
    + intros k' I. rewrite map_app. intros J. apply in_app_or in J. destruct J as [J|[J|[]]]; [eapply N; [right; eauto|auto]|]. cbn in J. apply D1. rewrite J. apply in_map. auto.
    + exists (new :: fs3). rewrite <- !app_assoc in E. cbn [app] in E. split; auto. constructor; auto. split; [reflexivity|].
      destruct (add_name_next name cols) as (col & AN & NX). exists (add_name name cols). rewrite seq_snoc, map_app. split; [reflexivity|].
      destruct (first_next _ _ _ NM) as (A1 & _). rewrite A1, AN. constructor; auto.
Qed.

Lemma add_new : forall K fs, Forall known_hash K -> NoDup (map it_hash K) -> (forall k, In k K -> ~ In (it_hash k) (map fst fs)) ->
  foldM add_frame (map it_pr K) fs = Ok (fs ++ map (fun k => (it_hash k, mkframe (it_pr k) [] [])) K).
Proof.
  induction K as [|k K IH]; intros fs H D N; cbn [map foldM]; [rewrite app_nil_r; auto|]. inversion H; subst. cbn [map] in D. inversion D; subst.
  unfold add_frame at 1. match goal with Q : known_hash k |- _ => rewrite Q end. cbn [bind].
  assert (FH : frame_has (it_hash k) fs = false).
  { unfold frame_has. destruct (existsb _ fs) eqn:E; auto. apply existsb_exists in E. destruct E as ([h g] & I & E). apply hash_eqb_eq in E. cbn in E. exfalso. apply (N k (or_introl eq_refl)).
    apply in_map_iff. exists (h, g). auto. }
  rewrite FH. cbn [bind]. rewrite IH; auto.
  - rewrite <- app_assoc. reflexivity.
  - intros k' I. rewrite map_app. intros J. apply in_app_or in J. destruct J as [J|[J|[]]]; [eapply N; [right; eauto|auto]|]. cbn in J. 
    match goal with Q : ~ In (it_hash k) _ |- _ => apply Q end. rewrite J. apply in_map. auto.
Qed.
Lemma add_again fs : forall K, Forall known_hash K -> (forall k, In k K -> In (it_hash k) (map fst fs)) -> foldM add_frame (map it_pr K) fs = Ok fs.
Proof.
  induction K as [|k K IH]; intros H N; cbn [map foldM]; auto. inversion H; subst. unfold add_frame at 1. match goal with Q : known_hash k |- _ => rewrite Q end. cbn [bind].
  assert (FH : frame_has (it_hash k) fs = true).
  { unfold frame_has. apply existsb_exists. assert (I := N k (or_introl eq_refl)). apply in_map_iff in I. destruct I as (x & E & I). exists x. split; auto. apply hash_eqb_eq. auto. }
  rewrite FH. cbn [bind]. apply IH; auto. intros k' I. apply N. right. auto.
Qed.

Section Values.
Variables (e : env) (w : worksheet) (p : dict) (n : nat) (f t : text) (al : align) (z m line : Z) (K : list item).
Hypothesis lists : all_lists p n.
Hypothesis prs : forall w', same_cells w w' -> series_prs e w' f z line m 0 al = Ok (map it_pr K).
Hypothesis hashes : Forall known_hash K.
Hypothesis distinct : NoDup (map it_hash K).
Hypothesis something : K <> [].
Hypothesis the_line : coord_line al t = Ok line.
Hypothesis zm : z < m.
Hypothesis series : forall i, (i < n)%nat -> exists s, series_sp p i = Ok s /\ ordinary f t al z m s.
Let empty := map (fun k => (it_hash k, mkframe (it_pr k) [] [])) K.

Lemma init_many : forall k i w' fs, (i + k = n)%nat -> same_cells w w' -> (fs = [] \/ fs = empty) -> (k = 0%nat -> fs = empty) ->
  exists w'', init_frames e k i w' p fs = (w'', Ok empty) /\ same_cells w w''.
Proof.
  induction k as [|k IH]; intros i w' fs I S F Z0; [exists w'; rewrite Z0 by auto; auto|]. cbn [init_frames].
  rewrite (query_ok p n f t al z m line lists the_line zm series) by lia. cbn [q_freq q_starts q_line q_ends q_ta q_al]. rewrite prs by auto.
  assert (A : foldM add_frame (map it_pr K) fs = Ok empty).
  { destruct F as [-> | ->]; [rewrite add_new; auto|]. apply add_again; auto. intros x X. unfold empty. rewrite map_map. cbn [fst]. apply (in_map it_hash). auto. }
  rewrite A. apply IH; auto; [lia|]. eapply FrameProofs2.same_trans; [exact S|]. apply touch_prs_same.
Qed.
Lemma fill_many names : List.length names = n ->
  (forall j name s, nth_error names j = Some name -> series_sp p j = Ok s ->
     find (fun k => dcombo_accepts k s) dcombos <> None /\ forall w2, same_cells w w2 -> get_data e w2 s = Ok (map (fun k => (name, it_col k j)) K)) ->
  forall k i w' fs, (i + k = n)%nat -> same_cells w w' -> Forall2 (filled names i) K fs ->
  exists w'' fs', fill_frames e k i w' p fs = (w'', Ok fs') /\ Forall2 (filled names n) K fs'.
Proof.
  intros LN G. induction k as [|k IH]; intros i w' fs I SV F.
  - exists w', fs. replace n with i by lia. auto.
  - cbn [fill_frames]. destruct (series i ltac:(lia)) as (s & S0 & O1 & O2 & O3 & O4 & O5 & O6 & O7). rewrite S0.
    assert (NM : exists name, nth_error names i = Some name) by (destruct (nth_error names i) eqn:E; eauto; apply nth_error_None in E; lia). destruct NM as (name & NM).
    destruct (G i name s NM S0) as [FD D]. unfold series_into. destruct (find _ dcombos) eqn:FE; [|congruence].
    rewrite D by auto. clear D. destruct (map (fun k0 => (name, it_col k0 i)) K) as [|nv nvs] eqn:ME; [destruct K; [congruence|discriminate]|]. rewrite <- ME. clear ME nv nvs.
    rewrite O1, O2, O3, O4, O5, O6, O7. cbn [th_single bind]. rewrite the_line. cbn [bind].
    set (w1 := touch_data w' s).
    assert (S1 : same_cells w w1) by (eapply FrameProofs2.same_trans; [exact SV|apply touch_data_same]).
    rewrite prs by auto. cbn [bind].
    destruct (put_all names name i NM K [] fs hashes distinct) as (fs3 & E & F3); auto. cbn [app] in E. rewrite E.
    apply IH; auto; [lia|]. eapply FrameProofs2.same_trans; [exact S1|apply touch_prs_same].
Qed.
Definition item_frame (names : list text) (k : item) (fr : df) : Prop :=
  exists cols, column_names names cols /\ fr = mkdf (it_pr k) cols (map (it_col k) (seq 0 n)).
Lemma build_many names : (0 < n)%nat -> List.length names = n -> (forall k i, In k K -> (i < n)%nat -> List.length (it_col k i) = List.length (pr_dates (it_pr k))) ->
  forall K' fs, incl K' K -> Forall2 (filled names n) K' fs ->
  exists frs, mapM (fun kf => build_df (f_pr (snd kf)) (f_cols (snd kf)) (f_data (snd kf))) fs = Ok frs /\ Forall2 (item_frame names) K' frs.
Proof.
  intros N0 LN LE. induction K' as [|k K' IH]; intros fs IN F; inversion F as [|? [h fr] ? fs' [_ (cols & F2 & F3)] F4]; subst; cbn [mapM].
  - exists []. auto.
  - cbn [snd] in *. subst fr. cbn [snd f_pr f_cols f_data]. destruct (IH fs') as (frs & E & G); [intros x X; apply IN; right; auto|auto|].
    assert (M : make_df (it_pr k) cols (map (it_col k) (seq 0 n)) = Ok (mkdf (it_pr k) cols (map (it_col k) (seq 0 n)))).
    { unfold make_df. pose proof (column_names_length _ _ F3) as CL. rewrite <- LN, firstn_all in CL.
      replace (negb (Nat.eqb (List.length cols) 0)) with true by lia. rewrite map_length, seq_length. replace (Nat.eqb (List.length cols) n) with true by lia.
      rewrite (proj2 (forallb_forall _ _)); auto. intros x X. apply in_map_iff in X. destruct X as (i & <- & X). apply in_seq in X. apply Nat.eqb_eq. apply LE; [apply IN; left; auto|lia]. }
    rewrite <- LN, firstn_all in F3.
    assert (B : build_df (it_pr k) cols (map (it_col k) (seq 0 n)) = Ok (mkdf (it_pr k) cols (map (it_col k) (seq 0 n)))).
    { unfold build_df. rewrite M. destruct (text_eqb _ _); reflexivity. }
    rewrite B. cbn [bind]. rewrite E. cbn [bind]. eexists. split; [reflexivity|]. constructor; auto. exists cols. auto.
Qed.
Lemma read_many names : (0 < n)%nat -> List.length names = n ->
  (forall j name s, nth_error names j = Some name -> series_sp p j = Ok s ->
     find (fun k => dcombo_accepts k s) dcombos <> None /\ forall w2, same_cells w w2 -> get_data e w2 s = Ok (map (fun k => (name, it_col k j)) K)) ->
  (forall k i, In k K -> (i < n)%nat -> List.length (it_col k i) = List.length (pr_dates (it_pr k))) ->
  exists w' frs, get_data_all e w p = (w', Ok frs) /\ Forall2 (item_frame names) K frs.
Proof.
  intros N L1 G LE. unfold get_data_all. rewrite (zip_all p n t lists).
  destruct (init_many n 0 w [] eq_refl (FrameProofs2.same_refl w) (or_introl eq_refl)) as (w1 & I & S1); [lia|]. rewrite I.
  destruct (lists n_headers_coord) as [l [E L]]; [cbn; tauto|]. rewrite E. cbn [py_len]. rewrite L.
  assert (F0 : Forall2 (filled names 0) K empty).
  { unfold empty. clear - K. induction K as [|k K' IH]; cbn [map]; constructor; auto. split; [reflexivity|]. exists []. split; [reflexivity|constructor]. }
  destruct (fill_many names L1 G n 0 w1 empty eq_refl S1 F0) as (w2 & fs & FF & F2). rewrite FF.
  destruct (build_many names N L1 LE K fs (incl_refl K) F2) as (frs & M & FR). exists w2, frs. split; auto. cbn [bind]. rewrite M. reflexivity.
Qed.
End Values.

(** ** The dates of each letter *)
Lemma share_hd {A} fr c (a : A) : forall l k, hd_error (share fr c k l) = Some a ->
  exists i, nth_error l i = Some a /\ cycle_letter fr (k + i) = Some c /\ forall j, (j < i)%nat -> cycle_letter fr (k + j) <> Some c.
Proof.
  induction l as [|x l IH]; intros k H; [discriminate|]. cbn [share] in H.
  assert (NX : cycle_letter fr k <> Some c -> hd_error (share fr c (S k) l) = Some a ->
    exists i, nth_error (x :: l) i = Some a /\ cycle_letter fr (k + i) = Some c /\ forall j, (j < i)%nat -> cycle_letter fr (k + j) <> Some c).
  { intros N H'. destruct (IH (S k) H') as (i & I1 & I2 & I3). exists (S i). split; auto. replace (k + S i)%nat with (S k + i)%nat by lia. split; auto.
    intros [|j] J; [rewrite Nat.add_0_r; auto|]. replace (k + S j)%nat with (S k + j)%nat by lia. apply I3. lia. }
  destruct (cycle_letter fr k) as [b|] eqn:C; [destruct (ascii_dec b c) as [->|N]|]; try (apply NX; [congruence|auto]).
  injection H as ->. exists 0%nat. rewrite Nat.add_0_r. split; auto. split; auto. intros j J. lia.
Qed.
Lemma share_last {A} fr c (d : A) : forall l k, share fr c k l <> [] ->
  exists i, nth_error l i = Some (List.last (share fr c k l) d) /\ cycle_letter fr (k + i) = Some c /\ forall j, (i < j < List.length l)%nat -> cycle_letter fr (k + j) <> Some c.
Proof.
  induction l as [|x l IH] using rev_ind; intros k H; [destruct (H eq_refl)|]. rewrite share_app in *. cbn [share] in *.
  destruct (cycle_letter fr (k + List.length l)) as [b|] eqn:C; [destruct (ascii_dec b c) as [->|N]|].
  - exists (List.length l). rewrite last_last, nth_error_app2, Nat.sub_diag by lia. split; auto. split; auto. rewrite app_length. cbn. intros j J. lia.
  - rewrite app_nil_r in *. destruct (IH k H) as (i & I1 & I2 & I3). exists i. split; [rewrite nth_error_app1; auto; apply nth_error_Some; rewrite I1; discriminate|]. split; auto.
    rewrite app_length. cbn. intros j J. destruct (Nat.eq_dec j (List.length l)) as [->|]; [congruence|]. apply I3. lia.
  - rewrite app_nil_r in *. destruct (IH k H) as (i & I1 & I2 & I3). exists i. split; [rewrite nth_error_app1; auto; apply nth_error_Some; rewrite I1; discriminate|]. split; auto.
    rewrite app_length. cbn. intros j J. destruct (Nat.eq_dec j (List.length l)) as [->|]; [congruence|]. apply I3. lia.
Qed.
Lemma letters_more fr n : fr <> [] -> (List.length fr <= n)%nat -> letters_of fr n (uniq [] fr).
Proof.
  intros NE. induction 1 as [|n L IH]; [apply distinct_letters|].
  assert (P : (0 < List.length fr)%nat) by (destruct fr; [congruence|cbn; lia]).
  destruct (letters_all _ _ _ (distinct_letters fr) (n mod List.length fr)%nat ltac:(apply Nat.mod_upper_bound; lia)) as (c & C & I).
  apply lo_old with c; auto. unfold cycle_letter in *. rewrite Nat.mod_mod in C by lia. auto.
Qed.
Lemma letters_in fr n cs c : letters_of fr n cs -> In c cs -> In c fr.
Proof.
  induction 1 as [|n cs b L IH C I|n cs b L IH C I]; intros J; auto; [destruct J|]. apply in_app_or in J. destruct J as [J|[->|[]]]; auto.
  unfold cycle_letter in C. eapply nth_error_In; eauto.
Qed.

Section Attempt.
Variables (e : env) (w0 w : worksheet) (p : dict) (n : nat) (al : align) (f : string) (t : text) (r c z : Z)
  (ds : list datetime) (names : list text) (data : list (list spec_float)).
Let m := z + Z.of_nat (List.length ds) - 1.
Let F := T f.
Hypothesis freq : several_letters f.
Hypothesis cycles : stops_well al F (List.length ds).
Hypothesis cons : forall c, In c F -> consecutive (letter c) (share F c 0 ds).
Hypothesis real : Forall real_date ds.
Hypothesis start : forall c, In c F -> exists x, hd_error (share F c 0 ds) = Some x /\ period_start (letter c) x.
Hypothesis years : Forall (fun d => 1678 <= dt_y d <= 2261) ds.
Hypothesis named : cell_named t r c.
Hypothesis low : 1 <= z.
Hypothesis high : al = Horiz -> m < 18278.
Hypothesis lists : all_lists p n.
Hypothesis some : (0 < n)%nat.
Hypothesis size : bounded w.
Hypothesis series : forall i, (i < n)%nat -> exists s, series_sp p i = Ok s /\ open_series al t F z m s.
Hypothesis index : forall s, open_series al t F z m s -> forall k d, nth_error ds k = Some d -> holds s w (z + Z.of_nat k) (VDate d).
Hypothesis cleans : forall s, series_sp p 0 = Ok s -> exists w', clean_time_index e w0 s = (w', Ok m) /\ same_cells w w'.
Hypothesis names_n : List.length names = n.
Hypothesis data_n : List.length data = n.
Hypothesis lengths : Forall (fun vs => List.length vs = List.length ds) data.
Hypothesis values : forall i s name vs, series_sp p i = Ok s -> nth_error names i = Some name -> nth_error data i = Some vs ->
  series_name e w s name /\ (exists hr hc, cell_named (sp_hc s) hr hc) /\ values_read (with_ends s m) w vs.

Let cs := uniq [] F.
Lemma at_least : (2 <= List.length F)%nat /\ (2 <= List.length ds)%nat.
Proof. destruct freq as [L _]. fold F in L. destruct cycles as [C _]. auto. Qed.
Lemma cs_letters k : (List.length F <= k)%nat -> letters_of F k cs.
Proof. intros K. apply letters_more; auto. pose proof at_least. destruct F; [cbn in *; lia|discriminate]. Qed.
Lemma cs_seen : letters_of F (List.length ds) cs.
Proof.
  pose proof at_least as [A1 A2]. destruct (Nat.le_gt_cases (List.length F) (List.length ds)) as [L|L]; [apply cs_letters; auto|].
  pose proof (cs_letters (List.length F) (le_n _)) as CF. pose proof cycles as [_ C]. destruct al; [|lia].
  assert (NE : F <> []) by (intros Q; rewrite Q in A1; cbn in A1; lia).
  assert (G : forall k, exists l, letters_of F k l).
  { induction k as [|k [l IH]]; [exists []; constructor|]. destruct (cycle_letter F k) as [x|] eqn:X.
    - destruct (in_dec ascii_dec x l); [exists l; apply lo_old with x; auto|exists (l ++ [x]); apply lo_new; auto].
    - unfold cycle_letter in X. apply nth_error_None in X. pose proof (Nat.mod_upper_bound k (List.length F)). lia. }
  destruct (G (List.length ds)) as [l GL].
  assert (M : forall k, letters_of F (k + List.length ds) l).
  { induction k as [|k IH]; auto. cbn [Nat.add]. destruct (cycle_letter F (k + List.length ds)) as [x|] eqn:X.
    - apply lo_old with x; auto. assert (IX : In x F) by (eapply nth_error_In; exact X). destruct (C x IX) as (j & J & _ & XJ).
      destruct (letters_all _ _ _ GL j J) as (y & Y & IY). congruence.
    - unfold cycle_letter in X. apply nth_error_None in X. pose proof (Nat.mod_upper_bound (k + List.length ds) (List.length F)). lia. }
  specialize (M (List.length F - List.length ds)%nat). replace (List.length F - List.length ds + List.length ds)%nat with (List.length F) in M by lia.
  replace cs with l; auto. eapply letters_det; [exact M|exact CF].
Qed.
Lemma cs_in a : In a cs -> In a F.
Proof. intros I. eapply letters_in; [|exact I]. apply cs_letters. reflexivity. Qed.

Lemma hash_freq k : known_hash k -> fst (fst (it_hash k)) = pr_freq (it_pr k).
Proof. unfold known_hash, pr_hash. destruct (pr_first _); [|discriminate]. destruct (pr_last _); [|discriminate]. intros H. injection H as <-. reflexivity. Qed.
(** one item per letter *)
Definition letter_item (a : ascii) (k : item) : Prop :=
  (exists pn, pandas_name (letter a) pn /\ it_pr k = mkpr (T pn) (share F a 0 ds)) /\ known_hash k /\ it_col k = fun j => share F a 0 (nth j data []).
Lemma items_exist : exists K, Forall2 letter_item cs K /\
  Forall (fun a => exists k, letter_item a k) cs.
Proof.
  assert (G : forall l, incl l cs -> exists K, Forall2 letter_item l K /\ Forall (fun a => exists k, letter_item a k) l).
  { induction l as [|a l IH]; intros I; [exists []; auto|]. destruct IH as (K & FK & FA); [intros x X; apply I; right; auto|].
    assert (IA : In a F) by (apply cs_in, I; left; auto). destruct (start a IA) as (x & HX & PX).
    destruct (range_whole (letter a) (share F a 0 ds) x (proj2 freq a IA) (cons a IA)) as (pn & PN & _); auto.
    { apply Forall_forall. intros y Y. rewrite Forall_forall in real. apply real. eapply share_in; eauto. }
    destruct (hash_known (T pn) (share F a 0 ds) x HX) as (h & HH).
    assert (LI : letter_item a (mkitem (mkpr (T pn) (share F a 0 ds)) h (fun j => share F a 0 (nth j data [])))) by (split; [exists pn; auto|split; auto]).
    eexists (_ :: K). split; constructor; eauto. }
  apply G. apply incl_refl.
Qed.
Lemma hashes_distinct K : Forall2 letter_item cs K -> NoDup (map it_hash K).
Proof.
  assert (ND : NoDup cs) by (eapply FrameProofs4.letters_nodup; apply (cs_letters (List.length F)); lia). revert ND. generalize cs as l. 
  intros l ND FK. induction FK as [|a k l K [(pn & PN & PR) [KH _]] FK IH]; cbn [map]; constructor; [|inversion ND; auto].
  inversion ND as [|? ? NI ND']; subst. intros I. apply in_map_iff in I. destruct I as (k' & E & I). apply NI. clear - FK I E PN PR KH.
  induction FK as [|a' k0 l K [(pn' & PN' & PR') [KH' _]] FK IH]; [destruct I|]. destruct I as [->|I]; [left|right; auto].
  apply hash_freq in KH, KH'. rewrite PR, E in *. rewrite PR' in KH'. cbn [pr_freq] in *. assert (KT : T pn = T pn') by congruence.
  apply (f_equal string_of_list_ascii) in KT. unfold T in KT. rewrite !string_of_list_ascii_of_string in KT. subst pn'.
  pose proof (FrameProofs4.pandas_inj _ _ _ PN PN') as Q. unfold letter in Q. congruence.
Qed.

Lemma cycle_prs K : Forall2 letter_item cs K -> forall w' line, coord_line al t = Ok line -> same_cells w w' ->
  series_prs e w' F z line m 0 al = Ok (map it_pr K).
Proof.
  intros FK w' line LN SC. pose proof at_least as AT.
  destruct (series 0%nat some) as (s & S0 & O). pose proof O as (O1 & O2 & O3 & O4 & O5 & O6 & _).
  assert (WL : write_line (sp_al s) (sp_th s) = Ok line) by (rewrite O1, O2; exact LN).
  assert (VAL : forall k d, nth_error ds k = Some d -> axis_val al w' line (z + Z.of_nat k) = VDate d /\ axis_val al w line (z + Z.of_nat k) = VDate d).
  { intros k d K0. pose proof (index s O k d K0) as HO. apply (holds_iff _ _ _ _ _ WL) in HO. rewrite O1 in HO. split; auto. rewrite <- HO. unfold axis_val. symmetry. apply SC. }
  assert (TB : forall d, In d ds -> ts_in_bounds d = true).
  { intros d D. rewrite Forall_forall in years. specialize (years d D). cbn beta in years. unfold ts_in_bounds. apply andb_true_iff. split; apply leb_spec; right; unfold earlier; cbn [dt_y dt_m dt_d dt_s]; arith. }
  assert (EXT : m <= axis_max al w' /\ line <= other_max al w').
  { destruct (nth_error ds (List.length ds - 1)) as [d|] eqn:ED; [|apply nth_error_None in ED; arith]. destruct (VAL _ _ ED) as [_ V]. replace (z + Z.of_nat (List.length ds - 1)) with m in V by (unfold m; arith).
    destruct SC as (_ & SR & SCo). unfold axis_val, axis_row, axis_col, axis_max, other_max in *. destruct al.
    - destruct (size m line) as [? ?]; [rewrite V; discriminate|]. arith.
    - destruct (size line m) as [? ?]; [rewrite V; discriminate|]. arith. }
  unfold series_prs. replace (accepts_freq true F) with true by (unfold accepts_freq; symmetry; apply Nat.ltb_lt; arith).
  assert (CO : cycles_ok s m).
  { unfold cycles_ok. cbn zeta. unfold position_letter. rewrite O6, O3, O1. unfold m. destruct cycles as [C1 C2]. destruct al; [|arith]. intros ch I. destruct (C2 ch I) as (k0 & L & D & CL).
    exists (z + Z.of_nat k0). split; [arith|]. replace (z + Z.of_nat k0 - z) with (Z.of_nat k0) by arith. replace (z + Z.of_nat (List.length ds) - 1 - z) with (Z.of_nat (List.length ds - 1)) by arith.
    rewrite Nat2Z.id, <- !Nat2Z.inj_div. split; [f_equal; exact D|exact CL]. }
  pose proof (multi_value e w' s line m []) as MV. rewrite O6, O3, O1 in MV. destruct (MV ltac:(arith) low (proj1 EXT) ltac:(unfold m; arith) CO (proj2 EXT)) as (st & endm & ST & EN & ->). clear MV.
  fold cs. apply mapM_ok.
  assert (IN : forall a, In a cs -> In a F) by apply cs_in. revert IN. clear - FK ST EN VAL TB cons start freq real O3 O6. 
  induction FK as [|a k l K [(pn & PN & PR) _] FK IH]; intros IN; cbn [map]; constructor; [|apply IH; intros x X; apply IN; right; auto].
  assert (IA : In a F) by (apply IN; left; auto). destruct (start a IA) as (x & HX & PX).
  destruct (range_whole (letter a) (share F a 0 ds) x (proj2 freq a IA) (cons a IA)) as (pn' & PN' & DR); auto.
  { apply Forall_forall. intros y Y. rewrite Forall_forall in real. apply real. eapply share_in; eauto. }
  assert (pn' = pn) by (inversion PN; subst; inversion PN'; subst; congruence). subst pn'. rewrite PR.
  assert (PL : forall i, position_letter s (z + Z.of_nat i) = cycle_letter F (0 + i)).
  { intros i. unfold position_letter. rewrite O6, O3. do 2 f_equal. arith. }
  destruct (share_hd F a x ds 0 HX) as (i & I1 & I2 & I3).
  assert (NE : share F a 0 ds <> []) by (intros Q; rewrite Q in HX; discriminate).
  destruct (share_last F a x ds 0 NE) as (j & J1 & J2 & J3).
  assert (IL : (i < List.length ds)%nat) by (apply nth_error_Some; rewrite I1; discriminate).
  rewrite (ST a (z + Z.of_nat i) x), (EN a (z + Z.of_nat j) (List.last (share F a 0 ds) x)); [|exact IA| |apply VAL; auto| |unfold m; arith|apply VAL; auto].
  - unfold range_of. cbn [to_timestamp]. rewrite TB by (eapply nth_error_In; eauto). cbn [bind]. rewrite TB by (eapply nth_error_In; eauto). cbn [bind]. exact DR.
  - assert (JL : (j < List.length ds)%nat) by (apply nth_error_Some; rewrite J1; discriminate).
    split; [rewrite O3; unfold m; arith|]. rewrite PL. split; auto. intros q Q. replace q with (z + Z.of_nat (Z.to_nat (q - z))) by arith. rewrite PL. apply J3. unfold m in Q. arith.
  - split; [rewrite O3; arith|]. rewrite PL. split; auto. rewrite O3. intros q Q. replace q with (z + Z.of_nat (Z.to_nat (q - z))) by arith. rewrite PL. apply I3. arith.
Qed.

Lemma attempt_cycles : exists frs, alone e w0 p = Ok frs /\ Forall2 (letter_frame f names ds data) cs frs.
Proof.
  pose proof at_least as AT. assert (ML : z < m) by (unfold m; arith).
  destruct (series 0%nat some) as (s0 & S0 & O0). pose proof O0 as (O1 & O2 & O3 & O4 & O5 & O6 & O7 & O9).
  assert (LINE : exists line, coord_line al t = Ok line).
  { unfold coord_line. pose proof (proj1 (cell_named_iff _ _ _) named) as NM. rewrite NM. cbn [bind]. eexists; reflexivity. }
  destruct LINE as [line LN].
  destruct (cleans s0 S0) as (w1 & CT & SV1).
  assert (TH : forall j, (j < n)%nat -> series_value p n_time_header j (VStr t) /\ exists v, series_value p n_data_ends j v /\ open_end m v).
  { intros j J. destruct (series j J) as (s & SE & Q1 & Q2 & Q3 & Q4 & _). apply (fields_sp p n j s lists J) in SE.
    destruct SE as [_ _ _ _ _ _ [g [g1 g2]] _ _ _ _ _ _ [q [q1 q2]] _ _]. split.
    - rewrite Q2 in q2. destruct q; cbn in q2; try discriminate; [inversion q2; subst; auto|].
      destruct (mapM as_text l); discriminate.
    - exists g. split; auto. unfold open_end. destruct (truthy g); [right|left; auto]. split; auto.
      destruct (as_int g) as [g'|]; [|discriminate]. cbn in g2. inversion g2 as [E]. rewrite <- E in Q4. destruct Q4 as [Q4|Q4]; congruence. }
  assert (TM : exists v, series_value p n_time_multicolumn 0 v /\ truthy v = false).
  { pose proof S0 as F0. apply (fields_sp p n 0 s0 lists some) in F0. destruct F0 as [_ _ _ _ _ _ _ _ _ _ _ _ [v [v1 v2]] _ _ _]. exists v. rewrite O7 in v2. auto. }
  destruct (clean_all e w0 p n t m s0 some ltac:(arith) lists TH TM S0 w1 CT) as (p1 & CD & ES).
  assert (SE1 : forall i s, (i < n)%nat -> series_sp p i = Ok s -> series_sp p1 i = Ok (with_ends s m)).
  { intros i s I E. eapply fields_ends; eauto. }
  assert (L1 : all_lists p1 n) by apply ES.
  destruct items_exist as (K & FK & _).
  assert (COL : forall k j, In k K -> (j < n)%nat -> List.length (it_col k j) = List.length (pr_dates (it_pr k))).
  { intros k j IK J. clear - FK IK J lengths data_n. induction FK as [|a k' l K [(pn & _ & PR) [_ CO]] FK IH]; [destruct IK|]. destruct IK as [->|IK]; auto.
    rewrite CO, PR. cbn [pr_dates]. apply share_length. rewrite Forall_forall in lengths. apply lengths. apply nth_In. arith. }
  destruct (read_many e w1 p1 n F t al z m line K L1) with (names := names) as (w2 & frs & GD & FR); auto.
  - intros w' S. apply cycle_prs; auto. eapply FrameProofs2.same_trans; eauto.
  - clear - FK. induction FK as [|a k l K [_ [KH _]] FK IH]; constructor; auto.
  - apply hashes_distinct. auto.
  - assert (LC := cs_letters (List.length F) (le_n _)). destruct (letters_all _ _ _ LC 0%nat ltac:(arith)) as (a & _ & IA). intros ->. inversion FK as [Q|]. rewrite <- Q in IA. destruct IA.
  - intros i I. destruct (series i I) as (s & SE & Q). exists (with_ends s m). split; [apply SE1; auto|].
    destruct Q as (Q1 & Q2 & Q3 & Q4 & Q5 & Q6 & Q7 & Q9). repeat split; auto.
  - intros j name s N1 SE.
    assert (J : (j < n)%nat) by (rewrite <- names_n; apply nth_error_Some; congruence).
    destruct (nth_error data j) as [vs|] eqn:N2; [|apply nth_error_None in N2; arith].
    destruct (series j J) as (s' & SE' & Q). pose proof (SE1 j s' J SE') as SE2. rewrite SE in SE2. inversion SE2; subst s. clear SE2.
    destruct (values j s' name vs SE' N1 N2) as (NM & HC & VR). pose proof Q as (Q1 & Q2 & Q3 & Q4 & Q5 & Q6 & Q7 & Q9).
    assert (LEN : List.length vs = List.length ds) by (eapply (Forall_nth_error _ _ lengths); eauto).
    assert (ML' : marker_list (with_ends s' m)) by (intros MS; destruct (Q9 MS) as (ms & MV & _); exists ms; exact MV).
    split.
    + unfold dcombo_accepts, dcombos, accepts_freq. cbn [find dk_multifreq dk_cont with_ends sp_freq sp_cont]. rewrite Q6.
      replace (Nat.eqb (List.length F) 1) with false by (symmetry; apply Nat.eqb_neq; arith). replace (Nat.ltb 1 (List.length F)) with true by (symmetry; apply Nat.ltb_lt; arith).
      destruct (sp_cont s'); discriminate.
    + intros w' S. rewrite <- (c53_same_values e w w' (with_ends s' m)); auto.
      2:{ apply stored_same. apply same_cells_values. eapply FrameProofs2.same_trans; eauto. }
      destruct (c30_accepts e w (with_ends s' m) name vs) as (cs' & LC & GE); auto.
      * cbn [with_ends sp_freq]. rewrite Q6. arith.
      * apply name_ends; exact NM.
      * split; [exact HC|]. cbn [with_ends sp_ends sp_starts sp_al]. intros en q E R. inversion E; subst en. rewrite Q1, Q3 in *. split; [arith|]. intros A. specialize (high A). arith.
      * intros _. split.
        -- exists t, r, c. split; auto.
        -- cbn [with_ends sp_ends sp_starts sp_al sp_ta]. intros en q E R. inversion E; subst en. rewrite Q1, Q3, Q5 in *. split; [arith|]. intros A. specialize (high A). arith.
      * cbn [with_ends sp_freq] in LC, GE. rewrite Q6 in LC, GE. rewrite GE. f_equal.
        assert (E : cs' = cs) by (rewrite LEN in LC; exact (letters_det _ _ _ _ LC cs_seen)). subst cs'.
        clear - FK N2. induction FK as [|a k l K [_ [_ CO]] FK IH]; cbn [map]; auto. f_equal; auto. rewrite CO, share_values. f_equal. f_equal. symmetry. apply nth_error_nth. auto.
  - exists frs. split.
    + unfold alone, run_attempt. cbn [sheet params st_sheets st_params nth]. rewrite CD. rewrite GD. reflexivity.
    + clear - FK FR data_n. fold F in FK. revert frs FR. induction FK as [|a k l K [(pn & PN & PR) [_ CO]] FK IH]; intros frs FR; inversion FR as [|? fr ? frs' (cols & CN & ->) FR']; subst; constructor; auto.
      exists pn, cols. split; auto. split; auto. rewrite PR, CO. f_equal. 
      assert (E : data = map (fun j => nth j data []) (seq 0 (List.length data))).
      { clear. induction data as [|x l IH]; auto. cbn [List.length seq map]. f_equal; auto. rewrite <- seq_shift, map_map. exact IH. }
      rewrite E at 2. rewrite map_map. reflexivity.
Qed.
End Attempt.

(** ** The table, and the call *)
Section Table.
Variables (e : env) (d : dict) (cells : list (Z * Z)) (time : Z * Z) (z m : Z) (f : string) (se : settings)
  (names : list text) (ds : list datetime) (data : list (list spec_float)).
Hypothesis RQ : request d cells time z m f se.
Hypothesis FREQ : several_letters f.
Hypothesis NOIMP : se_missings se = true -> ~ In (VStr (pname "Implicit")) (se_markers se).
Lemma cycle_alone w hs t a n : n = List.length cells -> names_cells hs cells -> cell_named t (fst time) (snd time) ->
  (forall k, In k PARAM_NAMES -> fixed a n k (requested d z m f se hs t k)) -> bounded w ->
  real_dates w -> cycle_table d w cells time z m f se ds data -> table_names e d w cells names ->
  exists frs, alone e w a = Ok frs /\ Forall2 (letter_frame f names ds data) (uniq [] (T f)) frs.
Proof.
  intros EN NC TN F BW RW CT TNM. pose proof CT as [c1 c0 c2 c3 c4 c5 c6 c7 [c8 c9] c10 c12].
  assert (REAL : Forall real_date ds).
  { apply Forall_forall. intros x X. apply In_nth_error in X as [k K]. pose proof (c3 k x K) as E.
    destruct (se_align se); cbn [along] in E; eapply RW; eauto. }
  assert (AT : (2 <= List.length (T f))%nat /\ (2 <= List.length ds)%nat).
  { destruct FREQ as [L _]. destruct c2. auto. }
  assert (NZ : m <> 0) by lia.
  assert (AL : all_lists a n) by (intros k K; destruct (F k K) as (l & E & L & _); eauto).
  assert (S0 : forall i, (i < n)%nat -> series_sp a i = Ok (series_of d z m f se hs t i)) by (intros i I; apply (series_exact d z m f se a n); auto).
  assert (NP : (0 < n)%nat).
  { destruct (rq_headers _ _ _ _ _ _ _ RQ) as (hv & _ & _ & NE). rewrite EN. destruct cells; [congruence|cbn; lia]. }
  assert (LNM : List.length names = List.length cells).
  { destruct TNM as [_ L _|_ F2]; auto. symmetry. eapply F2_len; eauto. }
  assert (OP : forall i, open_series (se_align se) t (T f) z (z + Z.of_nat (List.length ds) - 1) (series_of d z m f se hs t i)).
  { intros i. unfold series_of, open_series.
    cbn [sp_al sp_name sp_hc sp_comp sp_ctx sp_starts sp_ends sp_cont sp_blank sp_missings sp_mv sp_ta sp_multi sp_th sp_composed sp_freq].
    rewrite <- c1. destruct (is_none (dgetN n_data_ends d)); repeat (split; auto); intros MS; exists (se_markers se); split; auto; apply NOIMP; auto. }
  apply (attempt_cycles e w w a n (se_align se) f t (fst time) (snd time) z ds names data); auto.
  - rewrite <- c1. exact c9.
  - intros i I. exists (series_of d z m f se hs t i). split; auto.
  - intros s (A & T & _) k x K. eapply along_holds; eauto.
  - intros s E. rewrite (S0 0%nat NP) in E. inversion E; subst s. clear E.
    apply (cycles_cleaned e w (se_align se) f t (fst time) (snd time) z ds); auto; try lia.
    + intros k x K. eapply along_holds; [exact TN|reflexivity|reflexivity|apply c3; auto].
    + rewrite <- c1. eapply stops_ends; eauto.
  - congruence.
  - rewrite EN. symmetry. eapply F2_len; eauto.
  - clear - c12. induction c12 as [|rc vs cells' data' [L _] _ IH]; constructor; auto.
  - rewrite <- c1. apply (table_values e d cells time z m f se names ds data w hs t a n); auto.
Qed.
End Table.
Lemma cycle_same w w' d cells time z m f se ds data : same_sheet w w' ->
  cycle_table d w cells time z m f se ds data -> cycle_table d w' cells time z m f se ds data.
Proof.
  intros SM [c1 c0 c2 c3 c4 c5 c6 c7 c8 c10 c12]. constructor; auto.
  - intros k x K. rewrite <- (along_same _ _ SM). auto.
  - eapply stops_same; eauto.
  - eapply F2_imp; [|exact c12]. intros rc vs (L & V). split; auto. intros k x K. rewrite <- (along_same _ _ SM). auto.
Qed.
Lemma bounded_same w w' : same_sheet w w' -> bounded w -> bounded w'.
Proof. intros (_ & MR & MC & C) B i j N. rewrite <- C in N. rewrite <- MR, <- MC. apply B. auto. Qed.
Lemma c67 e uni json st wb q preserve name i d cells time z m f se names ds data :
  wb_ok st wb -> resolves uni strip (names_of st wb) q name -> first_such (fun i => title (sheet st i) = name) wb i ->
  bounded (sheet st i) -> real_dates (sheet st i) ->
  request d cells time z m f se -> several_letters f -> (se_missings se = true -> ~ In (VStr (pname "Implicit")) (se_markers se)) ->
  cycle_table d (sheet st i) cells time z m f se ds data -> table_names e d (sheet st i) cells names ->
  exists cs frs out pid, letters_of (T f) (List.length (T f)) cs /\ Forall2 (letter_frame f names ds data) cs frs /\ handed frs out /\
    snd (get_data_frames e uni json st wb (UInput (PDict d)) q false preserve) = Ok (out, name, pid).
Proof.
  intros WB RES FS BO RD RQ FREQ NOIMP CT TN.
  assert (NM : ~ given (pname "series_names") d \/ exists ns, dget (pname "series_names") d = Some (VList (map VStr ns)) /\ List.length ns = List.length cells).
  { destruct TN as [G L _|G _]; eauto. }
  assert (FL : Forall (fun c => In c (pname "ASQMWD")) (pname f)).
  { apply Forall_forall. intros c C. destruct FREQ as [_ P]. specialize (P c C). destruct P as [P|[P|[P|[P|[P|[]]]]]]; injection P as <-; cbn; tauto. }
  destruct (call_attempt (fun frs => Forall2 (letter_frame f names ds data) (uniq [] (T f)) frs) e uni json st wb q preserve name i d cells time z m f se WB RES FS BO RQ FL (cy_after _ _ _ _ _ _ _ _ _ _ CT) NM)
    as (frs & out & pid & FR & HA & E).
  { intros w hs t a SM NC TH F. assert (T1 := real_same _ _ SM RD). assert (T2 := cycle_same _ _ _ _ _ _ _ _ _ _ _ SM CT). assert (T3 := names_same _ _ SM _ _ _ _ TN).
    apply (cycle_alone e d cells time z m f se names ds data RQ FREQ NOIMP w hs t a _ eq_refl NC TH F (bounded_same _ _ SM BO) T1 T2 T3). }
  exists (uniq [] (T f)), frs, out, pid. split; [apply distinct_letters|]. auto.
Qed.
