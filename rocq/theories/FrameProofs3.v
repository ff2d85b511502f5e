(** Proofs about the dates and the lengths of the columns of a frame (C34, C36, C37). *)
From Verif Require Import Base BaseFacts Cal SpecCal CalFacts CalProofs SpecCoord SpecCoordFacts Coord CoordFacts XlMethods Params ParseTime TimeIndex GetData PeriodRange DataFrame
  Scrape Xlseries SpecTime SpecData SpecScrape ScrapeFacts TimeFacts TimeProofs DataFacts SpecFrames FrameProofs FrameProofs2 RangeProofs.
Local Open Scope Z_scope.

(** ** the ranges of a series *)
Definition real_range (r : prange) : Prop := exists f s en, real_date s /\ real_date en /\ date_range s en (T f) = Ok r.
Lemma T_string (t : text) : T (string_of_list_ascii t) = t.
Proof. apply list_ascii_of_string_of_list_ascii. Qed.
Lemma stamp_real e v d : real_stamps e -> (forall x, v = VDate x -> real_date x) -> to_timestamp e v = Ok d -> real_date d.
Proof.
  intros RS R. destruct v; cbn; try (apply RS); try discriminate. destruct (ts_in_bounds d0); [|discriminate]. intros H. injection H as <-. auto.
Qed.
Lemma range_real e a b f r : real_stamps e -> (forall x, a = VDate x -> real_date x) -> (forall x, b = VDate x -> real_date x) -> range_of e a b f = Ok r -> real_range r.
Proof.
  intros RS A B. unfold range_of. intros H. apply bind_ok in H. destruct H as (x & X & H). apply bind_ok in H. destruct H as (y & Y & H).
  exists (string_of_list_ascii f), x, y. rewrite T_string. split; [apply (stamp_real e a); auto|]. split; [apply (stamp_real e b); auto|auto].
Qed.
Lemma keep_first_in (Q : pyval -> Prop) l : forall m, (forall c, Q (m c)) -> (forall v f, In (v, f) l -> Q v) -> forall c, Q (keep_first m l c).
Proof.
  induction l as [|[v f] l IH]; intros m M L c; cbn [keep_first]; auto. apply IH; [|intros; eapply L; right; eauto].
  intros x. destruct (truthy (m f)); auto. destruct (ch_eqb x f); auto. eapply L; left; eauto.
Qed.
Lemma slice_real w al line a b l : real_dates w -> slice_cells al w line a b = Ok l -> forall v d, In v l -> v = VDate d -> real_date d.
Proof.
  intros R. unfold slice_cells. destruct (py_slice _ a b) as [|x xs]; [intros H; injection H as <-; intros v d []|]. destruct (_ <=? _); [|discriminate]. intros H. injection H as <-.
  intros v d I ->. apply (in_map_iff (axis_val al w line) (x :: xs)) in I. destruct I as (q & E & _). unfold axis_val in E. eapply R; eauto.
Qed.
Lemma prs_real e w f s line en ta al prs : real_stamps e -> real_dates w -> series_prs e w f s line en ta al = Ok prs -> Forall real_range prs.
Proof.
  intros RS R. unfold series_prs. destruct (accepts_freq true f).
  - unfold multi_prs. cbn zeta. intros H. apply bind_ok in H. destruct H as (sc & SC & H). apply bind_ok in H. destruct H as (endm & EM & H).
    assert (V0 : forall c : ascii, (fun v => forall d, v = VDate d -> real_date d) ((fun _ => VNone) c)) by (intros c d E; discriminate).
    assert (Est : forall c d, keep_first (fun _ => VNone) (combine sc f) c = VDate d -> real_date d).
    { intros c. apply (keep_first_in (fun v => forall d, v = VDate d -> real_date d) (combine sc f)); auto. intros v g I d. apply in_combine_l in I. eapply slice_real; eauto. }
    assert (Een : forall c d, endm c = VDate d -> real_date d).
    { intros c. destruct al; apply bind_ok in EM; destruct EM as (ec & EC & EM); injection EM as <-.
      - apply (keep_first_in (fun v => forall d, v = VDate d -> real_date d)); auto. intros v g I d. apply in_combine_l, in_rev in I. eapply slice_real; eauto.
      - apply (keep_first_in (fun v => forall d, v = VDate d -> real_date d)); auto. intros v g I d. apply in_combine_l, in_rev in I. eapply slice_real; eauto. }
    revert H. apply mapM_forall. intros c r _ H. exact (range_real e _ _ _ _ RS (Est c) (Een c) H).
  - destruct (accepts_freq false f); [|discriminate]. unfold single_prs. intros H. apply bind_ok in H. destruct H as (a & A & H). apply bind_ok in H. destruct H as (b & B & H).
    apply bind_ok in H. destruct H as (r & RR & H). injection H as <-. constructor; auto. apply axis_read_val in A. apply axis_read_val in B. unfold axis_val in A, B.
    apply (range_real e a b f r RS); auto; intros x X; subst; eapply R; eauto.
Qed.
Lemma real_cells w w' : same_cells w w' -> real_dates w -> real_dates w'.
Proof. intros [H _] R r c d E. rewrite <- H in E. eapply R; eauto. Qed.
Lemma piece_real e w s ps pc : real_stamps e -> real_dates w -> contributes e w s ps -> In pc ps -> real_range (fst pc).
Proof.
  intros RS R (w' & t & line & en & prs & nvs & SC & _ & _ & _ & _ & _ & SP & ->) I. apply prs_real in SP; auto; [|eapply real_cells; eauto].
  destruct pc as [pr x]. apply in_combine_l in I. rewrite Forall_forall in SP. apply SP. auto.
Qed.
Lemma real_same r r' : real_range r -> real_range r' -> same_periods r r' -> pr_dates r <> [] -> r = r'.
Proof. intros (f & s & en & A & B & H) (f' & s' & en' & A' & B' & H'). exact (same_range f s en r f' s' en' r' A B A' B' H H'). Qed.

(** ** the frame of a piece *)
Lemma belong_at pr l ps pc : belonging pr l ps -> In pc l -> same_periods pr (fst pc) -> In pc ps.
Proof.
  induction 1 as [|p l l' S B IH|p l l' S B IH]; intros I P; auto.
  - destruct I as [<-|I]; [left|right]; auto.
  - destruct I as [<-|I]; [contradiction|auto].
Qed.
Lemma belong_sub pr l ps pc : belonging pr l ps -> In pc ps -> In pc l /\ same_periods pr (fst pc).
Proof.
  induction 1 as [|p l l' S B IH|p l l' S B IH]; intros I; [destruct I| |].
  - destruct I as [<-|I]; [split; [left|]; auto|]. destruct (IH I). split; [right|]; auto.
  - destruct (IH I). split; [right|]; auto.
Qed.
Lemma forall2_in {A B} (Q : A -> B -> Prop) l l' x : Forall2 Q l l' -> In x l -> exists y, In y l' /\ Q x y.
Proof.
  induction 1 as [|a b l l' H F IH]; intros I; [destruct I|]. destruct I as [<-|I]; [exists b; split; [left|]; auto|]. destruct (IH I) as (y & Y & K). exists y. split; [right|]; auto.
Qed.
Lemma column_named ns cols k n : column_names ns cols -> nth_error ns k = Some n -> exists i, 1 <= i /\ nth_error cols k = Some (numbered n i).
Proof.
  induction 1 as [|ns m cols col C IH (i & Hi & -> & _)]; intros H; [destruct k; discriminate|]. pose proof (column_names_length _ _ C) as L.
  destruct (Nat.lt_ge_cases k (List.length ns)) as [Hk|Hk].
  - rewrite nth_error_app1 in H by auto. rewrite nth_error_app1 by lia. auto.
  - rewrite nth_error_app2 in H by auto. rewrite nth_error_app2 by lia. rewrite <- L. destruct (k - List.length ns)%nat as [|[|j]]; try discriminate. injection H as ->. exists i. auto.
Qed.
Lemma frame_of_piece e w p w' dfs : real_stamps e -> real_dates w -> get_data_all e w p = (w', Ok dfs) ->
  exists cs, py_len (dgetN n_headers_coord p) = Ok (List.length cs) /\
  (forall i ps, nth_error cs i = Some ps -> exists s, series_sp p i = Ok s /\ contributes e w s ps) /\
  forall pc, In pc (List.concat cs) -> exists d, In d dfs /\ in_frame d (fst (snd pc)) (snd (snd pc)) /\ rectangular d /\ pr_dates (fst pc) <> [] /\
    (df_index d = fst pc \/ working_days (fst pc) (df_index d)).
Proof.
  intros RS R H. pose proof (all_rect _ _ _ _ _ H) as Rc. apply (c36_ranges e w p w' dfs real_range) in H.
  2: { intros w1 f s line en ta al prs SC. apply prs_real; auto. apply (real_cells w); auto. }
  destruct H as (cs & prs & PL & CS & F2 & _ & All & RG).
  exists cs. split; auto. split; auto. intros pc I.
  assert (RP : real_range (fst pc)).
  { apply in_concat in I. destruct I as (ps & P & Q). apply In_nth_error in P. destruct P as (i & P). destruct (CS i ps P) as (s & _ & C). eapply piece_real; eauto. }
  destruct (All pc I) as (pr & Ip & SP). destruct (forall2_in _ _ _ _ F2 Ip) as (d & Id & ps & B & (Ix & CN & D)).
  rewrite Forall_forall in RG. destruct (RG pr Ip) as [Rp NE]. pose proof (belong_at _ _ _ _ B I SP) as Ipc.
  assert (E : pr = fst pc) by (apply real_same; auto). rewrite E in *.
  exists d. split; auto. split; [|split; [rewrite Forall_forall in Rc; auto|auto]].
  apply In_nth_error in Ipc. destruct Ipc as (k & K). destruct (column_named _ _ k (fst (snd pc)) CN) as (i & Hi & N); [exact (map_nth_error (fun p : piece => fst (snd p)) _ _ K)|].
  exists k, i. split; auto. split; auto. rewrite D. exact (map_nth_error (fun p : piece => snd (snd p)) _ _ K).
Qed.

(** ** C34 *)
Lemma in_frame_length d n vs : rectangular d -> in_frame d n vs -> List.length vs = List.length (pr_dates (df_index d)).
Proof. intros [_ F] (k & i & _ & _ & K). rewrite Forall_forall in F. apply F. eapply nth_error_In; eauto. Qed.
Lemma c34_fits e w p w' dfs : real_stamps e -> real_dates w -> get_data_all e w p = (w', Ok dfs) ->
  exists cs, py_len (dgetN n_headers_coord p) = Ok (List.length cs) /\
  (forall i ps, nth_error cs i = Some ps -> exists s, series_sp p i = Ok s /\ contributes e w s ps) /\
  Forall (Forall fits) cs.
Proof.
  intros RS R H. apply frame_of_piece in H; auto. destruct H as (cs & PL & CS & F). exists cs. split; auto. split; auto.
  apply Forall_forall. intros ps Ip. apply Forall_forall. intros pc I. destruct (F pc) as (d & _ & IF & RC & _ & IX); [apply in_concat; eauto|].
  apply in_frame_length in IF; auto. unfold fits. cbn zeta. destruct IX as [<-|W]; [left; auto|]. right. exists (df_index d). auto.
Qed.

(** pandas has no dates after 2262 *)
Lemma bounds_year d : ts_in_bounds d = true -> dt_y d < 9999.
Proof.
  unfold ts_in_bounds. intros H. apply andb_prop in H as [_ H]. apply leb_spec in H. destruct H as [->|H]; [reflexivity|]. unfold earlier in H. cbn in H. lia.
Qed.
Lemma bounds_timestamp d : ts_in_bounds d = true -> timestamp d.
Proof. unfold ts_in_bounds, timestamp. intros H. apply andb_prop in H as [A B]. apply leb_spec in A, B. auto. Qed.
Lemma timestamp_year d : timestamp d -> dt_y d < 9999.
Proof. intros [_ [->|H]]; [reflexivity|]. unfold earlier in H. cbn in H. lia. Qed.
(** ** one range for a single frequency *)
Lemma single_piece e w s ps f a b : single_frequency s -> sp_freq s = T f -> contributes e w s ps ->
  real_date a -> real_date b -> (exists en, sp_ends s = Some en /\ holds s w (sp_starts s + sp_ta s) (VDate a) /\ holds s w (en + sp_ta s) (VDate b)) ->
  exists pr n vs, ps = [(pr, (n, vs))] /\ get_data e w s = Ok [(n, vs)] /\ covers f a b pr /\ timestamp a /\ timestamp b.
Proof.
  intros SF FR (w' & t & line & en & prs & nvs & SC & GD & IC & CL & EN & NE & SP & ->) Ra Rb (en' & EN' & HA & HB).
  rewrite EN in EN'. injection EN' as <-. unfold series_prs in SP. unfold single_frequency in SF. unfold accepts_freq in SP. rewrite SF in SP. cbn [Nat.ltb Nat.leb Nat.eqb] in SP.
  unfold single_prs in SP. rewrite <- !(axis_read_cells w w' SC) in SP.
  assert (W : write_line (sp_al s) (sp_th s) = Ok line). { destruct IC as [-> | (_ & ts & ->)]; cbn; auto. }
  apply (holds_iff _ _ _ _ _ W) in HA. apply (holds_iff _ _ _ _ _ W) in HB.
  apply bind_ok in SP. destruct SP as (va & VA & SP). apply bind_ok in SP. destruct SP as (vb & VB & SP). apply axis_read_val in VA. apply axis_read_val in VB.
  rewrite HA in VA. rewrite HB in VB. subst va vb. apply bind_ok in SP. destruct SP as (r & RR & SP). injection SP as <-.
  unfold range_of in RR. cbn [to_timestamp] in RR. destruct (ts_in_bounds a) eqn:TA; [|discriminate]. cbn [bind] in RR. destruct (ts_in_bounds b) eqn:TB; [|discriminate]. apply bounds_timestamp in TA, TB. cbn [bind] in RR. rewrite FR in RR.
  apply range_covers in RR; auto. destruct RR as [C _].
  pose proof GD as GD'. unfold get_data in GD. apply bind_ok in GD. destruct GD as (n & N & GD). apply bind_ok in GD. destruct GD as (vls & V & GD). injection GD as <-.
  assert (L : List.length vls = 1%nat \/ vls = []).
  { unfold get_values in V. rewrite EN in V. apply bind_ok in V. destruct V as (hl & _ & V). cbn zeta in V. apply bind_ok in V. destruct V as (vs & _ & V). rewrite SF in V. cbn [Nat.eqb] in V.
    cbn [bind] in V. apply bind_ok in V. destruct V as (imp & _ & V). rewrite andb_true_r in V. destruct imp.
    - destruct vs; [discriminate|]. apply bind_ok in V. destruct V as (tl & _ & V). apply bind_ok in V. destruct V as (tvs & _ & V). apply bind_ok in V. destruct V as (x & _ & V). injection V as <-. auto.
    - destruct vs; injection V as <-; auto. }
  destruct vls as [|vs [|v2 vls]]; [cbn in NE; congruence| |destruct L; [discriminate|discriminate]].
  exists r, n, vs. auto.
Qed.
Lemma covers_name f a b r : covers f a b r -> pr_freq r = T "D" -> f = "D"%string.
Proof. intros ((n & P & F) & _) E. rewrite E in F. apply T_inj in F. subst n. inversion P; auto. Qed.
Lemma covers_days f a b r x y : covers f a b r -> real_date a -> real_date b -> In x (pr_dates r) -> In y (pr_dates r) -> dt_y b < 9999 ->
  pr_freq r = T "D" -> covers_working x y (business_range x y).
Proof.
  intros C Ra Rb X Y B F. pose proof (covers_name _ _ _ _ C F) as ->. destruct C as (_ & _ & I). apply I in X, Y. unfold index_date in X, Y.
  change (if string_dec "D" "S" then _ else ?x) with x in X, Y. destruct X as (Rx & _ & _ & _ & Lx), Y as (Ry & _ & _ & _ & Ly).
  assert (L : forall d, not_later d b -> dt_y d < 9999) by (intros d [->|H]; auto; unfold earlier in H; lia).
  apply business_covers; auto.
Qed.
Lemma hd_in {A} (l : list A) x : hd_error l = Some x -> In x l.
Proof. destruct l; cbn; intros H; [discriminate|]. injection H as ->. left; auto. Qed.
Lemma c37_index e w p w' dfs i m s f a b n vs : real_stamps e -> real_dates w -> get_data_all e w p = (w', Ok dfs) ->
  py_len (dgetN n_headers_coord p) = Ok m -> (i < m)%nat -> series_sp p i = Ok s -> single_frequency s -> sp_freq s = T f ->
  (exists en, sp_ends s = Some en /\ holds s w (sp_starts s + sp_ta s) (VDate a) /\ holds s w (en + sp_ta s) (VDate b)) ->
  get_data e w s = Ok [(n, vs)] ->
  exists d, In d dfs /\ in_frame d n vs /\ rectangular d /\
  (covers f a b (df_index d) \/
   f = "D"%string /\ exists r x y, covers f a b r /\ (List.length (pr_dates (df_index d)) <> List.length (pr_dates r)) /\ hd_error (pr_dates r) = Some x /\ hd_error (rev (pr_dates r)) = Some y /\ covers_working x y (df_index d)).
Proof.
  intros RS R H PL Hi SS SF FR HO GD. apply frame_of_piece in H; auto. destruct H as (cs & PL' & CS & F). rewrite PL in PL'. injection PL' as ->.
  destruct (nth_error cs i) as [ps|] eqn:N; [|apply nth_error_None in N; lia]. destruct (CS i ps N) as (s' & SS' & C). rewrite SS in SS'. injection SS' as <-.
  assert (Ra : real_date a /\ real_date b). { destruct HO as (en & _ & (r & c & _ & A) & (r' & c' & _ & A')). split; eapply R; eauto. }
  destruct Ra as [Ra Rb]. destruct (single_piece _ _ _ _ f a b SF FR C Ra Rb HO) as (pr & n' & vs' & -> & GD' & CV & _ & B%timestamp_year). rewrite GD in GD'. injection GD' as <- <-.
  destruct (F (pr, (n, vs))) as (d & Id & IF & RC & _ & IX); [apply in_concat; exists [(pr, (n, vs))]; split; [eapply nth_error_In; eauto|left; auto]|].
  exists d. cbn [fst snd] in *. split; auto. split; auto. split; auto. destruct IX as [-> | (FD & NL & x & y & X & Y & IXE)]; [left; auto|]. right.
  pose proof (covers_name _ _ _ _ CV FD) as ->. split; auto. exists pr, x, y. split; auto. split; auto. split; auto. split; auto. rewrite IXE.
  eapply covers_days; eauto; [apply hd_in; auto|]. apply in_rev. apply hd_in. auto.
Qed.
Lemma c37_stamps e w p w' dfs i m s f a b : real_stamps e -> real_dates w -> get_data_all e w p = (w', Ok dfs) ->
  py_len (dgetN n_headers_coord p) = Ok m -> (i < m)%nat -> series_sp p i = Ok s -> single_frequency s -> sp_freq s = T f ->
  (exists en, sp_ends s = Some en /\ holds s w (sp_starts s + sp_ta s) (VDate a) /\ holds s w (en + sp_ta s) (VDate b)) ->
  timestamp a /\ timestamp b.
Proof.
  intros RS R H PL Hi SS SF FR HO. apply frame_of_piece in H; auto. destruct H as (cs & PL' & CS & F). rewrite PL in PL'. injection PL' as ->.
  destruct (nth_error cs i) as [ps|] eqn:N; [|apply nth_error_None in N; lia]. destruct (CS i ps N) as (s' & SS' & C). rewrite SS in SS'. injection SS' as <-.
  assert (Ra : real_date a /\ real_date b). { destruct HO as (en & _ & (r & c & _ & A) & (r' & c' & _ & A')). split; eapply R; eauto. }
  destruct Ra as [Ra Rb]. destruct (single_piece _ _ _ _ f a b SF FR C Ra Rb HO) as (pr & n' & vs' & _ & _ & _ & B). auto.
Qed.
Lemma c34_mismatch e w p i m s f a b n vs r : real_stamps e -> real_dates w ->
  py_len (dgetN n_headers_coord p) = Ok m -> (i < m)%nat -> series_sp p i = Ok s -> single_frequency s -> sp_freq s = T f ->
  (exists en, sp_ends s = Some en /\ holds s w (sp_starts s + sp_ta s) (VDate a) /\ holds s w (en + sp_ta s) (VDate b)) ->
  get_data e w s = Ok [(n, vs)] ->
  covers f a b r -> List.length vs <> List.length (pr_dates r) ->
  (f = "D"%string -> forall x y k, hd_error (pr_dates r) = Some x -> hd_error (rev (pr_dates r)) = Some y -> covers_working x y k -> List.length vs <> List.length (pr_dates k)) ->
  raises (snd (get_data_all e w p)).
Proof.
  intros RS R PL Hi SS SF FR HO GD CV NE ND. destruct (get_data_all e w p) as [w' [dfs|x]] eqn:G; [|exists x; auto]. exfalso.
  destruct (c37_index e w p w' dfs i m s f a b n vs) as (d & _ & IF & RC & [C|(-> & r' & x & y & C & _ & X & Y & W)]); auto; apply in_frame_length in IF; auto.
  - rewrite (covers_one _ _ _ _ _ CV C) in NE. auto.
  - rewrite <- (covers_one _ _ _ _ _ CV C) in X, Y. eapply ND; eauto.
Qed.

(** ** C36: what a series contributes *)
Lemma c36_one e w s ps : single_frequency s -> contributes e w s ps -> exists pc, ps = [pc].
Proof.
  intros SF (w' & t & line & en & prs & nvs & SC & GD & IC & CL & EN & NE & SP & ->).
  unfold series_prs in SP. unfold single_frequency in SF. unfold accepts_freq in SP. rewrite SF in SP. cbn [Nat.ltb Nat.leb Nat.eqb] in SP.
  unfold single_prs in SP. apply bind_ok in SP. destruct SP as (va & _ & SP). apply bind_ok in SP. destruct SP as (vb & _ & SP). apply bind_ok in SP. destruct SP as (r & _ & SP). injection SP as <-.
  destruct nvs as [|nv nvs]; [congruence|]. exists (r, nv). cbn. destruct nvs; auto.
Qed.
Lemma range_freq s en t r : date_range s en t = Ok r -> exists f nm, t = T f /\ pandas_name f nm /\ pr_freq r = T nm.
Proof.
  unfold date_range. cbn zeta.
  destruct (text_eqb t (T "D")) eqn:E; [apply text_eqb_eq in E; intros H; injection H as <-; do 2 eexists; split; [exact E|]; split; [constructor|reflexivity]|]. clear E.
  destruct (text_eqb t (T "W")) eqn:E; [apply text_eqb_eq in E; intros H; injection H as <-; do 2 eexists; split; [exact E|]; split; [constructor|reflexivity]|]. clear E.
  destruct (text_eqb t (T "M")) eqn:E; [apply text_eqb_eq in E; intros H; injection H as <-; do 2 eexists; split; [exact E|]; split; [constructor|reflexivity]|]. clear E.
  destruct (text_eqb t (T "Q")) eqn:E; [apply text_eqb_eq in E; intros H; injection H as <-; do 2 eexists; split; [exact E|]; split; [constructor|reflexivity]|]. clear E.
  destruct (text_eqb t (T "S")) eqn:E; [apply text_eqb_eq in E; intros H; injection H as <-; do 2 eexists; split; [exact E|]; split; [constructor|reflexivity]|]. clear E.
  destruct (text_eqb t (T "A")) eqn:E; [apply text_eqb_eq in E; intros H; injection H as <-; do 2 eexists; split; [exact E|]; split; [constructor|reflexivity]|]. discriminate.
Qed.
Lemma range_of_freq e a b t r : range_of e a b t = Ok r -> exists f nm, t = T f /\ pandas_name f nm /\ pr_freq r = T nm.
Proof. unfold range_of. intros H. apply bind_ok in H. destruct H as (x & _ & H). apply bind_ok in H. destruct H as (y & _ & H). eapply range_freq; eauto. Qed.
Lemma ch_in_In c l : ch_in c l = true <-> In c l.
Proof. unfold ch_in. rewrite existsb_exists. split; [intros (x & I & E); apply Ascii.eqb_eq in E; subst; auto|intros I; exists c; split; auto; apply Ascii.eqb_eq; auto]. Qed.
Lemma uniq_letters fr : forall b a cs, fr = a ++ b -> letters_of fr (List.length a) cs -> letters_of fr (List.length fr) (cs ++ uniq cs b).
Proof.
  induction b as [|c b IH]; intros a cs E L; cbn [uniq].
  - rewrite !app_nil_r in *. subst. auto.
  - assert (K : cycle_letter fr (List.length a) = Some c).
    { unfold cycle_letter. rewrite Nat.mod_small; [|rewrite E, app_length; cbn; lia]. rewrite E, nth_error_app2, Nat.sub_diag; auto. }
    destruct (ch_in c cs) eqn:I.
    + apply (IH (a ++ [c])); [rewrite <- app_assoc; auto|]. rewrite app_length. cbn. rewrite Nat.add_1_r. apply lo_old with c; auto. apply ch_in_In; auto.
    + specialize (IH (a ++ [c]) (cs ++ [c])). rewrite <- app_assoc in IH. cbn in IH. rewrite <- !app_assoc in IH. apply IH; auto. rewrite app_length. cbn. rewrite Nat.add_1_r. apply lo_new; auto.
      intros C. apply ch_in_In in C. congruence.
Qed.
Lemma distinct_letters fr : letters_of fr (List.length fr) (uniq [] fr).
Proof. apply (uniq_letters fr fr [] []); auto. constructor. Qed.
Lemma nth_combine {A B} (l : list A) (l' : list B) : forall k x, nth_error (combine l l') k = Some x -> nth_error l k = Some (fst x) /\ nth_error l' k = Some (snd x).
Proof.
  revert l'. induction l as [|a l IH]; intros [|b l'] [|k] x H; cbn in *; try discriminate; [injection H as <-; auto|]. apply IH; auto.
Qed.
Lemma c36_letters e w s ps : contributes e w s ps ->
  exists cs, letters_of (sp_freq s) (List.length (sp_freq s)) cs /\
  forall k pc, nth_error ps k = Some pc -> exists f nm, nth_error cs k = Some f /\ pandas_name (String f "") nm /\ pr_freq (fst pc) = T nm.
Proof.
  intros (w' & t & line & en & prs & nvs & SC & GD & IC & CL & EN & NE & SP & ->). exists (uniq [] (sp_freq s)). split; [apply distinct_letters|].
  assert (H : forall k pr, nth_error prs k = Some pr -> exists c, nth_error (uniq [] (sp_freq s)) k = Some c /\ exists f nm, [c] = T f /\ pandas_name f nm /\ pr_freq pr = T nm).
  { unfold series_prs in SP. destruct (accepts_freq true (sp_freq s)).
    - unfold multi_prs in SP. cbn zeta in SP. apply bind_ok in SP. destruct SP as (sc & _ & SP). apply bind_ok in SP. destruct SP as (endm & _ & SP). apply mapM_forall2 in SP.
      intros k pr K. revert k K. induction SP as [|c r l l' X Y IH]; intros [|k] K; try discriminate; cbn in *; [|apply IH; auto]. injection K as <-. exists c. split; auto. eapply range_of_freq; eauto.
    - destruct (accepts_freq false (sp_freq s)) eqn:A; [|discriminate]. unfold single_prs in SP. apply bind_ok in SP. destruct SP as (x & _ & SP). apply bind_ok in SP. destruct SP as (y & _ & SP).
      apply bind_ok in SP. destruct SP as (r & RR & SP). injection SP as <-. intros [|k] pr K; [|destruct k; discriminate]. injection K as <-.
      unfold accepts_freq in A. destruct (sp_freq s) as [|c [|c' l]]; try discriminate. exists c. split; auto. eapply range_of_freq; eauto. }
  intros k pc K. apply nth_combine in K. destruct K as [K _]. destruct (H _ _ K) as (c & C & f & nm & E & P & F). exists c, nm. split; auto. split; auto.
  replace (String c "") with f; auto. apply T_inj. rewrite <- E. auto.
Qed.
Lemma c36_same_name e w s ps : contributes e w s ps -> exists n, forall pc, In pc ps -> fst (snd pc) = n.
Proof.
  intros (w' & t & line & en & prs & nvs & SC & GD & IC & CL & EN & NE & SP & ->). unfold get_data in GD. apply bind_ok in GD. destruct GD as (n & _ & GD). apply bind_ok in GD. destruct GD as (vls & _ & GD). injection GD as <-.
  exists n. intros [pr [m vs]] I. apply in_combine_r in I. apply in_map_iff in I. destruct I as (x & E & _). injection E as <- _. auto.
Qed.
