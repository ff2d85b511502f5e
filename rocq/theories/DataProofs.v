(** Proofs about the values of the series (C30 - C33, C53). *)
From Verif Require Import Base BaseFacts Cal Coord CoordFacts CoordProofs Params ParseTime TimeIndex GetData SpecCal CalFacts CalProofs
  SpecCoord SpecCoordFacts TimeFacts SpecTime TimeProofs TimeProofs2 SpecData NumberFacts DataFacts.
From Coq Require Import Sorted.
Local Open Scope Z_scope.

(** ** what get_values collects *)
Lemma values_collected e w p r : marker_list p -> get_values e w p = Ok r ->
  exists en line vs, sp_ends p = Some en /\ coord_line (sp_al p) (sp_hc p) = Ok line /\
    collect w p line (zrange (sp_starts p) en) = Ok vs /\ values_read p w vs.
Proof.
  intros LS H. unfold get_values in H. destruct (sp_ends p) as [en|] eqn:EN; [|discriminate].
  apply bind_ok in H. destruct H as (line & L & H). apply bind_ok in H. destruct H as (vs & C & _).
  exists en, line, vs. split; [auto|]. split; [auto|]. split; [auto|]. destruct (sp_cont p) eqn:CT.
  - apply (collect_cont p w line LS CT L _ _ _ _ eq_refl) in C. destruct C as (_ & l & C1 & C2).
    apply (vr_continuous p w l); auto. exists en. auto.
  - destruct (Z_le_gt_dec (sp_starts p) en) as [G|G].
    + assert (TL : exists tl, time_line (sp_al p) (sp_multi p) (sp_th p) = Ok tl).
      { rewrite zrange_cons in C by auto. cbn [collect] in C. apply bind_ok in C. destruct C as (v & _ & C). apply bind_ok in C. destruct C as (nv & _ & C).
        apply bind_ok in C. destruct C as (add & C & _). unfold to_be_added in C. rewrite CT in C. apply bind_ok in C. destruct C as (tl & C & _). eauto. }
      destruct TL as [tl TL]. apply (collect_loose p w line tl LS CT L TL _ _ _ _ eq_refl) in C. destruct C as (_ & l & C1 & C2).
      apply (vr_loose p w en l); auto.
    + rewrite zrange_nil in C by lia. injection C as <-. apply (vr_loose p w en []); auto; constructor; lia.
Qed.
Lemma read_in_sheet al t w line q : coord_line al t = Ok line -> in_sheet al q -> exists v, axis_read al w line q = Ok v.
Proof.
  intros L [Q1 Q2]. unfold coord_line in L. apply bind_ok in L. destruct L as ([r c] & P & L). injection L as <-. apply parse_range in P.
  unfold axis_read, read, cell_ok, max_column. destruct al; cbn [axis_row axis_col fst snd].
  - replace ((1 <=? q) && (1 <=? c) && (c <=? 18278)) with true by lia. eauto.
  - specialize (Q2 eq_refl). replace ((1 <=? r) && (1 <=? q) && (q <=? 18278)) with true by lia. eauto.
Qed.
Lemma line_named al t r c : cell_named t r c -> exists l, coord_line al t = Ok l.
Proof. intros H. apply cell_named_iff in H. unfold coord_line. rewrite H. cbn. eauto. Qed.
Lemma values_collects w p vs : marker_list p -> series_in_sheet p -> (sp_cont p = false -> index_in_sheet p) -> values_read p w vs ->
  exists en line, sp_ends p = Some en /\ coord_line (sp_al p) (sp_hc p) = Ok line /\ collect w p line (zrange (sp_starts p) en) = Ok vs.
Proof.
  intros LS [(r & c & HC) IN] IX [cells vs' CT (en & EN & OC) CV|en pairs vs' CT EN DC LV].
  - destruct (line_named (sp_al p) _ _ _ HC) as [line L]. exists en, line. split; [auto|]. split; [auto|].
    apply (collect_cont p w line LS CT L _ _ _ _ eq_refl). split; [|eauto].
    intros q Q. eapply read_in_sheet; eauto.
  - destruct (line_named (sp_al p) _ _ _ HC) as [line L]. exists en, line. split; [auto|]. split; [auto|].
    destruct (IX CT) as [(t & r' & c' & TH & CN) IT]. destruct (line_named (sp_al p) _ _ _ CN) as [tl TL].
    assert (TL' : time_line (sp_al p) (sp_multi p) (sp_th p) = Ok tl).
    { unfold time_line. destruct TH as [[-> ->]|(ts & -> & ->)]; auto. }
    apply (collect_loose p w line tl LS CT L TL' _ _ _ _ eq_refl). split; [|eauto].
    intros q Q. split; eapply read_in_sheet; eauto.
Qed.
Lemma implicit_flag p : marker_list p -> exists b, (if sp_missings p then py_in (str_ "Implicit") (sp_mv p) else Ok false) = Ok b /\
  (b = true <-> sp_missings p = true /\ exists ms, sp_mv p = VList ms /\ In (VStr (T "Implicit")) ms).
Proof.
  intros LS. destruct (sp_missings p) eqn:M.
  - destruct (LS M) as [ms E]. rewrite E. cbn [py_in]. eexists. split; [reflexivity|]. split.
    + intros H. split; auto. exists ms. split; auto. apply existsb_exists in H. destruct H as (m & I & Q). destruct m; try discriminate Q.
      apply text_eqb_eq in Q. subst. auto.
    + intros (_ & ms' & Q & I). injection Q as <-. apply existsb_exists. eexists. split; [exact I|]. reflexivity.
  - exists false. split; [reflexivity|]. split; [discriminate|]. intros [Q _]. discriminate.
Qed.
Lemma not_implicit_list p : not_implicit p -> marker_list p.
Proof. intros H M. destruct (H M) as (ms & E & _). eauto. Qed.

(** ** C32, C33 *)
Lemma single_values e w p : single_frequency p -> not_implicit p ->
  forall r, get_values e w p = Ok r <-> exists en line vs, sp_ends p = Some en /\ coord_line (sp_al p) (sp_hc p) = Ok line /\
    collect w p line (zrange (sp_starts p) en) = Ok vs /\ r = match vs with [] => [] | _ => [vs] end.
Proof.
  intros SF NI r. unfold get_values. rewrite SF. cbn [Nat.eqb].
  destruct (implicit_flag p (not_implicit_list p NI)) as (b & -> & B).
  assert (b = false) as ->.
  { destruct b; auto. exfalso. destruct (proj1 B eq_refl) as (M & ms & E & I). destruct (NI M) as (ms' & E' & NI'). congruence. }
  destruct (sp_ends p) as [en|].
  2: { split; [discriminate|]. intros (en & ? & ? & Q & _). discriminate. }
  split.
  - intros H. apply bind_ok in H. destruct H as (line & L & H). apply bind_ok in H. destruct H as (vs & C & H). cbn in H. injection H as <-. eauto 10.
  - intros (en' & line & vs & E & L & C & ->). injection E as <-. rewrite L. cbn [bind]. rewrite C. reflexivity.
Qed.
Lemma c32_values e w p r : single_frequency p -> not_implicit p -> get_data e w p = Ok r ->
  exists vs, values_read p w vs /\ (vs = [] /\ r = [] \/ exists name, r = [(name, vs)]).
Proof.
  intros SF NI H. unfold get_data in H. apply bind_ok in H. destruct H as (name & N & H). apply bind_ok in H. destruct H as (vls & G & H). injection H as <-.
  destruct (values_collected e w p vls (not_implicit_list p NI) G) as (en & line & vs & E & L & C & V).
  exists vs. split; auto. apply (single_values e w p SF NI) in G. destruct G as (en' & line' & vs' & E' & L' & C' & ->).
  assert (en' = en) by congruence. subst en'. assert (line' = line) by congruence. subst line'. assert (vs' = vs) by congruence. subst vs'.
  destruct vs; [left; split; reflexivity|right; exists name; reflexivity].
Qed.
Lemma given_iff v : not_given v <-> truthy v = false.
Proof.
  split; [intros []; reflexivity|]. destruct v as [|b|z|f|t| |l|d|]; cbn; intros H; try discriminate; try constructor.
  - subst. constructor.
  - assert (z = 0) by lia. subst. constructor.
  - destruct f; try discriminate. constructor.
  - destruct t; [constructor|discriminate].
  - destruct l; [constructor|discriminate].
  - destruct d; [constructor|discriminate].
Qed.
Lemma entries_of {B} v (f : list pyval -> res B) (z : B) r : (forall x, f [] = Ok x -> x = z) -> f [] = Ok z ->
  (if truthy v then match v with VList l => f l | _ => Err EAssert end else Ok z) = Ok r <-> exists l, entries v l /\ f l = Ok r.
Proof.
  intros U F. destruct (truthy v) eqn:TV.
  - split.
    + destruct v; try discriminate. intros H. exists l. split; [constructor; auto|auto].
    + intros (l & [l' ->|N] & H); auto. apply given_iff in N. congruence.
  - split.
    + intros [= <-]. exists []. split; [apply en_none, given_iff; auto|auto].
    + intros (l & [l' ->|N] & H); [destruct l'; [|discriminate]|]; rewrite (U _ H); auto.
Qed.
Lemma joined_iff sep l u : l <> [] -> joined sep l u <-> u = join (T sep) l.
Proof.
  revert u. induction l as [|t l IH]; intros u N; [congruence|]. destruct l as [|t' l].
  - split; [|intros ->; constructor]. intros H. inversion H as [|? ? ? H']; auto. inversion H'.
  - change (join (T sep) (t :: t' :: l)) with (t ++ T sep ++ join (T sep) (t' :: l)). split.
    + intros H. inversion H as [|? ? v H']; subst. apply IH in H'; [|discriminate]. subst. auto.
    + intros ->. constructor. apply IH; [discriminate|auto].
Qed.
Lemma snoc_not_nil {B} (l : list B) x : l ++ [x] <> [].
Proof. destruct l; discriminate. Qed.
Lemma mapM_iff {A B} (f : A -> res B) (P : A -> B -> Prop) : (forall x y, f x = Ok y <-> P x y) -> forall l r, mapM f l = Ok r <-> Forall2 P l r.
Proof.
  intros H. induction l as [|x l IH]; intros r; cbn [mapM].
  - split; [intros [= <-]; constructor|]. intros F. inversion F. auto.
  - split.
    + intros G. apply bind_ok in G as (y & Y & G). apply bind_ok in G as (ys & YS & G). injection G as <-. constructor; [apply H; auto|apply IH; auto].
    + intros F. inversion F as [|? y ? ys Y YS]; subst. apply H in Y. apply IH in YS. rewrite Y. cbn [bind]. rewrite YS. auto.
Qed.
Lemma strip_text u t : stripped (VStr u) (VStr t) <-> t = strip u.
Proof. rewrite stripped_iff. cbn. split; congruence. Qed.
Lemma written_iff e v t : written_as e v t <-> py_str e v = Ok t.
Proof. split; [intros []; reflexivity|]. destruct v as [|[]| | | | | | |]; cbn; intros [= <-]; constructor. Qed.
Lemma coord_iff w t v : read_coord w t = Ok v <-> exists r c, cell_named t r c /\ cell w r c = v.
Proof.
  unfold read_coord. split.
  - intros H. apply bind_ok in H as ([r c] & P & H). apply cell_named_iff in P. exists r, c. split; auto. cbn [fst snd] in H. unfold read in H. destruct (cell_ok r c); congruence.
  - intros (r & c & N & V). pose proof N as N'. apply cell_named_iff in N. rewrite N. cbn [bind fst snd]. apply parse_range in N. unfold read, cell_ok, max_column.
    replace ((1 <=? r) && (1 <=? c) && (c <=? 18278)) with true by lia. rewrite V. auto.
Qed.
Lemma name_iff e w p n : get_name e w p = Ok n <-> series_name e w p n.
Proof.
  unfold get_name. destruct (truthy (sp_name p)) eqn:TN.
  - split.
    + intros H. destruct (sp_name p) eqn:E; try discriminate. injection H as ->. apply sn_given; auto. intros ->. discriminate.
    + intros [m E N|cs ks ps qs t h m NG _ _ _ _ _ _ _]; [rewrite E; auto|]. apply given_iff in NG. congruence.
  - assert (NG : not_given (sp_name p)) by (apply given_iff; auto).
    pose proof (fun t => entries_of (sp_comp p) (fun cs => do parts <- mapM (fun c => do ct <- as_text c; do cv <- read_coord w ct; do s <- as_text cv; Ok (strip s)) cs; Ok (join (T " ") (parts ++ [t]))) t) as EC.
    pose proof (fun h => entries_of (sp_ctx p) (fun cs => do parts <- mapM (fun c => do s <- as_text c; Ok (strip s)) cs; Ok (join (T " - ") (parts ++ [h]))) h) as EX.
    assert (PM : forall l r, mapM (fun c => do ct <- as_text c; do cv <- read_coord w ct; do s <- as_text cv; Ok (strip s)) l = Ok r <-> Forall2 (parent_text w) l r).
    { apply mapM_iff. intros x y. split.
      - intros H. apply bind_ok in H as (k & K & H). apply bind_ok in H as (v & V & H). apply bind_ok in H as (u & U & H). injection H as <-.
        destruct x; try discriminate. injection K as ->. destruct v; try discriminate. injection U as ->. apply coord_iff in V as (r & c & N & V). exists k, r, c, u.
        split; auto. split; auto. split; auto. apply strip_text. auto.
      - intros (k & r & c & u & -> & N & V & S). cbn [as_text bind]. rewrite (proj2 (coord_iff w k (VStr u))) by eauto. cbn. f_equal. symmetry. apply strip_text. auto. }
    assert (CM : forall l r, mapM (fun c => do s <- as_text c; Ok (strip s)) l = Ok r <-> Forall2 context_text l r).
    { apply mapM_iff. intros x y. split.
      - intros H. apply bind_ok in H as (u & U & H). injection H as <-. destruct x; try discriminate. injection U as ->. exists u. split; auto. apply strip_text. auto.
      - intros (u & -> & S). cbn. f_equal. symmetry. apply strip_text. auto. }
    split.
    + intros H. apply bind_ok in H as (v & V & H). apply bind_ok in H as (t & TV & H). cbv zeta in H. apply bind_ok in H as (h & HC & H).
      apply EC in HC; [|cbn; congruence|reflexivity]. apply EX in H; [|cbn; congruence|reflexivity].
      destruct HC as (cs & CS & HC). destruct H as (ks & KS & H). apply bind_ok in HC as (ps & PS & HC). injection HC as <-. apply bind_ok in H as (qs & QS & H). injection H as <-.
      apply PM in PS. apply CM in QS. apply coord_iff in V as (r & c & N & V). subst v.
      apply (sn_headers e w p cs ks ps qs (strip t) (join (T " ") (ps ++ [strip t]))); auto.
      * exists r, c, t. split; auto. split; [apply written_iff; auto|apply strip_text; auto].
      * apply joined_iff; auto using snoc_not_nil.
      * apply joined_iff; auto using snoc_not_nil.
    + intros [m E N|cs ks ps qs t h m _ HT CS PS JH KS QS JN]; [rewrite E in TN; destruct m; [congruence|discriminate]|].
      destruct HT as (r & c & u & N & WA & S). apply written_iff in WA. apply strip_text in S. subst t.
      apply joined_iff in JH; [|apply snoc_not_nil]. apply joined_iff in JN; [|apply snoc_not_nil]. apply PM in PS. apply CM in QS.
      rewrite (proj2 (coord_iff w (sp_hc p) (cell w r c))) by eauto. cbn [bind]. rewrite WA. cbn [bind]. cbv zeta.
      rewrite (proj2 (EC (strip u) h ltac:(cbn; congruence) eq_refl)).
      * cbn [bind]. apply (EX h); [cbn; congruence|reflexivity|]. exists ks. split; auto. rewrite QS. cbn [bind]. congruence.
      * exists cs. split; auto. rewrite PS. cbn [bind]. congruence.
Qed.
Lemma named_name e w p n : series_name e w p n -> get_name e w p = Ok n.
Proof. apply name_iff. Qed.
Lemma c54_name e w p r n vs : get_data e w p = Ok r -> In (n, vs) r -> series_name e w p n.
Proof.
  intros H I. unfold get_data in H. apply bind_ok in H as (name & N & H). apply bind_ok in H as (vls & G & H). injection H as <-.
  apply in_map_iff in I as (v & E & _). injection E as <- <-. apply name_iff. auto.
Qed.
Lemma c32_accepts e w p vs n : single_frequency p -> not_implicit p -> series_name e w p n -> series_in_sheet p ->
  (sp_cont p = false -> index_in_sheet p) -> values_read p w vs -> vs <> [] -> get_data e w p = Ok [(n, vs)].
Proof.
  intros SF NI NM IS IX V NE. unfold get_data. rewrite (named_name e w p n NM). cbn [bind].
  destruct (values_collects w p vs (not_implicit_list p NI) IS IX V) as (en & line & E & L & C).
  assert (G : get_values e w p = Ok [vs]).
  { apply (single_values e w p SF NI). exists en, line, vs. split; [auto|]. split; [auto|]. split; [auto|]. destruct vs; congruence. }
  rewrite G. reflexivity.
Qed.
Lemma cells_fun p w en : forall a l, cells_from p w en a l -> forall l', cells_from p w en a l' -> l = l'.
Proof.
  induction 1 as [a E|a v l L V C IH]; intros l' H'; inversion H' as [|a' v' l'' L' V' C']; subst; try lia; auto.
  f_equal; auto. destruct V as (r1 & c1 & S1 & E1), V' as (r2 & c2 & S2 & E2).
  assert (r1 = r2 /\ c1 = c2) as [-> ->]; [|congruence].
  destruct S1 as [r c A N|r c A N]; inversion S2 as [r' c' A' N'|r' c' A' N']; subst; try congruence;
    apply cell_named_iff in N, N'; rewrite N in N'; injection N' as <- <-; auto.
Qed.
Lemma continuous_in p l vs : continuous_values p l vs -> forall v, In v l ->
  v = VNone /\ sp_blank p = true \/ (exists v', sp_missings p = true /\ stripped v v' /\ marker p v') \/ exists f, cell_number v f.
Proof.
  induction 1 as [|l vs B C IH|v v' l vs NB M ST MK C IH|v v' f l vs NB ST NM F C IH]; intros u I; [destruct I| | |];
    (destruct I as [<-|I]; [|auto]); eauto 6.
Qed.
Lemma c32_raises e w p cells v : sp_cont p = true -> marker_list p -> own_cells p w cells -> In v cells ->
  (v = VNone -> sp_blank p = false) -> (forall v', sp_missings p = true -> stripped v v' -> ~ marker p v') -> (forall f, ~ cell_number v f) ->
  exists ex, get_data e w p = Err ex.
Proof.
  intros CT LS OC I NB NM NF. unfold get_data. destruct (get_name e w p) as [n|ex]; [|cbn; eauto]. cbn [bind].
  destruct (get_values e w p) as [r|ex] eqn:G; [|cbn; eauto]. exfalso.
  destruct (values_collected e w p r LS G) as (en & line & vs & E & L & C & V).
  destruct V as [cells' vs CT' OC' CV|]; [|congruence].
  assert (cells' = cells) as -> by (destruct OC as (? & E1 & OC), OC' as (? & E2 & OC'); assert (x = x0) by congruence; subst; eapply cells_fun; eauto).
  destruct (continuous_in _ _ _ CV v I) as [[-> B]|[(v' & M & ST & MK)|[f F]]].
  - rewrite NB in B by auto. discriminate.
  - eapply NM; eauto.
  - eapply NF; eauto.
Qed.

Lemma handle_total p w line tl : marker_list p -> sp_cont p = false -> time_line (sp_al p) (sp_multi p) (sp_th p) = Ok tl ->
  forall l, (forall q, In q l -> (exists v, axis_read (sp_al p) w line q = Ok v) /\ exists v, axis_read (sp_al p) w tl (q + sp_ta p) = Ok v) ->
  exists vs, collect w p line l = Ok vs.
Proof.
  intros LS CT TL. induction l as [|q l IH]; intros H; cbn [collect]; [eauto|].
  destruct (H q) as [[v V] [t TT]]; [left; auto|]. rewrite V, CT. cbn [bind].
  destruct (handle_non_cont p v LS) as (x & HN & _). rewrite HN. cbn [bind]. unfold to_be_added. rewrite CT, TL. cbn [bind]. rewrite TT. cbn [bind].
  destruct IH as [vs E]; [intros; apply H; right; auto|]. rewrite E. cbn [bind]. destruct x; [|eauto]. cbn [andb]. destruct (is_date t); eauto.
Qed.
Lemma c33_total e w p n en : sp_cont p = false -> single_frequency p -> not_implicit p -> series_name e w p n -> sp_ends p = Some en ->
  series_in_sheet p -> index_in_sheet p -> exists r, get_data e w p = Ok r.
Proof.
  intros CT SF NI NM EN [(r & c & HC) IN] [(t & r' & c' & TH & CN) IT].
  destruct (line_named (sp_al p) _ _ _ HC) as [line L]. destruct (line_named (sp_al p) _ _ _ CN) as [tl TL].
  assert (TL' : time_line (sp_al p) (sp_multi p) (sp_th p) = Ok tl).
  { unfold time_line. destruct TH as [[-> ->]|(ts & -> & ->)]; auto. }
  destruct (handle_total p w line tl (not_implicit_list p NI) CT TL' (zrange (sp_starts p) en)) as [vs C].
  { intros q I. apply zrange_In in I. split; eapply read_in_sheet; eauto. }
  unfold get_data. rewrite (named_name e w p n NM). cbn [bind].
  assert (G : exists r0, get_values e w p = Ok r0) by (eexists; apply (single_values e w p SF NI); eauto 10).
  destruct G as [r0 ->]. cbn. eauto.
Qed.

(** ** C30 *)
Lemma is_prefix_app a b : is_prefix a (a ++ b) = true.
Proof. induction a as [|c a IH]; cbn; auto. rewrite IH, (proj2 (ch_eqb_eq c c)); auto. Qed.
Lemma after_prefix n t : (n <= List.length t)%nat -> after_first (firstn n t) t = skipn n t.
Proof.
  intros L. rewrite <- (firstn_skipn n t) at 2. destruct (firstn n t ++ skipn n t) eqn:E; cbn [after_first]; rewrite <- E, is_prefix_app, skipn_app, skipn_all, Nat.sub_diag; reflexivity.
Qed.
Definition seen (fr : text) (n : nat) : text := match n with O => [] | S m => firstn (S (m mod List.length fr)) fr end.
Lemma nth_head {A} (l : list A) k : nth_error l k = match skipn k l with c :: _ => Some c | [] => None end.
Proof. revert l. induction k; destruct l; cbn; auto. Qed.
Lemma firstn_next {A} (l : list A) k c : nth_error l k = Some c -> firstn k l ++ [c] = firstn (S k) l.
Proof.
  revert l. induction k; destruct l as [|x l]; intros E; try discriminate.
  - injection E as <-. reflexivity.
  - cbn [firstn app nth_error] in *. rewrite (IHk l E). reflexivity.
Qed.
Lemma next_cycle fr n : fr <> [] -> exists c, cycle_letter fr n = Some c /\ next_frequency fr (seen fr n) = Ok (c, seen fr (S n)).
Proof.
  intros NE. assert (N0 : List.length fr <> 0%nat) by (destruct fr; cbn; congruence). set (N := List.length fr) in *.
  assert (X : forall k, exists c, cycle_letter fr k = Some c).
  { intros k. unfold cycle_letter. destruct (nth_error fr (k mod List.length fr)) eqn:E; eauto.
    apply nth_error_None in E. pose proof (Nat.mod_upper_bound k _ N0). lia. }
  destruct (X n) as [c C]. exists c. split; auto. unfold next_frequency.
  assert (HD : (n mod N = 0)%nat -> Ok (c, seen fr (S n)) = match fr with x :: _ => Ok (x, [x]) | [] => Err EIndex end).
  { intros Z0. unfold cycle_letter in C. fold N in C. unfold seen. fold N. rewrite Z0 in *. destruct fr; [congruence|]. injection C as <-. reflexivity. }
  destruct n as [|m].
  - change (seen fr 0) with (@nil ascii). cbn [List.length Nat.eqb orb]. symmetry. apply HD. apply Nat.mod_0_l. auto.
  - pose proof (Nat.mod_upper_bound m N N0) as UB. change (seen fr (S m)) with (firstn (S (m mod N)) fr). set (k := (m mod N)%nat) in *.
    assert (LL : List.length (firstn (S k) fr) = S k) by (apply firstn_length_le; lia). rewrite LL. cbn [Nat.eqb orb].
    destruct (Nat.eq_dec (S k) N) as [EN|NN].
    + replace (text_eqb (firstn (S k) fr) fr) with true by (symmetry; apply text_eqb_eq; rewrite EN; apply firstn_all).
      symmetry. apply HD. pose proof (Nat.div_mod m N N0). fold k in H. rewrite H.
      replace (S (N * (m / N) + k)) with ((S (m / N)) * N)%nat by (rewrite Nat.mul_succ_l, Nat.mul_comm, <- EN at 1; lia). apply Nat.mod_mul. auto.
    + assert (E : text_eqb (firstn (S k) fr) fr = false).
      { destruct (text_eqb (firstn (S k) fr) fr) eqn:Q; auto. apply text_eqb_eq in Q. apply (f_equal (@List.length _)) in Q. rewrite LL in Q. fold N in Q. congruence. }
      rewrite E. rewrite after_prefix by lia.
      assert (MS : (S m mod N)%nat = S k).
      { symmetry. apply (Nat.mod_unique _ _ (m / N)); [lia|]. pose proof (Nat.div_mod m N N0). fold k in H. lia. }
      unfold cycle_letter in C. fold N in C. rewrite MS in C. pose proof C as C'. rewrite nth_head in C'.
      destruct (skipn (S k) fr) as [|x rest]; [discriminate|]. injection C' as ->. cbn [seen]. fold N. rewrite MS, (firstn_next _ _ _ C). reflexivity.
Qed.
Lemma nodup_snoc {A} (l : list A) x : NoDup l -> ~ In x l -> NoDup (l ++ [x]).
Proof.
  intros D N. apply NoDup_Add with (l := l) (a := x); [|split; auto]. rewrite <- (app_nil_r l) at 1. apply Add_app.
Qed.
Lemma letters_nodup fr n cs : letters_of fr n cs -> NoDup cs.
Proof. induction 1; auto; [constructor|]. apply nodup_snoc; auto. Qed.
Lemma letters_all fr n cs : letters_of fr n cs -> forall k, (k < n)%nat -> exists c, cycle_letter fr k = Some c /\ In c cs.
Proof.
  induction 1 as [|n cs c L IH C I|n cs c L IH C I]; intros k K; [lia| |]; destruct (Nat.eq_dec k n) as [->|NE]; eauto.
  - apply IH. lia.
  - exists c. split; auto. apply in_or_app. right. left. auto.
  - destruct (IH k) as (d & D & ID); [lia|]. exists d. split; auto. apply in_or_app. auto.
Qed.
Lemma values_of_snoc fr c v : forall vs k, values_of fr c k (vs ++ [v]) = values_of fr c k vs ++
  (match cycle_letter fr (k + List.length vs) with Some d => if ascii_dec d c then [v] else [] | None => [] end).
Proof.
  induction vs as [|u vs IH]; intros k.
  - cbn [app values_of List.length]. rewrite Nat.add_0_r. destruct (cycle_letter fr k) as [d|]; auto. 
  - cbn [app values_of List.length]. rewrite (IH (S k)). replace (S k + List.length vs)%nat with (k + S (List.length vs))%nat by lia.
    destruct (cycle_letter fr k) as [d|]; auto. destruct (ascii_dec d c); auto.
Qed.
Lemma values_of_none fr c cs : forall vs k n, (k + List.length vs <= n)%nat -> letters_of fr n cs -> ~ In c cs -> values_of fr c k vs = [].
Proof.
  induction vs as [|v vs IH]; intros k n K L N; auto. cbn [values_of List.length] in *.
  destruct (letters_all _ _ _ L k) as (d & D & I); [lia|]. rewrite D. destruct (ascii_dec d c) as [->|]; [tauto|]. apply (IH (S k) n); auto. lia.
Qed.
Lemma add_group c v (h : ascii -> list spec_float) : forall cs, NoDup cs -> 
  add_to_group c v (map (fun x => (x, h x)) cs) =
  if in_dec ascii_dec c cs then map (fun x => (x, h x ++ if ascii_dec c x then [v] else [])) cs
  else map (fun x => (x, h x)) cs ++ [(c, [v])].
Proof.
  induction cs as [|x cs IH]; intros ND; [reflexivity|]. inversion ND as [|? ? NI ND']; subst. cbn [map add_to_group].
  destruct (ch_eqb c x) eqn:E.
  - apply ch_eqb_eq in E. subst x. destruct (in_dec ascii_dec c (c :: cs)) as [_|N]; [|destruct N; left; auto]. cbn [map].
    destruct (ascii_dec c c) as [_|]; [|congruence]. f_equal. apply map_ext_in. intros y I. destruct (ascii_dec c y) as [->|]; [tauto|]. rewrite app_nil_r. auto.
  - rewrite (IH ND'). assert (c <> x) by (intros ->; rewrite (proj2 (ch_eqb_eq x x)) in E; congruence).
    destruct (in_dec ascii_dec c cs) as [I|I]; destruct (in_dec ascii_dec c (x :: cs)) as [J|J]; cbn [map app]; auto.
    + destruct (ascii_dec c x); [congruence|]. rewrite app_nil_r. auto.
    + destruct J. right. auto.
    + destruct J as [->|J]; tauto.
Qed.
Lemma group_values fr : fr <> [] -> forall vs done cs, letters_of fr (List.length done) cs ->
  exists cs', letters_of fr (List.length (done ++ vs)) cs' /\
  group fr (seen fr (List.length done)) vs (map (fun c => (c, values_of fr c 0 done)) cs) = Ok (map (fun c => (c, values_of fr c 0 (done ++ vs))) cs').
Proof.
  intros NE. induction vs as [|v vs IH]; intros done cs L.
  - rewrite app_nil_r. exists cs. split; auto.
  - destruct (next_cycle fr (List.length done) NE) as (c & C & N). cbn [group]. rewrite N. cbn [bind fst snd].
    assert (LS : List.length (done ++ [v]) = S (List.length done)) by (rewrite app_length; cbn; lia).
    replace (done ++ v :: vs) with ((done ++ [v]) ++ vs) by (rewrite <- app_assoc; auto). rewrite <- LS.
    rewrite add_group by (eapply letters_nodup; eauto).
    destruct (in_dec ascii_dec c cs) as [I|I].
    + destruct (IH (done ++ [v]) cs) as (cs' & L' & G); [rewrite LS; eapply lo_old; eauto|]. exists cs'. split; auto. rewrite <- G. f_equal.
      apply map_ext. intros x. rewrite values_of_snoc. cbn [Nat.add]. rewrite C. auto.
    + destruct (IH (done ++ [v]) (cs ++ [c])) as (cs' & L' & G); [rewrite LS; eapply lo_new; eauto|]. exists cs'. split; auto. rewrite <- G. f_equal.
      rewrite map_app. cbn [map]. f_equal.
      * apply map_ext_in. intros x J. rewrite values_of_snoc. cbn [Nat.add]. rewrite C. destruct (ascii_dec c x) as [->|]; [tauto|]. rewrite app_nil_r. auto.
      * rewrite values_of_snoc. cbn [Nat.add]. rewrite C. destruct (ascii_dec c c); [|congruence]. rewrite (values_of_none fr c cs done 0 (List.length done)); auto.
Qed.
Lemma c30_values e w p : (2 <= List.length (sp_freq p))%nat -> marker_list p ->
  forall en line vs, sp_ends p = Some en -> coord_line (sp_al p) (sp_hc p) = Ok line -> collect w p line (zrange (sp_starts p) en) = Ok vs ->
  exists cs, letters_of (sp_freq p) (List.length vs) cs /\ get_values e w p = Ok (map (fun c => values_of (sp_freq p) c 0 vs) cs).
Proof.
  intros N LS en line vs E L C.
  assert (NE : sp_freq p <> []) by (intros Q; rewrite Q in N; cbn in N; lia).
  destruct (group_values (sp_freq p) NE vs [] []) as (cs & L' & G); [constructor|]. cbn [app List.length map seen] in *.
  exists cs. split; auto. unfold get_values. rewrite E, L. cbn [bind]. rewrite C. cbn [bind].
  replace (Nat.eqb (List.length (sp_freq p)) 1) with false by (symmetry; apply Nat.eqb_neq; lia).
  rewrite G. cbn [bind]. destruct (implicit_flag p LS) as (b & -> & _). cbn [bind]. rewrite andb_false_r, map_map. auto.
Qed.
Lemma c30_cycle e w p r : (2 <= List.length (sp_freq p))%nat -> marker_list p -> get_data e w p = Ok r ->
  exists name vs cs, values_read p w vs /\ letters_of (sp_freq p) (List.length vs) cs /\
    r = map (fun c => (name, values_of (sp_freq p) c 0 vs)) cs.
Proof.
  intros N LS H. unfold get_data in H. apply bind_ok in H. destruct H as (name & NM & H). apply bind_ok in H. destruct H as (vls & G & H). injection H as <-.
  destruct (values_collected e w p vls LS G) as (en & line & vs & E & L & C & V).
  destruct (c30_values e w p N LS en line vs E L C) as (cs & LC & G'). rewrite G' in G. injection G as <-.
  exists name, vs, cs. split; auto. split; auto. rewrite map_map. auto.
Qed.
Lemma c30_accepts e w p n vs : (2 <= List.length (sp_freq p))%nat -> marker_list p -> series_name e w p n -> series_in_sheet p ->
  (sp_cont p = false -> index_in_sheet p) -> values_read p w vs ->
  exists cs, letters_of (sp_freq p) (List.length vs) cs /\ get_data e w p = Ok (map (fun c => (n, values_of (sp_freq p) c 0 vs)) cs).
Proof.
  intros N LS NM IS IX V. destruct (values_collects w p vs LS IS IX V) as (en & line & E & L & C).
  destruct (c30_values e w p N LS en line vs E L C) as (cs & LC & G). exists cs. split; auto.
  unfold get_data. rewrite (named_name e w p n NM). cbn [bind]. rewrite G. cbn [bind]. rewrite map_map. auto.
Qed.

(** ** C31 *)
Section Grid.
Variables (f : string) (g : nat -> datetime) (top : nat).
Hypothesis GR : forall k, (k <= top)%nat -> real_date (g k).
Hypothesis GS : forall k, (k < top)%nat -> one_period f (g k) (g (S k)).
Lemma grid_step k : (k < top)%nat -> increment_time (g k) 1 (T f) = Ok (g (S k)).
Proof. intros K. apply period_step; [apply GR; lia|apply GR; lia|apply GS; auto]. Qed.
Lemma grid_earlier a b : (a < b <= top)%nat -> earlier (g a) (g b).
Proof.
  intros [H1 H2]. induction b as [|b IH]; [lia|]. assert (S1 : earlier (g b) (g (S b))).
  { eapply increment_earlier; [|apply GR; lia|apply grid_step; lia]. lia. }
  destruct (Nat.eq_dec a b) as [->|]; auto. eapply earlier_trans; [apply IH; lia|auto].
Qed.
Lemma hole_grid : forall n a fuel h, (a + n <= top)%nat -> fill_hole fuel (T f) (g a) (g (a + n)) = Ok h ->
  h = (repeat S754_nan n, g (a + n)).
Proof.
  induction n as [|n IH]; intros a fuel h L H.
  - rewrite Nat.add_0_r in *. assert (E : dt_ltb (g a) (g a) = false) by (apply ltb_false; auto).
    destruct fuel; cbn [fill_hole] in H; rewrite E in H; injection H as <-; reflexivity.
  - assert (E : dt_ltb (g a) (g (a + S n)) = true) by (apply ltb_earlier, grid_earlier; lia).
    destruct fuel; cbn [fill_hole] in H; rewrite E in H; [discriminate|]. rewrite grid_step in H by lia. cbn [bind] in H.
    apply bind_ok in H. destruct H as (r & R & H). injection H as <-. replace (a + S n)%nat with (S a + n)%nat in * by lia.
    apply IH in R; [|lia]. subst r. reflexivity.
Qed.
Lemma last_cons {A} (x y : A) l : l <> [] -> List.last (x :: l) y = List.last l y.
Proof. destruct l; [congruence|reflexivity]. Qed.
Lemma fill_grid e : forall ks tvs vals a full, StronglySorted lt ks -> Forall (fun k => (a <= k <= top)%nat) ks -> List.length vals = List.length ks ->
  Forall2 (fun k tv => arrow_any e tv = Ok (g k)) ks tvs ->
  fill_implicit e (T f) (Some (g a)) (combine tvs vals) = Ok full ->
  (ks = [] -> full = []) /\ (ks <> [] -> (a + List.length full = S (List.last ks 0))%nat) /\
  (forall i k v, nth_error ks i = Some k -> nth_error vals i = Some v -> nth_error full (k - a) = Some v) /\
  (forall k, (a <= k < a + List.length full)%nat -> ~ In k ks -> nth_error full (k - a) = Some S754_nan).
Proof.
  induction ks as [|k ks IH]; intros tvs vals a full SS FA LL TM H; inversion TM as [|? tv ? tvs' AT TM']; subst.
  { cbn in H. injection H as <-. split; [auto|]. split; [congruence|]. split; [intros [|]; discriminate|]. cbn. intros; lia. }
  destruct vals as [|v vals]; [discriminate|]. injection LL as LL. inversion SS as [|? ? SS' F]; subst. inversion FA as [|? ? K FA']; subst.
  cbn [combine fill_implicit] in H. rewrite AT in H. cbn [bind] in H. apply bind_ok in H. destruct H as (h & HH & H).
  replace k with (a + (k - a))%nat in HH by lia. apply hole_grid in HH; [|lia]. replace (a + (k - a))%nat with k in HH by lia. subst h. cbn [fst snd] in H.
  apply bind_ok in H. destruct H as (ex' & EX & H). apply bind_ok in H. destruct H as (rest & R & H). injection H as <-.
  set (n := (k - a)%nat) in *.
  assert (LR : List.length (repeat S754_nan n) = n) by apply repeat_length.
  assert (RS : (ks = [] /\ rest = []) \/ (ks <> [] /\ (S k + List.length rest = S (List.last ks 0))%nat /\
    (forall i k' v, nth_error ks i = Some k' -> nth_error vals i = Some v -> nth_error rest (k' - S k) = Some v) /\
    (forall k', (S k <= k' < S k + List.length rest)%nat -> ~ In k' ks -> nth_error rest (k' - S k) = Some S754_nan))).
  { destruct ks as [|k2 ks].
    - left. inversion TM'; subst. cbn in R. injection R as <-. auto.
    - right. assert (KK : (k < k2 <= top)%nat) by (inversion F; inversion FA'; subst; lia).
      rewrite grid_step in EX by lia. injection EX as <-.
      destruct (IH tvs' vals (S k) rest SS') as (_ & R1 & R2 & R3); auto.
      + apply Forall_forall. intros x I. rewrite Forall_forall in F, FA'. specialize (F x I). specialize (FA' x I). lia.
      + split; [congruence|]. split; [apply R1; congruence|]. auto. }
  split; [congruence|]. split; [|split].
  - intros _. rewrite app_length, LR. cbn [List.length]. destruct RS as [[-> ->]|(NE & R1 & _)]; [cbn; lia|]. rewrite last_cons by auto. lia.
  - intros [|i] k' v' N1 N2; cbn [nth_error] in N1, N2.
    + injection N1 as <-. injection N2 as <-. fold n. rewrite nth_error_app2 by lia. rewrite LR, Nat.sub_diag. reflexivity.
    + destruct RS as [[-> _]|(NE & R1 & R2 & _)]; [destruct i; discriminate|].
      assert (k < k')%nat by (rewrite Forall_forall in F; apply F; eapply nth_error_In; eauto).
      rewrite nth_error_app2 by lia. rewrite LR. replace (k' - a - n)%nat with (S (k' - S k)) by lia. cbn [nth_error]. eapply R2; eauto.
  - intros k' L N. rewrite app_length, LR in L. cbn [List.length] in L. destruct (Nat.lt_ge_cases k' k) as [G|G].
    + rewrite nth_error_app1 by lia. apply nth_error_repeat. lia.
    + assert (k' <> k) by (intros ->; apply N; left; auto). rewrite nth_error_app2 by lia. rewrite LR.
      replace (k' - a - n)%nat with (S (k' - S k)) by lia. cbn [nth_error].
      destruct RS as [[_ ->]|(NE & R1 & R2 & R3)]; [cbn in L; lia|]. apply R3; [lia|]. intros I. apply N. right. auto.
Qed.
End Grid.
Lemma continuous_all p l vs : sp_blank p = false -> continuous_values p l vs -> List.length vs = List.length l.
Proof. intros B. induction 1; cbn; congruence. Qed.
Lemma cells_length p w en a l : cells_from p w en a l -> List.length l = Z.to_nat (en + 1 - a).
Proof. induction 1; cbn; lia. Qed.
Lemma dates_read al w tl (g : nat -> datetime) : forall ks a tvs, (forall i k, nth_error ks i = Some k -> axis_val al w tl (a + Z.of_nat i) = VDate (g k)) ->
  mapM (axis_read al w tl) (zrange a (a + Z.of_nat (List.length ks) - 1)) = Ok tvs -> tvs = map (fun k => VDate (g k)) ks.
Proof.
  induction ks as [|k ks IH]; intros a tvs H M.
  - rewrite zrange_nil in M by (cbn; lia). injection M as <-. reflexivity.
  - cbn [List.length] in M. rewrite zrange_cons in M by lia. cbn [mapM] in M. apply bind_ok in M. destruct M as (v & V & M). apply bind_ok in M. destruct M as (vs & VS & M). injection M as <-.
    cbn [map]. f_equal.
    + apply axis_read_val in V. rewrite <- V. specialize (H 0%nat k eq_refl). rewrite Z.add_0_r in H. auto.
    + apply (IH (a + 1)).
      * intros i k' N. replace (a + 1 + Z.of_nat i) with (a + Z.of_nat (S i)) by lia. apply H. auto.
      * rewrite <- VS. f_equal. f_equal. lia.
Qed.
Lemma times_read e al w tl (g : nat -> datetime) : forall ks a tvs, (forall i k, nth_error ks i = Some k -> arrow_any e (axis_val al w tl (a + Z.of_nat i)) = Ok (g k)) ->
  mapM (axis_read al w tl) (zrange a (a + Z.of_nat (List.length ks) - 1)) = Ok tvs -> Forall2 (fun k tv => arrow_any e tv = Ok (g k)) ks tvs.
Proof.
  induction ks as [|k ks IH]; intros a tvs H M.
  - rewrite zrange_nil in M by (cbn; lia). injection M as <-. constructor.
  - cbn [List.length] in M. rewrite zrange_cons in M by lia. cbn [mapM] in M. apply bind_ok in M. destruct M as (v & V & M). apply bind_ok in M. destruct M as (vs & VS & M). injection M as <-.
    constructor.
    + apply axis_read_val in V. rewrite <- V. specialize (H 0%nat k eq_refl). rewrite Z.add_0_r in H. auto.
    + apply (IH (a + 1)).
      * intros i k' N. replace (a + 1 + Z.of_nat i) with (a + Z.of_nat (S i)) by lia. apply H. auto.
      * rewrite <- VS. f_equal. f_equal. lia.
Qed.
Lemma time_arrow e v d : time_in e v d -> arrow_any e v = Ok d.
Proof. intros [d0|v0 d0 N A]; auto. destruct v0; auto. exfalso. exact (N _ eq_refl). Qed.
Lemma c31_placed e w p f ms cells vals g ks r :
  sp_freq p = T f -> periodic f -> sp_missings p = true -> sp_mv p = VList ms -> In (VStr (T "Implicit")) ms ->
  sp_cont p = true -> sp_blank p = false ->
  own_cells p w cells -> continuous_values p cells vals -> vals <> [] ->
  StronglySorted lt ks -> hd_error ks = Some 0%nat -> List.length ks = List.length cells ->
  (forall k, (k <= List.last ks 0)%nat -> real_date (g k)) ->
  (forall k, (k < List.last ks 0)%nat -> one_period f (g k) (g (S k))) ->
  (forall i k, nth_error ks i = Some k -> exists v, holds p w (sp_starts p + Z.of_nat i) v /\ time_in e v (g k)) ->
  get_data e w p = Ok r -> exists name full, r = [(name, full)] /\ placed ks vals full.
Proof.
  intros FQ PF M MV I CT B OC CV NE SS HD LK GR GS HO H.
  assert (SF : single_frequency p) by (eapply periodic_single; eauto).
  assert (LS : marker_list p) by (intros _; eauto).
  unfold get_data in H. apply bind_ok in H. destruct H as (name & NM & H). apply bind_ok in H. destruct H as (vls & G & H). injection H as <-.
  destruct (values_collected e w p vls LS G) as (en & line & vs & E & L & C & V).
  assert (vs = vals) as ->.
  { destruct OC as (en' & E' & OC). assert (en' = en) by congruence. subst en'.
    pose proof (collect_cont p w line LS CT L _ (sp_starts p) en vals eq_refl) as [_ Q]. 
    assert (Q' : collect w p line (zrange (sp_starts p) en) = Ok vals); [|congruence].
    apply Q. split; [|eauto]. apply (collect_cont p w line LS CT L _ (sp_starts p) en vs eq_refl) in C. tauto. }
  unfold get_values in G. rewrite E, L in G. cbn [bind] in G. rewrite C in G. cbn [bind] in G. rewrite SF in G. cbn [Nat.eqb bind] in G.
  destruct (implicit_flag p LS) as (b & BE & BT). rewrite BE in G. cbn [bind] in G. assert (b = true) as -> by (apply BT; eauto). cbn [andb] in G.
  assert (GV : match vals with [] => [] | _ :: _ => [vals] end = [vals]) by (destruct vals; congruence). rewrite GV in G. clear GV.
  apply bind_ok in G. destruct G as (tl & TL & G). apply bind_ok in G. destruct G as (tvs & TV & G). apply bind_ok in G. destruct G as (full & FI & G). injection G as <-.
  exists name, full. split; [reflexivity|].
  destruct OC as (en' & E' & OC). assert (en' = en) by congruence. subst en'. pose proof (cells_length _ _ _ _ _ OC) as LC.
  assert (NC : cells <> []) by (intros ->; inversion CV; congruence).
  assert (EN : en = sp_starts p + Z.of_nat (List.length ks) - 1) by (rewrite LK, LC; destruct cells; [congruence|]; cbn in LC; lia).
  rewrite EN in TV. apply (times_read e _ _ _ g) in TV.
  2: { intros i k N. destruct (HO i k N) as (v & HV & TI). apply (holds_iff _ _ _ _ _ TL) in HV. rewrite HV. apply time_arrow. auto. }
  rewrite FQ in FI.
  destruct ks as [|k0 ks]; [discriminate|]. injection HD as ->.
  assert (LV : List.length vals = List.length (0%nat :: ks)) by (rewrite (continuous_all p cells vals B CV); auto).
  assert (FI' : fill_implicit e (T f) (Some (g 0%nat)) (combine tvs vals) = Ok full).
  { inversion TV; subst. destruct vals; [congruence|]. cbn [combine fill_implicit] in *. match goal with A : arrow_any e _ = _ |- _ => rewrite A in * end. exact FI. }
  assert (TOP : Forall (fun k => (0 <= k <= List.last (0%nat :: ks) 0)%nat) (0%nat :: ks)).
  { clear - SS. apply Forall_forall. intros x I. split; [lia|]. revert x I. generalize 0%nat at 3. induction SS as [|a l SS IH F]; intros d x I; [destruct I|].
    destruct l as [|b l]; [destruct I as [<-|[]]; cbn; lia|]. change (List.last (a :: b :: l) d) with (List.last (b :: l) d).
    destruct I as [<-|I]; [|apply IH; auto]. inversion F; subst. specialize (IH d b (or_introl eq_refl)). lia. }
  destruct (fill_grid f g (List.last (0%nat :: ks) 0%nat) GR GS e _ _ _ _ _ SS TOP LV TV FI') as (_ & P1 & P2 & P3).
  split; [specialize (P1 ltac:(congruence)); lia|]. split.
  - intros i k v N1 N2. specialize (P2 i k v N1 N2). rewrite Nat.sub_0_r in P2. auto.
  - intros k K N. specialize (P3 k ltac:(lia) N). rewrite Nat.sub_0_r in P3. auto.
Qed.
Lemma period_ord f a b : real_date a -> real_date b -> one_period f a b -> dt_s b = dt_s a /\ dt_ord a < dt_ord b.
Proof.
  intros RA RB H. assert (S : dt_s b = dt_s a).
  { destruct H as [k P H|k P H]; [|apply H]. apply days_after_ord in H; [|apply real_day_ok; auto]. tauto. }
  split; auto. pose proof (period_step f a b RA RB H) as I. apply increment_earlier in I; [|lia|auto]. apply earlier_secs in I; auto. unfold dt_secs in I. lia.
Qed.
Section Filled.
Variables (f : string) (g : nat -> datetime) (top : nat).
Hypothesis FS : T f <> T "S".
Hypothesis GR : forall k, (k <= S top)%nat -> real_date (g k).
Hypothesis GS : forall k, (k <= top)%nat -> one_period f (g k) (g (S k)).
Lemma grid_ord : forall n a, (a + n <= S top)%nat -> dt_ord (g a) + Z.of_nat n <= dt_ord (g (a + n)%nat).
Proof.
  induction n as [|n IH]; intros a L; [rewrite Nat.add_0_r; lia|]. specialize (IH a ltac:(lia)).
  replace (a + S n)%nat with (S (a + n)) by lia. destruct (period_ord f (g (a + n)%nat) (g (S (a + n)))) as [_ O]; try apply GR; try apply GS; lia.
Qed.
Lemma hole_total : forall n a fuel, (a + n <= top)%nat -> (n <= fuel)%nat -> exists h, fill_hole fuel (T f) (g a) (g (a + n)) = Ok h.
Proof.
  induction n as [|n IH]; intros a fuel L F.
  - rewrite Nat.add_0_r. assert (E : dt_ltb (g a) (g a) = false) by (apply ltb_false; auto). destruct fuel; cbn [fill_hole]; rewrite E; eauto.
  - destruct fuel as [|fuel]; [lia|]. cbn [fill_hole]. destruct (dt_ltb _ _); [|eauto].
    rewrite (period_step f (g a) (g (S a))) by (try apply GR; try apply GS; lia). cbn [bind].
    replace (a + S n)%nat with (S a + n)%nat by lia. destruct (IH (S a) fuel) as [h E]; try lia. rewrite E. cbn [bind]. eauto.
Qed.
Lemma fill_total e : forall ks tvs vals a, StronglySorted lt ks -> Forall (fun k => (a <= k <= top)%nat) ks ->
  Forall2 (fun k tv => arrow_any e tv = Ok (g k)) ks tvs ->
  exists full, fill_implicit e (T f) (Some (g a)) (combine tvs vals) = Ok full.
Proof.
  induction ks as [|k ks IH]; intros tvs vals a SS FA TM; inversion TM as [|? tv ? tvs' AT TM']; subst; [cbn; eauto|]. inversion SS as [|? ? SS' F]; subst. inversion FA as [|? ? K FA']; subst.
  destruct vals as [|v vals]; [cbn; eauto|]. cbn [combine fill_implicit]. rewrite AT. cbn [bind].
  replace (g k) with (g (a + (k - a))%nat) by (f_equal; lia).
  destruct (hole_total (k - a) a (hole_fuel (T f) (g a) (g (a + (k - a))%nat))) as [h E]; [lia| |].
  { unfold hole_fuel. destruct (text_eqb (T f) (T "S")) eqn:Q; [apply text_eqb_eq in Q; congruence|]. pose proof (grid_ord (k - a) a ltac:(lia)). lia. }
  rewrite E. cbn [bind]. apply (hole_grid f g top) in E; [|intros; apply GR; lia|intros; apply GS; lia|lia]. subst h. cbn [fst snd].
  replace (a + (k - a))%nat with k by lia. rewrite (period_step f (g k) (g (S k))) by (try apply GR; try apply GS; lia). cbn [bind].
  destruct (IH tvs' vals (S k) SS') as [full R]; [|auto|rewrite R; cbn; eauto].
  apply Forall_forall. intros x I. rewrite Forall_forall in F, FA'. specialize (F x I). specialize (FA' x I). lia.
Qed.
End Filled.
Lemma sorted_last ks d : StronglySorted lt ks -> forall x, In x ks -> (x <= List.last ks d)%nat.
Proof.
  intros SS. revert d. induction SS as [|a l SS IH F]; intros d x I; [destruct I|].
  destruct l as [|b l]; [destruct I as [<-|[]]; cbn; lia|]. change (List.last (a :: b :: l) d) with (List.last (b :: l) d).
  destruct I as [<-|I]; [|apply IH; auto]. inversion F; subst. specialize (IH d b (or_introl eq_refl)). lia.
Qed.
Lemma mapM_total {A B} (f : A -> res B) l : (forall x, In x l -> exists y, f x = Ok y) -> exists r, mapM f l = Ok r.
Proof.
  induction l as [|x l IH]; intros H; [cbn; eauto|]. destruct (H x (or_introl eq_refl)) as [y E]. destruct IH as [r R]; [intros; apply H; right; auto|].
  cbn [mapM]. rewrite E. cbn [bind]. rewrite R. cbn. eauto.
Qed.
Lemma c31_accepts e w p f ms cells vals g ks n th r c :
  sp_freq p = T f -> periodic f -> sp_missings p = true -> sp_mv p = VList ms -> In (VStr (T "Implicit")) ms ->
  sp_cont p = true -> sp_blank p = false ->
  own_cells p w cells -> continuous_values p cells vals -> vals <> [] ->
  StronglySorted lt ks -> hd_error ks = Some 0%nat -> List.length ks = List.length cells ->
  (forall k, (k <= S (List.last ks 0))%nat -> real_date (g k)) ->
  (forall k, (k <= List.last ks 0)%nat -> one_period f (g k) (g (S k))) ->
  (forall i k, nth_error ks i = Some k -> exists v, holds p w (sp_starts p + Z.of_nat i) v /\ time_in e v (g k)) ->
  series_name e w p n -> series_in_sheet p -> (sp_th p = ThStr th \/ exists ts, sp_th p = ThList (th :: ts)) -> cell_named th r c ->
  exists full, get_data e w p = Ok [(n, full)] /\ placed ks vals full.
Proof.
  intros FQ PF M MV I CT B OC CV NE SS HD LK GR GS HO NM IS TH CN.
  enough (exists full, get_data e w p = Ok [(n, full)]) as [full G].
  { exists full. split; auto.
    destruct (c31_placed e w p f ms cells vals g ks _ FQ PF M MV I CT B OC CV NE SS HD LK
      (fun k K => GR k ltac:(lia)) (fun k K => GS k ltac:(lia)) HO G) as (n' & full' & E & PL).
    injection E as <- <-. auto. }
  assert (SF : single_frequency p) by (eapply periodic_single; eauto).
  assert (LS : marker_list p) by (intros _; eauto).
  assert (V : values_read p w vals) by (econstructor; eauto).
  destruct (values_collects w p vals LS IS) as (en & line & E & L & C); [congruence|auto|].
  unfold get_data. rewrite (named_name e w p n NM). cbn [bind]. unfold get_values. rewrite E, L. cbn [bind]. rewrite C. cbn [bind]. rewrite SF. cbn [Nat.eqb bind].
  destruct (implicit_flag p LS) as (b & BE & BT). rewrite BE. cbn [bind]. assert (b = true) as -> by (apply BT; eauto). cbn [andb].
  assert (GV : match vals with [] => [] | _ :: _ => [vals] end = [vals]) by (destruct vals; congruence). rewrite GV. clear GV.
  destruct (line_named (sp_al p) _ _ _ CN) as [tl TL].
  assert (WL : write_line (sp_al p) (sp_th p) = Ok tl) by (unfold write_line; destruct TH as [-> |[ts ->]]; auto).
  rewrite WL. cbn [bind].
  destruct (mapM_total (axis_read (sp_al p) w tl) (zrange (sp_starts p) en)) as [tvs TV].
  { intros q Q. apply zrange_In in Q. eapply read_in_sheet; eauto. eapply IS; eauto. }
  rewrite TV. cbn [bind].
  destruct OC as (en' & E' & OC). assert (en' = en) by congruence. subst en'. pose proof (cells_length _ _ _ _ _ OC) as LC.
  assert (NC : cells <> []) by (intros ->; inversion CV; congruence).
  assert (EN : en = sp_starts p + Z.of_nat (List.length ks) - 1) by (rewrite LK, LC; destruct cells; [congruence|]; cbn in LC; lia).
  rewrite EN in TV. apply (times_read e _ _ _ g) in TV.
  2: { intros i k N. destruct (HO i k N) as (v & HV & TI). apply (holds_iff _ _ _ _ _ WL) in HV. rewrite HV. apply time_arrow. auto. }
  rewrite FQ.
  destruct ks as [|k0 ks]; [discriminate|]. injection HD as ->.
  assert (FSN : T f <> T "S") by (clear - PF; destruct PF as [<-|[<-|[<-|[<-|[<-|[]]]]]]; discriminate).
  destruct (fill_total f g (List.last (0%nat :: ks) 0%nat) FSN GR GS e (0%nat :: ks) tvs vals 0%nat SS) as [full FI]; [|auto|].
  { apply Forall_forall. intros x J. split; [lia|]. apply sorted_last; auto. }
  destruct vals as [|v vals]; [congruence|].
  assert (FI' : fill_implicit e (T f) None (combine tvs (v :: vals)) = Ok full).
  { inversion TV; subst. cbn [combine fill_implicit] in *. match goal with A : arrow_any e _ = _ |- _ => rewrite A in * end. exact FI. }
  rewrite FI'. cbn. eauto.
Qed.
