(** Proofs about where the numbers of an answer come from (C60). *)
From Verif Require Import Base BaseFacts Cal Coord CoordFacts XlMethods Params ParamsFacts ParseTime TimeIndex GetData PeriodRange DataFrame
  Attempts Scrape Xlseries SpecCoord SpecParams SpecTime SpecData SpecFrames SpecScrape SpecAttempts SpecEnd SpecSound
  TimeFacts TimeProofs DataFacts DataProofs ScrapeFacts ScrapeProofs ScrapeProofs2 SessionProofs CleanReal FrameProofs FrameProofs4 AttemptsProofs SpecCoordFacts ParamsProofs.
From Coq Require Import Sorted.
Local Open Scope Z_scope.

(** ** subsequences *)
Inductive sub {A} : list A -> list A -> Prop :=
| sub_nil : sub [] []
| sub_keep x l l' : sub l l' -> sub (x :: l) (x :: l')
| sub_drop x l l' : sub l l' -> sub l (x :: l').
Lemma sub_refl {A} (l : list A) : sub l l. Proof. induction l; constructor; auto. Qed.
Lemma sub_none {A} (l : list A) : sub [] l. Proof. induction l; constructor; auto. Qed.

Section Drawn.
Variables (w : worksheet) (al : align) (line last : Z) (holes : bool).
Notation drawn_ := (drawn w al line last holes).
Lemma drawn_later a b vs : b <= a -> drawn_ a vs -> drawn_ b vs.
Proof. intros L H. induction H; [constructor|constructor; auto|]. eapply dw_number; eauto. lia. Qed.
Lemma drawn_sub vs : forall a vs', drawn_ a vs -> sub vs' vs -> drawn_ a vs'.
Proof.
  intros a vs' H. revert vs'. induction H as [a|a vs M H IH|a q x vs Q C H IH]; intros vs' S.
  - inversion S; subst. constructor.
  - inversion S; subst; [constructor; auto|auto].
  - inversion S; subst; [eapply dw_number; eauto|]. apply (drawn_later (q + 1)); [lia|auto].
Qed.
Lemma drawn_holes n : holes = true -> forall a vs, drawn_ a vs -> drawn_ a (repeat S754_nan n ++ vs).
Proof. intros M a vs H. induction n; cbn; auto. constructor; auto. Qed.
End Drawn.

(** ** the values collected *)
Lemma along_axis al w line q : along al w line q = axis_val al w line q.
Proof. destruct al; reflexivity. Qed.
Lemma handle_from v p x : (if sp_cont p then handle_continuous v (sp_missings p) (sp_blank p) (sp_mv p)
                      else handle_non_continuous v (sp_missings p) (sp_mv p)) = Ok (Some x) ->
  (sp_missings p = true /\ x = S754_nan) \/ py_float v = Ok x.
Proof.
  destruct (sp_cont p).
  - unfold handle_continuous. destruct (_ && _); [discriminate|]. destruct (sp_missings p).
    + intros H. apply bind_ok in H. destruct H as (b & _ & H). destruct b; [injection H as <-; auto|].
      change (match v with VStr t => VStr (strip t) | _ => v end) with (strip_val v) in H. rewrite float_strip in H. destruct (py_float v); [injection H as <-; auto|discriminate].
    + intros H. apply bind_ok in H. destruct H as (f & F & H). injection H as <-. auto.
  - unfold handle_non_continuous. change (match v with VStr t => if Nat.eqb (List.length (strip t)) 0 then VNone else v | _ => v end) with (content_val v).
    destruct (sp_missings p).
    + intros H. apply bind_ok in H. destruct H as (b & _ & H). destruct b; [injection H as <-; auto|].
      destruct (py_float (content_val v)) eqn:F; [|discriminate]. injection H as <-. right. apply content_float. auto.
    + destruct (py_float (content_val v)) eqn:F; [|discriminate]. intros H. injection H as <-. right. apply content_float. auto.
Qed.
Lemma collect_drawn w p line en : forall n a vs, n = Z.to_nat (en + 1 - a) -> collect w p line (zrange a en) = Ok vs ->
  drawn w (sp_al p) line en (sp_missings p) a vs.
Proof.
  induction n as [|n IH]; intros a vs N H.
  - rewrite zrange_nil in H by lia. injection H as <-. constructor.
  - rewrite zrange_cons in H by lia. cbn [collect] in H. apply bind_ok in H. destruct H as (v & R & H). apply bind_ok in H. destruct H as (nv & E & H).
    apply bind_ok in H. destruct H as (add & _ & H). apply bind_ok in H. destruct H as (vs' & C & H). apply IH in C; [|lia].
    assert (C' : drawn w (sp_al p) line en (sp_missings p) a vs') by (apply (drawn_later w _ line en _ (a + 1)); [lia|auto]).
    destruct nv as [x|]; [|injection H as <-; auto]. destruct add; [|injection H as <-; auto]. injection H as <-.
    destruct (if sp_cont p then _ else _) as [y|] eqn:E'; [|discriminate]. injection E as ->. apply handle_from in E'.
    destruct E' as [[M ->]|F]; [constructor; auto|]. eapply dw_number; [|rewrite along_axis; apply axis_read_val in R; rewrite R; apply cell_number_iff; exact F|exact C]. lia.
Qed.

(** *** values by frequency *)
Lemma added_in c f : forall g c' l', In (c', l') (add_to_group c f g) -> In (c', l') g \/ exists l, l' = l ++ [f] /\ (In (c', l) g \/ l = []).
Proof.
  induction g as [|[c0 l0] g IH]; intros c' l' I; cbn [add_to_group] in I.
  - destruct I as [I|[]]. injection I as <- <-. right. exists []. auto.
  - destruct (ch_eqb c c0).
    + destruct I as [I|I]; [|left; right; auto]. injection I as <- <-. right. exists l0. split; auto. left. left. auto.
    + destruct I as [I|I]; [left; left; auto|]. destruct (IH _ _ I) as [J|(l & E & [J|J])]; [left; right; auto| |]; right; exists l; split; auto. left. right. auto.
Qed.
Lemma sub_app {A} (a b c d : list A) : sub a b -> sub c d -> sub (a ++ c) (b ++ d).
Proof. intros H K. induction H; cbn; auto; constructor; auto. Qed.
Lemma group_sub fr : forall vs lf g g' done, group fr lf vs g = Ok g' -> (forall c l, In (c, l) g -> sub l done) ->
  forall c l, In (c, l) g' -> sub l (done ++ vs).
Proof.
  induction vs as [|f vs IH]; intros lf g g' done H G c l I; cbn [group] in H.
  - injection H as <-. rewrite app_nil_r. eauto.
  - apply bind_ok in H. destruct H as ([c1 lf1] & _ & H). replace (done ++ f :: vs) with ((done ++ [f]) ++ vs) by (rewrite <- app_assoc; auto).
    eapply IH; eauto. cbn [fst]. intros c2 l2 J. destruct (added_in _ _ _ _ _ J) as [K|(l0 & -> & [K| ->])].
    + rewrite <- (app_nil_r l2). apply sub_app; [eauto|]. apply sub_none.
    + apply sub_app; [eauto|apply sub_refl].
    + apply sub_app; [apply sub_none|apply sub_refl].
Qed.

(** *** periods left out *)
Lemma hole_nans freq obs : forall fuel ex h, fill_hole fuel freq ex obs = Ok h -> exists n, fst h = repeat S754_nan n.
Proof.
  induction fuel as [|k IH]; intros ex h H; cbn [fill_hole] in H; (destruct (dt_ltb ex obs); [|injection H as <-; exists 0%nat; reflexivity]); [discriminate|].
  apply bind_ok in H. destruct H as (ex' & _ & H). apply bind_ok in H. destruct H as (r & R & H). injection H as <-. apply IH in R. destruct R as (n & R).
  exists (S n). cbn. rewrite R. reflexivity.
Qed.
Inductive widened : list spec_float -> list spec_float -> Prop :=
| wd_nil : widened [] []
| wd_nans n x l l' : widened l l' -> widened (x :: l) (repeat S754_nan n ++ x :: l').
Lemma fill_widened e freq : forall l ex r, fill_implicit e freq ex l = Ok r -> widened (map snd l) r.
Proof.
  induction l as [|[tv v] l IH]; intros ex r H; cbn [fill_implicit] in H; [injection H as <-; constructor|].
  apply bind_ok in H. destruct H as (obs & _ & H). apply bind_ok in H. destruct H as (h & F & H). apply bind_ok in H. destruct H as (ex' & _ & H).
  apply bind_ok in H. destruct H as (rest & R & H). injection H as <-. apply hole_nans in F. destruct F as (n & ->). cbn [map snd]. constructor. eauto.
Qed.
Lemma drawn_widened w al line last : forall vs vs', widened vs vs' -> forall a, drawn w al line last true a vs -> drawn w al line last true a vs'.
Proof.
  induction 1 as [|n x l l' W IH]; intros a D; auto. apply drawn_holes; auto. inversion D; subst; [constructor; auto|]. eapply dw_number; eauto.
Qed.
Lemma combine_sub {A B} : forall (a : list A) (b : list B), sub (map snd (combine a b)) b.
Proof. induction a as [|x a IH]; intros [|y b]; cbn; try constructor; auto. apply sub_none. Qed.

Lemma values_drawn e w p r vs : get_values e w p = Ok r -> In vs r ->
  exists en line, sp_ends p = Some en /\ coord_line (sp_al p) (sp_hc p) = Ok line /\ drawn w (sp_al p) line en (sp_missings p) (sp_starts p) vs.
Proof.
  intros H I. unfold get_values in H. destruct (sp_ends p) as [en|]; [|discriminate]. apply bind_ok in H. destruct H as (line & L & H).
  apply bind_ok in H. destruct H as (all & C & H). exists en, line. split; auto. split; auto. apply (collect_drawn w p line en _ _ _ eq_refl) in C.
  apply bind_ok in H. destruct H as (groups & G & H).
  assert (D : forall l, In l groups -> sub l all).
  { destruct (Nat.eqb _ 1).
    - injection G as <-. intros l J. destruct all; [destruct J|]. destruct J as [<-|[]]. apply sub_refl.
    - apply bind_ok in G. destruct G as (g & G & E). injection E as <-. intros l J. apply in_map_iff in J. destruct J as ([c l0] & <- & J).
      exact (group_sub _ _ _ _ _ [] G (fun _ _ F => match F with end) _ _ J). }
  apply bind_ok in H. destruct H as (imp & M & H). destruct (imp && Nat.eqb (List.length (sp_freq p)) 1) eqn:B.
  - apply andb_true_iff in B. destruct B as [-> _]. destruct (sp_missings p); [|discriminate].
    destruct groups as [|vals gs]; [discriminate|]. apply bind_ok in H. destruct H as (tl & _ & H). apply bind_ok in H. destruct H as (tvs & _ & H).
    apply bind_ok in H. destruct H as (r' & F & H). injection H as <-. destruct I as [<-|[]]. apply fill_widened in F. eapply drawn_widened; [exact F|].
    eapply drawn_sub; [|apply combine_sub]. eapply drawn_sub; [exact C|]. apply D. left. auto.
  - injection H as <-. eapply drawn_sub; [exact C|auto].
Qed.

(** ** cleaning puts dates and blanks in cells, no numbers *)
Definition cleaned (w w' : worksheet) : Prop :=
  forall i j, cell w' i j = cell w i j \/ cell w' i j = VNone \/ exists d, cell w' i j = VDate d.
Lemma cleaned_refl w : cleaned w w. Proof. intros i j. auto. Qed.
Lemma cleaned_trans a b c : cleaned a b -> cleaned b c -> cleaned a c.
Proof. intros H K i j. destruct (K i j) as [E|E]; auto. rewrite E. auto. Qed.
Lemma clean_many_cleaned e : forall n i ends w p w' p' r, clean_many e n i ends w p = (w', p', r) -> cleaned w w'.
Proof.
  induction n as [|n IH]; intros i ends w p w' p' r H; cbn [clean_many] in H; [injection H as <- _ _; apply cleaned_refl|].
  match type of H with match ?X with _ => _ end = _ => destruct X as [t|]; [|injection H as <- _ _; apply cleaned_refl] end.
  match type of H with (let '(w1, r) := ?X in _) = _ => destruct X as [w1 r1] eqn:E end.
  assert (R1 : cleaned w w1).
  { destruct (find _ ends) as [kv|]; [injection E as <- _; apply cleaned_refl|]. destruct (series_sp p i) as [s|]; [|injection E as <- _; apply cleaned_refl].
    destruct (clean_time_index e w s) as [w2 r2] eqn:C. injection E as <- _. exact (c27_values _ _ _ _ _ C). }
  destruct r1 as [z|]; [|injection H as <- _ _; auto]. destruct (py_index _ i) as [de|]; [|injection H as <- _ _; auto]. eapply cleaned_trans; [exact R1|]. eapply IH; eauto.
Qed.
Lemma clean_data_cleaned e w p w' p' r : clean_data e w p = (w', p', r) -> cleaned w w'.
Proof.
  unfold clean_data. intros H. destruct (py_index _ 0) as [tm|]; [|injection H as <- _ _; apply cleaned_refl]. destruct (truthy tm).
  - destruct (series_sp p 0) as [s|]; [|injection H as <- _ _; apply cleaned_refl]. destruct (clean_time_index e w s) as [w1 r1] eqn:C.
    pose proof (c27_values _ _ _ _ _ C) as R. change (cleaned w w1) in R.
    destruct r1 as [z|]; [|injection H as <- _ _; auto]. destruct (py_index _ 0) as [de|]; [|injection H as <- _ _; auto]. destruct (truthy de); [injection H as <- _ _; auto|].
    destruct (set_item p n_data_ends (VInt z)) as [p1 r2]. injection H as <- _ _; auto.
  - destruct (py_len _) as [n|]; [|injection H as <- _ _; apply cleaned_refl]. eapply clean_many_cleaned; eauto.
Qed.
Lemma number_cleaned w w' i j x : cleaned w w' -> cell_number (cell w' i j) x -> cell_number (cell w i j) x.
Proof. intros C N. destruct (C i j) as [E|[E|[d E]]]; rewrite E in N; auto; inversion N. Qed.
Lemma drawn_cleaned w w' al line last holes : cleaned w w' -> forall a vs, drawn w' al line last holes a vs -> drawn w al line last holes a vs.
Proof.
  intros C a vs D. induction D; [constructor|constructor; auto|]. eapply dw_number; eauto. destruct al; eapply number_cleaned; eauto.
Qed.

(** ** last positions that are given stay *)
Lemma all_given p i de : ends_given p -> py_index (dgetN n_data_ends p) i = Ok de -> truthy de = true.
Proof.
  intros (l & E & F). change (pname "data_ends") with n_data_ends in E. rewrite E. cbn [py_index]. destruct (nth_error l i) as [v|] eqn:N; [|discriminate]. intros H. injection H as <-.
  rewrite Forall_forall in F. destruct (F v (nth_error_In _ _ N)) as (z & -> & Z). cbn. lia.
Qed.
Lemma clean_many_ends e : forall n i ends w p w' p' r, clean_many e n i ends w p = (w', p', r) -> ends_given p -> p' = p.
Proof.
  induction n as [|n IH]; intros i ends w p w' p' r H G; cbn [clean_many] in H; [injection H as _ <- _; auto|].
  match type of H with match ?X with _ => _ end = _ => destruct X as [t|]; [|injection H as _ <- _; auto] end.
  match type of H with (let '(w1, r) := ?X in _) = _ => destruct X as [w1 [z|x]]; [|injection H as _ <- _; auto] end.
  destruct (py_index (dgetN n_data_ends p) i) as [de|] eqn:D; [|injection H as _ <- _; auto]. rewrite (all_given _ _ _ G D) in H. eauto.
Qed.
Lemma clean_data_ends e w p w' p' r : clean_data e w p = (w', p', r) -> ends_given p -> p' = p.
Proof.
  unfold clean_data. intros H G. destruct (py_index (dgetN n_time_multicolumn p) 0) as [tm|]; [|injection H as _ <- _; auto]. destruct (truthy tm).
  - destruct (series_sp p 0) as [s|]; [|injection H as _ <- _; auto]. destruct (clean_time_index e w s) as [w1 r1].
    destruct r1 as [z|]; [|injection H as _ <- _; auto]. destruct (py_index (dgetN n_data_ends p) 0) as [de|] eqn:D; [|injection H as _ <- _; auto].
    rewrite (all_given _ _ _ G D) in H. injection H as _ <- _; auto.
  - destruct (py_len _) as [n|]; [|injection H as _ <- _; auto]. eapply clean_many_ends; eauto.
Qed.

(** ** the parameters of a series *)
Lemma series_inv p i d k v : get_series_params p i = Ok d -> dget k d = Some v -> dgetN k p <> VNone /\ py_index (dgetN k p) i = Ok v.
Proof.
  unfold get_series_params. intros H. revert k v. revert H.
  apply (foldM_inv _ (fun d => forall k v, dget k d = Some v -> dgetN k p <> VNone /\ py_index (dgetN k p) i = Ok v)); [|intros; discriminate].
  intros s x s' _ P H k v G. destruct (is_none (dgetN x p)) eqn:N; [injection H as <-; auto|]. apply bind_ok in H. destruct H as (y & Y & H). injection H as <-.
  assert (Q : dget k s = Some v \/ (k = x /\ v = y)).
  { clear -G. induction s as [|[a b] s IH]; cbn in *.
    - destruct (text_eqb k x) eqn:E; [|discriminate]. apply text_eqb_eq in E. injection G as <-. auto.
    - destruct (text_eqb k a); auto. }
  destruct Q as [Q|[-> ->]]; auto. split; auto. intros E. rewrite E in N. discriminate.
Qed.
Lemma sp_inv p i s : series_sp p i = Ok s -> exists d, get_series_params p i = Ok d /\
  (exists v, dget n_alignment d = Some v /\ as_align v = Ok (sp_al s)) /\
  dget n_headers_coord d = Some (VStr (sp_hc s)) /\
  (exists v, dget n_data_starts d = Some v /\ as_int v = Ok (sp_starts s)) /\
  (exists v, dget n_data_ends d = Some v /\ (if truthy v then do z <- as_int v; Ok (Some z) else Ok None) = Ok (sp_ends s)) /\
  (exists v, dget n_missings d = Some v /\ truthy v = sp_missings s).
Proof.
  unfold series_sp. intros H. apply bind_ok in H. destruct H as (d & D & H). exists d. split; auto. unfold sp_of in H.
  repeat match type of H with bind _ _ = Ok _ => apply bind_ok in H; destruct H as (? & ? & H) end. injection H as <-.
  cbn [sp_al sp_hc sp_starts sp_ends sp_missings].
  repeat match goal with G : dgetE _ _ = Ok _ |- _ => apply dgetE_ok in G end.
  assert (T : forall v t, as_text v = Ok t -> v = VStr t) by (intros v t; destruct v; cbn; congruence).
  repeat match goal with G : as_text _ = Ok _ |- _ => apply T in G; subst end.
  split; [eauto|]. split; [auto|]. split; [eauto|]. split; [eauto|]. eauto.
Qed.

(** ** what an attempt may have that the parameters have not *)
Lemma set_item_only p k v k' : k <> n_headers_coord -> k' <> k -> dget k' (fst (set_item p k v)) = dget k' p.
Proof.
  intros N K. unfold set_item. replace (text_eqb k n_headers_coord) with false by (symmetry; apply text_eqb_neq; auto). unfold set_general.
  repeat match goal with
  | |- dget _ (fst (match ?x with _ => _ end)) = _ => destruct x eqn:?
  end; auto.
  all: repeat match goal with
  | H : bind _ _ = Ok _ |- _ => apply bind_ok in H as [? [? H]]
  | H : (if ?b then _ else _) = Ok _ |- _ => destruct b
  | H : (match ?b with _ => _ end) = Ok _ |- _ => destruct b
  | H : Ok _ = Ok _ |- _ => inversion H; subst; clear H
  | H : Err _ = Ok _ |- _ => discriminate
  end; cbn; try (apply dget_dset_other; congruence); auto.
Qed.
Lemma set_items_only k' : forall comb p q, set_items p comb = Ok q -> (forall k v, In (k, v) comb -> k <> n_headers_coord /\ k' <> k) -> dget k' q = dget k' p.
Proof.
  induction comb as [|[k v] comb IH]; intros p q H C; cbn [set_items] in H; [injection H as <-; auto|].
  destruct (C k v) as [C1 C2]; [left; auto|]. pose proof (set_item_only p k v k' C1 C2) as E. destruct (set_item p k v) as [p' [u|]]; [|discriminate].
  rewrite (IH _ _ H); [exact E|]. intros k0 v0 I. apply (C k0 v0). right. auto.
Qed.
Lemma dset_keys k v d x y : In (x, y) (dset k v d) -> x = k \/ In x (map fst d).
Proof. intros I. destruct (dset_In_inv _ _ _ _ _ I) as [[-> _]|J]; auto. right. apply (in_map fst) in J. auto. Qed.
Definition md_names (md : missing_dict) : list text := map fst md.
Lemma md_del_names k md x : In x (md_names (md_del k md)) -> In x (md_names md).
Proof. unfold md_names, md_del. intros I. apply in_map_iff in I. destruct I as (kv & <- & I). apply filter_In in I. apply in_map. tauto. Qed.
Lemma pop_front_has md : forall order k o, pop_front md order = Ok (k, o) -> md_has k md = true.
Proof. induction order as [|x order IH]; intros k o H; cbn in H; [discriminate|]. destruct (md_has x md) eqn:E; [injection H as <- _; auto|eauto]. Qed.
Lemma has_name k md : md_has k md = true -> In k (md_names md).
Proof. unfold md_has. intros H. apply existsb_exists in H. destruct H as (kv & I & E). apply text_eqb_eq in E. subst. apply in_map. auto. Qed.
Lemma choose_name md order k o : choose_param md order = Ok (k, o) -> In k (md_names md).
Proof.
  unfold choose_param. destruct order as [|x order].
  - destruct (rev md) as [|[k0 vv] r] eqn:R; [discriminate|]. intros H. injection H as <- <-. apply (in_map fst _ (k0, vv)). apply in_rev. rewrite R. left. auto.
  - destruct (md_has _ md) eqn:E; intros H.
    + injection H as <- _. apply has_name. auto.
    + apply pop_front_has in H. apply has_name. auto.
Qed.
Lemma combos_keys : forall n md order combs, param_combinations n md order = Ok combs -> forall c k v, In c combs -> In (k, v) c ->
  In k (md_names md) /\ dget k DEFAULT_VALUES <> None.
Proof.
  induction n as [|n IH]; intros md order combs H c k v IC IK; [discriminate|]. cbn [param_combinations] in H.
  assert (D : forall k vv l, default_first k vv = Ok l -> dget k DEFAULT_VALUES <> None).
  { intros k0 vv l E. unfold default_first in E. apply bind_ok in E. destruct E as (d & E & _). apply dgetE_ok in E. congruence. }
  assert (M : (do c <- choose_param md order; let '(name, order') := c in do combs <- param_combinations n (md_del name md) order';
          do vals <- default_first name (md_get name md); Ok (flat_map (fun comb => map (fun v => dset name v comb) vals) combs)) = Ok combs -> In k (md_names md) /\ dget k DEFAULT_VALUES <> None).
  { clear H. intros H. apply bind_ok in H. destruct H as ([nm o] & C & H). apply bind_ok in H. destruct H as (cs & P & H). apply bind_ok in H. destruct H as (vals & V & H). injection H as <-.
    apply in_flat_map in IC. destruct IC as (c0 & I0 & I1). apply in_map_iff in I1. destruct I1 as (v0 & <- & _). apply dset_keys in IK. destruct IK as [->|IK].
    - split; [eapply choose_name; eauto|eauto].
    - apply in_map_iff in IK. destruct IK as ([k1 v1] & <- & I2). destruct (IH _ _ _ P _ _ _ I0 I2) as [Q1 Q2]. split; auto. eapply md_del_names; eauto. }
  destruct md as [|[nm vv] [|kv md]]; auto. apply bind_ok in H. destruct H as (vals & V & H). injection H as <-. apply in_map_iff in IC. destruct IC as (v0 & <- & _).
  destruct IK as [E|[]]. injection E as <- <-. split; [left; auto|eauto].
Qed.
Lemma missings_names names : forall md, missings_dict names = Ok md -> md_names md = names.
Proof.
  induction names as [|k names IH]; intros md H; cbn in H; [injection H as <-; auto|]. apply bind_ok in H. destruct H as (kv & A & H). apply bind_ok in H. destruct H as (md' & B & H). injection H as <-.
  apply bind_ok in A. destruct A as (vv & _ & A). injection A as <-. cbn. f_equal. auto.
Qed.
Lemma attempt_only p l a : discover_parameters p = Ok l -> In a l -> forall k, dgetN k p <> VNone \/ dget k DEFAULT_VALUES = None \/ k = n_data_ends -> dget k a = dget k p.
Proof.
  unfold discover_parameters. intros H I k K. apply bind_ok in H. destruct H as (c & _ & H). destruct c; [injection H as <-; destruct I as [<-|[]]; auto|].
  unfold generate_attempts in H. destruct (get_missings p) as [|nm names] eqn:G; [injection H as <-; destruct I as [<-|[]]; auto|]. rewrite <- G in H.
  apply bind_ok in H. destruct H as (md & M & H). apply bind_ok in H. destruct H as (combs & C & H). apply mapM_Forall2 in H.
  apply In_nth_error in I. destruct I as (i & I). destruct (Forall2_nth_r _ _ _ _ _ H I) as (cb & Icb & E). apply nth_error_In in Icb.
  apply bind_ok in E. destruct E as (np & S & E). apply bind_ok in E. destruct E as (b & _ & E). apply bind_ok in E. destruct E as (u & _ & E). injection E as <-.
  eapply set_items_only; eauto. intros k0 v0 J. destruct (combos_keys _ _ _ _ C _ _ _ Icb J) as [J1 J2]. rewrite (missings_names _ _ M) in J1.
  unfold get_missings in J1. apply filter_In in J1. destruct J1 as [_ J1]. unfold is_missing in J1. apply andb_true_iff in J1. destruct J1 as [J1 J3]. split.
  - intros ->. apply J2. reflexivity.
  - intros ->. destruct K as [K|[K|K]]; [|congruence|subst; discriminate]. apply K. destruct (dgetN k0 p); try discriminate; auto.
Qed.

(** ** an attempt *)
Lemma line_named_of al t line : coord_line al t = Ok line -> exists rc, cell_named t (fst rc) (snd rc) /\ line = line_of al rc.
Proof. unfold coord_line. intros H. apply bind_ok in H. destruct H as (rc & P & H). injection H as <-. exists rc. split; [apply cell_named_iff; destruct rc; auto|]. destruct al; reflexivity. Qed.
Lemma attempt_sound e w p l a dfs fr : series_lists p -> discover_parameters p = Ok l -> In a l -> alone e w a = Ok dfs -> In fr dfs ->
  exists js, StronglySorted lt js /\ Forall2 (from_header p w) js (df_data fr).
Proof.
  intros SL DP I A F. destruct (alone_parts _ _ _ _ A) as (w1 & p1 & w2 & C & G). destruct (c35_columns _ _ _ _ _ _ G F) as (js & cols & SJ & F2 & _ & ->).
  exists js. split; auto. clear G F SJ. induction F2 as [|j [nm vs] js cols CF F2 IH]; cbn [map snd]; constructor; auto.
  destruct CF as (s & nvs & SS & GD & IN). unfold get_data in GD. apply bind_ok in GD. destruct GD as (nm' & _ & GD). apply bind_ok in GD. destruct GD as (vls & GV & GD). injection GD as <-.
  apply in_map_iff in IN. destruct IN as (vs' & E & IN). injection E as _ ->. destruct (values_drawn _ _ _ _ _ GV IN) as (en & line & EN & L & D).
  destruct (line_named_of _ _ _ L) as (rc & NC & ->). destruct (sp_inv _ _ _ SS) as (d & GP & (va & VA & PA) & VH & (vd & VD & PD) & (ve & VE & PE) & (vm & VM & PM)).
  pose proof (clean_data_but _ _ _ _ _ _ C) as BE.
  assert (K1 : forall k, k <> n_data_ends -> dgetN k p1 = dgetN k a) by (intros k N; unfold dgetN; rewrite BE; auto).
  assert (K2 : forall k, dgetN k p <> VNone \/ dget k DEFAULT_VALUES = None \/ k = n_data_ends -> dgetN k a = dgetN k p)
    by (intros k N; unfold dgetN; rewrite (attempt_only _ _ _ DP I); auto).
  assert (ST : forall k v, text_eqb k n_data_ends = false -> In k PARAM_NAMES -> series_value p k j v -> dget k d = Some v).
  { intros k v N P (lk & E & V). eapply get_series_value; eauto. exists lk. split; auto. rewrite K1 by (apply text_eqb_neq; auto). rewrite K2; auto. left. rewrite E. discriminate. }
  assert (SV : forall k v, In k [pname "headers_coord"; pname "data_starts"] -> dget k d = Some v -> series_value p k j v).
  { intros k v J V. destruct (series_inv _ _ _ _ _ GP V) as [X Y]. assert (E : dgetN k p1 = dgetN k p).
    { rewrite K1, K2; auto; destruct J as [<-|[<-|[]]]; try discriminate; right; left; reflexivity. }
    rewrite E in X, Y. destruct (SL k J) as [Q|[lk Q]]; [congruence|]. rewrite Q in Y. cbn [py_index] in Y. exists lk. split; auto. destruct (nth_error lk j); congruence. }
  exists (sp_hc s), rc, (sp_al s), vd, (sp_starts s), en, (sp_missings s).
  split; [apply SV; [left; auto|exact VH]|]. split; [exact NC|].
  split. { intros V. apply (ST n_alignment) in V; [|reflexivity|apply text_in_In; reflexivity]. rewrite V in VA. injection VA as <-. match type of PA with ?X = _ => change X with (@Ok align Vert) in PA end. congruence. }
  split. { intros V. apply (ST n_alignment) in V; [|reflexivity|apply text_in_In; reflexivity]. rewrite V in VA. injection VA as <-. match type of PA with ?X = _ => change X with (@Ok align Horiz) in PA end. congruence. }
  split; [apply SV; [right; left; auto|exact VD]|]. split. { intros z ->. cbn in PD. congruence. }
  split.
  { intros EG. assert (EA : ends_given a). { destruct EG as (lk & E & Fa). exists lk. split; auto. change (pname "data_ends") with n_data_ends in *. rewrite K2; auto. }
    pose proof (clean_data_ends _ _ _ _ _ _ C EA). subst p1. destruct (series_inv _ _ _ _ _ GP VE) as [X Y]. destruct EG as (lk & E & Fa). change (pname "data_ends") with n_data_ends in E.
    rewrite K2, E in Y by auto. cbn [py_index] in Y. destruct (nth_error lk j) as [v|] eqn:N; [|discriminate]. injection Y as ->. exists lk. split; auto. rewrite N. f_equal.
    rewrite Forall_forall in Fa. destruct (Fa _ (nth_error_In _ _ N)) as (z & -> & NZ). cbn in PE. replace (negb (z =? 0)) with true in PE by lia. cbn in PE. congruence. }
  split. { intros V. apply (ST n_missings) in V; [|reflexivity|apply text_in_In; reflexivity]. rewrite V in VM. injection VM as <-. auto. }
  eapply drawn_cleaned; [eapply clean_data_cleaned; exact C|exact D].
Qed.

(** ** a call *)
Lemma drawn_same w w' al line last holes : same_sheet w w' -> forall a vs, drawn w al line last holes a vs -> drawn w' al line last holes a vs.
Proof.
  intros (_ & _ & _ & E) a vs D. induction D; [constructor|constructor; auto|]. eapply dw_number; eauto. destruct al; cbn in *; rewrite <- E; auto.
Qed.
Lemma from_same p w w' j vs : same_sheet w w' -> from_header p w j vs -> from_header p w' j vs.
Proof.
  intros S (h & rc & al & v & starts & last & holes & H). exists h, rc, al, v, starts, last, holes. intuition. eapply drawn_same; eauto.
Qed.
Definition sound (p : dict) (w : worksheet) (x : dfs_t) : Prop :=
  forall fr, frame_of x fr -> exists js, StronglySorted lt js /\ Forall2 (from_header p w) js (df_data fr).
Lemma sound_list p w dfs : (forall fr, In fr dfs -> exists js, StronglySorted lt js /\ Forall2 (from_header p w) js (df_data fr)) -> sound p w (DL (map DF dfs)).
Proof. intros H fr F. inversion F as [|l x d' I Fo]; subst. apply in_map_iff in I. destruct I as (y & <- & I). inversion Fo; subst. auto. Qed.
Lemma results_sound e safe w p l (SL : series_lists p) (B : bounded w) : discover_parameters p = Ok l -> forall l' ids, incl l' l -> List.length ids = List.length l' ->
  Forall (fun r => sound p w (fst r)) (results_of e safe w (combine l' ids)).
Proof.
  intros DP. induction l' as [|a l' IH]; intros ids I L; [constructor|]. destruct ids as [|i ids]; [discriminate|]. cbn [combine results_of].
  assert (I1 : incl l' l) by (intros x J; apply I; right; auto). assert (L1 : List.length ids = List.length l') by (cbn in L; lia).
  destruct (outcome e w a) as [dfs|] eqn:O; [|auto].
  assert (S : sound p w (unwrap dfs)).
  { assert (A : forall fr, In fr dfs -> exists js, StronglySorted lt js /\ Forall2 (from_header p w) js (df_data fr)).
    { intros fr J. unfold outcome in O. rewrite <- alone_full in O. destruct (attempt_sound _ _ _ _ _ _ _ SL DP (I a (or_introl eq_refl)) O J) as (js & S1 & F).
      exists js. split; auto. clear -F B. induction F; constructor; auto. eapply from_same; [|exact H]. destruct (copy_same w B) as (E1 & E2 & E3 & E4). repeat split; auto. }
    destruct dfs as [|d [|d' dfs]]; try (apply sound_list; auto). intros fr F. inversion F; subst. apply A. left. auto. }
  destruct safe; constructor; auto.
Qed.
Lemma unique_sound P : forall rs us out, unique_results rs us = Ok out -> Forall (fun r : dfs_t * nat => P (fst r)) rs -> Forall (fun r => P (fst r)) us -> Forall (fun r => P (fst r)) out.
Proof.
  induction rs as [|r rs IH]; intros us out H F G; cbn [unique_results] in H; [injection H as <-; auto|].
  apply bind_ok in H. destruct H as (b & _ & H). inversion F; subst. eapply IH; eauto. destruct b; auto. apply Forall_app. auto.
Qed.
Lemma scrape_sound e safe st si pi x : (si < List.length (st_sheets st))%nat -> (pi < List.length (st_params st))%nat -> bounded (sheet st si) -> series_lists (params st pi) ->
  snd (scrape e safe st si pi) = Ok x -> sound (params st pi) (sheet st si) (fst x).
Proof.
  intros Hs Hp B SL H. destruct (discover_parameters (params st pi)) as [l|y] eqn:D.
  - destruct (Nat.eq_dec (List.length l) 1) as [N|N].
    + destruct l as [|a [|b l]]; try discriminate. destruct (scrape_one_out e safe st si pi [a] a Hs Hp D eq_refl) as [O _]. rewrite H in O. cbn in O.
      destruct (snd (attempt_full e (sheet st si) a)) as [dfs|] eqn:A; [|discriminate]. cbn in O. injection O as ->. apply sound_list. intros fr I.
      rewrite <- alone_full in A. eapply attempt_sound; eauto. left. auto.
    + rewrite (scrape_many e safe st si pi l Hs D N) in H. cbn [snd] in H. apply bind_ok in H. destruct H as (us & U & H).
      assert (R : Forall (fun r => sound (params st pi) (sheet st si) (fst r)) us).
      { eapply (unique_sound (sound (params st pi) (sheet st si))); [exact U| |constructor]. eapply results_sound; eauto using incl_refl. rewrite seq_length. auto. }
      destruct us as [|u [|u' us]]; [discriminate| |].
      * injection H as <-. inversion R; auto.
      * injection H as <-. cbn [fst]. intros fr F. inversion F as [|l0 x0 d' I Fo]; subst. apply (in_map_iff fst (u :: u' :: us)) in I. destruct I as (r & <- & I).
        rewrite Forall_forall in R. exact (R _ I _ Fo).
  - unfold scrape in H. rewrite (attempt_objects_err _ _ _ D) in H. discriminate.
Qed.
Lemma unwrap_result_sound p w x : sound p w x -> sound p w (unwrap_result x).
Proof.
  intros S. destruct x as [d|l]; auto. destruct l as [|y [|z l]]; auto. cbn. intros fr F. apply S. eapply fo_list; [left; reflexivity|auto].
Qed.
Lemma c60 e uni json st wb u q safe preserve st' out name pid p i fr :
  wb_ok st wb -> in_store st u -> object_of json st u p -> first_such (fun i => title (sheet st i) = name) wb i -> bounded (sheet st i) -> series_lists p ->
  get_data_frames e uni json st wb u q safe preserve = (st', Ok (out, name, pid)) -> frame_of out fr ->
  exists js, StronglySorted lt js /\ Forall2 (from_header p (sheet st i)) js (df_data fr).
Proof.
  intros W IS O FS B SL H F. pose proof (c23_result e uni json st wb u q safe preserve W _ _ _ _ H) as R.
  destruct (c23_sheet e uni json st wb u q safe preserve W IS name p R O) as (i' & st2 & si & pid2 & FS' & P0 & P1 & PP & Ls & Lp & E).
  assert (i' = i) by (eapply first_such_det; eauto). subst i'. rewrite H in E. cbn [snd] in E. symmetry in E. apply bind_ok in E. destruct E as (x & S & E). assert (out = unwrap_result (fst x)) by congruence. subst out. clear E.
  assert (SS : same_sheet (sheet st2 si) (sheet st i) /\ bounded (sheet st2 si)).
  { destruct preserve.
    - rewrite (P1 eq_refl). split; [|apply copy_bounded]. destruct (copy_same (sheet st i) B) as (E1 & E2 & E3 & E4). repeat split; auto.
    - destruct (P0 eq_refl) as [_ ->]. split; auto. repeat split; auto. }
  destruct SS as [SS B2]. apply scrape_sound in S; auto; [|rewrite PP; auto]. rewrite PP in S. apply unwrap_result_sound in S. destruct (S fr F) as (js & S1 & F2).
  exists js. split; auto. clear -F2 SS. induction F2; constructor; auto. eapply from_same; eauto.
Qed.
