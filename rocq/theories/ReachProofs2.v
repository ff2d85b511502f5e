(** Two sheets that agree where it counts: the parameters and the call (C81). *)
From Coq Require Import ZifyBool ZifyNat.
From Verif Require Import Base BaseFacts Cal Coord CoordFacts XlMethods Params ParamsFacts ParseTime TimeIndex GetData PeriodRange Attempts AttemptsProofs DataFrame Scrape Xlseries Session
  SpecCoord SpecCoordFacts SpecParams SpecEnd SpecScrape SpecReach ScrapeFacts ScrapeProofs ScrapeProofs2 FrameProofs4 EndCall SessionProofs SoundProofs ReachProofs.
Local Open Scope Z_scope.

(** ** What the object says after an attempt was made of it and cleaned *)
Definition searched : list text := LIKELINESS_ORDER ++ [n_missing_value].
Record inside (p p1 : dict) : Prop := {
  in_same : forall k, k <> n_data_ends -> dgetN k p <> VNone \/ ~ In k searched -> dgetN k p1 = dgetN k p;
  in_ta : dgetN n_time_alignment p = VNone -> forall i v z, py_index (dgetN n_time_alignment p1) i = Ok v -> as_int v = Ok z -> -1 <= z <= 1;
  in_end : forall i z, ends_at p i z -> series_value p1 n_data_ends i (VInt z);
  in_all : all_ends_given p -> forall i v, series_value p1 n_data_ends i v -> exists z, v = VInt z /\ z <> 0
}.

Lemma index_value p k i v : py_index (dgetN k p) i = Ok v -> series_value p k i v \/ exists t c, dgetN k p = VStr t /\ v = VStr [c].
Proof.
  destruct (dgetN k p) as [| | | | | |l| |] eqn:E; cbn [py_index]; try discriminate.
  - intros H. right. destruct (nth_error t i) as [c|] eqn:N; [|discriminate]. injection H as <-. eauto.
  - intros H. left. exists l. split; auto. destruct (nth_error l i); congruence.
Qed.
Lemma one_char c rc : parse_coord [c] = Ok rc -> False.
Proof.
  unfold parse_coord. cbn [take_while drop_while]. destruct (is_letter c) eqn:L; cbn; try discriminate.
  rewrite andb_true_r. destruct (is_digit c); discriminate.
Qed.
Lemma one_char_line al c l : coord_line al [c] = Ok l -> False.
Proof. unfold coord_line. intros H. apply bind_ok in H as (rc & H & _). eapply one_char; eauto. Qed.

Lemma series_fields p i s : series_sp p i = Ok s ->
  (exists v, py_index (dgetN n_alignment p) i = Ok v /\ as_align v = Ok (sp_al s)) /\
  py_index (dgetN n_headers_coord p) i = Ok (VStr (sp_hc s)) /\
  py_index (dgetN n_composed p) i = Ok (sp_comp s) /\
  (exists v, py_index (dgetN n_data_starts p) i = Ok v /\ as_int v = Ok (sp_starts s)) /\
  (exists v, py_index (dgetN n_data_ends p) i = Ok v /\ (if truthy v then do z <- as_int v; Ok (Some z) else Ok None) = Ok (sp_ends s)) /\
  (exists v, py_index (dgetN n_time_alignment p) i = Ok v /\ as_int v = Ok (sp_ta s)) /\
  (exists v, py_index (dgetN n_time_header p) i = Ok v /\ as_theader v = Ok (sp_th s)) /\
  py_index (dgetN n_frequency p) i = Ok (VStr (sp_freq s)).
Proof.
  unfold series_sp. intros H. apply bind_ok in H as (d & D & H). unfold sp_of in H.
  repeat match type of H with bind _ _ = Ok _ => apply bind_ok in H; destruct H as (? & ? & H) end. injection H as <-.
  cbn [sp_al sp_hc sp_comp sp_starts sp_ends sp_ta sp_th sp_freq].
  repeat match goal with G : dgetE _ _ = Ok _ |- _ => apply dgetE_ok in G; apply (series_inv _ _ _ _ _ D) in G; destruct G as [_ G] end.
  assert (TX : forall v t, as_text v = Ok t -> v = VStr t) by (intros v t; destruct v; cbn; congruence).
  repeat match goal with G : as_text _ = Ok _ |- _ => apply TX in G; subst end.
  repeat split; eauto.
Qed.
Lemma theader_in v th t : as_theader v = Ok th -> In t (th_texts th) -> v = VStr t \/ exists l, v = VList l /\ In (VStr t) l.
Proof.
  destruct v as [| | | |u| |l| |]; cbn [as_theader]; try discriminate.
  - intros H. injection H as <-. intros [<-|[]]. auto.
  - intros H. apply bind_ok in H as (ts & M & H). injection H as <-. cbn [th_texts]. intros I. right. exists l. split; auto.
    revert ts M I. induction l as [|x l IH]; intros ts M I; cbn [mapM] in M; [injection M as <-; destruct I|].
    apply bind_ok in M as (y & Y & M). apply bind_ok in M as (ys & YS & M). injection M as <-. destruct I as [<-|I]; [left; destruct x; cbn in Y; congruence|right; eauto].
Qed.

Section Inside.
Variables (p p1 : dict) (SZ : Prop).
Hypothesis I : inside p p1.
Hypothesis HS : SZ \/ all_ends_given p.

Lemma kept k : k <> n_data_ends -> ~ In k searched -> dgetN k p1 = dgetN k p.
Proof. intros A B. apply (in_same _ _ I); auto. Qed.
Ltac kept_ := rewrite kept in * by first [discriminate|unfold searched; cbn; intuition discriminate].

Lemma layout_of i v al : py_index (dgetN n_alignment p1) i = Ok v -> as_align v = Ok al -> layout p i al.
Proof.
  intros V A. destruct (dgetN n_alignment p) eqn:E; try (right; exact E).
  all: left; rewrite (in_same _ _ I) in V by (try discriminate; left; rewrite E; discriminate);
    assert (W : v = VStr (pname match al with Vert => "vertical" | Horiz => "horizontal" end))
      by (unfold as_align in A; destruct (py_eq v (str_ "vertical")) eqn:X; [injection A as <-; apply py_eq_str in X; exact X|];
          destruct (py_eq v (str_ "horizontal")) eqn:Y; [injection A as <-; apply py_eq_str in Y; exact Y|discriminate]);
    destruct (index_value _ _ _ _ V) as [SV|(t0 & c & _ & B)]; [rewrite <- W; exact SV|rewrite B in W; destruct al; discriminate].
Qed.
Lemma offset_of i v z : py_index (dgetN n_time_alignment p1) i = Ok v -> as_int v = Ok z -> offset p i z.
Proof.
  intros V A. destruct (dgetN n_time_alignment p) eqn:E.
  1: right; split; [exact E|]; eapply (in_ta _ _ I); eauto.
  all: left; rewrite (in_same _ _ I) in V by (try discriminate; left; rewrite E; discriminate); exists v; split;
    [destruct (index_value _ _ _ _ V) as [SV|(t0 & c & _ & B)]; [exact SV|subst; discriminate]|intros n ->; cbn in A; congruence].
Qed.
Lemma starts_of i v z : py_index (dgetN n_data_starts p1) i = Ok v -> as_int v = Ok z -> starts_at p i z.
Proof.
  intros V A. kept_. exists v. split; [|intros n ->; cbn in A; congruence].
  destruct (index_value _ _ _ _ V) as [SV|(t0 & c & _ & B)]; [exact SV|subst; discriminate].
Qed.
Lemma end_of i z v : ends_at p i z -> py_index (dgetN n_data_ends p1) i = Ok v -> v = VInt z /\ z <> 0.
Proof.
  intros E V. destruct (in_end _ _ I _ _ E) as (l & L & N). rewrite L in V. cbn [py_index] in V. rewrite N in V. injection V as <-. split; auto. destruct E as [[_ E] _]. auto.
Qed.
Lemma letter_of i t : one_letter p i -> py_index (dgetN n_frequency p1) i = Ok (VStr t) -> List.length t = 1%nat.
Proof. intros (c & l & L & N) V. kept_. change (pname "frequency") with n_frequency in L. rewrite L in V. cbn [py_index] in V. rewrite N in V. injection V as <-. reflexivity. Qed.
Lemma name_of k i v t : k <> n_data_ends -> ~ In k searched -> py_index (dgetN k p1) i = Ok v -> (v = VStr t \/ exists l, v = VList l /\ In (VStr t) l) ->
  (exists rc, parse_coord t = Ok rc) -> coordinate p k i t.
Proof.
  intros A B V W (rc & R). rewrite kept in V by auto. exists v. split; auto. destruct (index_value _ _ _ _ V) as [SV|(u & c & _ & E)]; auto. exfalso. subst v. destruct W as [W|(l & W & _)]; [|discriminate].
  injection W as <-. eapply one_char; eauto.
Qed.
Lemma lies_at al t line pos : coord_line al t = Ok line -> lies al t (axis_row al line pos, axis_col al line pos) pos /\ exists rc, parse_coord t = Ok rc.
Proof.
  unfold coord_line. intros H. apply bind_ok in H as ([r c] & R & H). injection H as <-. split; [|eauto]. exists r, c. apply cell_named_iff in R. split; auto. destruct al; cbn; auto.
Qed.
Lemma sized_of i : (exists v, py_index (dgetN n_data_ends p1) i = Ok v /\ (if truthy v then do z <- as_int v; Ok (Some z) else Ok None) = Ok None) -> SZ.
Proof.
  destruct HS as [|AG]; auto. intros (v & V & E). exfalso. destruct (index_value _ _ _ _ V) as [SV|(t0 & c & _ & B)].
  - destruct (in_all _ _ I AG _ _ SV) as (z & -> & N). cbn [truthy] in E. replace (negb (z =? 0)) with true in E by lia. discriminate.
  - subst. discriminate.
Qed.
Lemma sized_freq i t : py_index (dgetN n_frequency p1) i = Ok (VStr t) -> List.length t <> 1%nat -> SZ.
Proof.
  destruct HS as [|[_ AG]]; auto. intros V N. exfalso. apply N. kept_. destruct (index_value _ _ _ _ V) as [SV|(t0 & c & _ & B)].
  - destruct (AG _ _ SV) as (c & E). injection E as ->. reflexivity.
  - injection B as ->. reflexivity.
Qed.
Ltac name_ := first [discriminate|unfold searched; cbn; intuition discriminate|eauto].
Lemma inside_covers i s : series_sp p1 i = Ok s -> covers (counts p) SZ s.
Proof.
  intros SS. destruct (series_fields _ _ _ SS) as ((va & VA & AA) & VH & VC & (vs & VS & AS) & (ve & VE & AE) & (vt & VT & AT) & (vh & TH & AH) & VF). split.
  - intros E. rewrite E in AE. eapply sized_of; eauto.
  - intros N. eapply sized_freq; eauto.
  - intros r c R. eapply co_header; [eapply name_of with (v := VStr (sp_hc s)); name_|]. apply cell_named_iff. exact R.
  - intros cs t r c E J R. eapply co_composed; [eapply name_of with (v := sp_comp s); name_|]. apply cell_named_iff. exact R.
  - intros line pos L P1 P2. destruct (lies_at _ _ _ pos L) as [LA RC]. eapply co_value; [eapply name_of with (v := VStr (sp_hc s)); name_|eapply layout_of; eauto|exact LA|].
    exists (sp_starts s). split; [eapply starts_of; eauto|]. split; auto. intros z Z. apply P2. destruct (end_of _ _ _ Z VE) as [-> N]. cbn [truthy] in AE. replace (negb (z =? 0)) with true in AE by lia. cbn in AE. congruence.
  - intros t line pos J L B. destruct (lies_at _ _ _ pos L) as [LA RC]. eapply co_time; [eapply name_of with (v := vh); try name_; eapply theader_in; eauto|eapply layout_of; eauto|exact LA|].
    exists (sp_starts s), (sp_ta s). split; [eapply starts_of; eauto|]. split; [eapply offset_of; eauto|]. intros O. destruct (B (letter_of _ _ O VF)) as [B1 B2]. split; auto.
    intros z Z. apply B2. destruct (end_of _ _ _ Z VE) as [-> N]. cbn [truthy] in AE. replace (negb (z =? 0)) with true in AE by lia. cbn in AE. congruence.
Qed.
Lemma inside_query i q : pr_query p1 i = Ok q ->
  (List.length (q_freq q) <> 1%nat -> SZ /\ forall k, AP (counts p) (q_al q) (q_line q) k) /\
  (List.length (q_freq q) = 1%nat -> AP (counts p) (q_al q) (q_line q) (q_starts q + q_ta q) /\ AP (counts p) (q_al q) (q_line q) (q_ends q + q_ta q)).
Proof.
  unfold pr_query. intros H. apply bind_ok in H as (fr & FR & H). apply bind_ok in H as (fr' & FR' & H). apply bind_ok in H as (ds & DS & H). apply bind_ok in H as (ds' & DS' & H).
  apply bind_ok in H as (th & TH & H). apply bind_ok in H as (th' & TH' & H). apply bind_ok in H as (de & DE & H). apply bind_ok in H as (u1 & U1 & H). apply bind_ok in H as (de' & DE' & H).
  apply bind_ok in H as (ta & TA & H). apply bind_ok in H as (ta' & TA' & H). apply bind_ok in H as (al & AL & H). apply bind_ok in H as (al' & AL' & H).
  apply bind_ok in H as (u2 & U2 & H). apply bind_ok in H as (t & TS & H). apply bind_ok in H as (line & L & H). injection H as <-. cbn [q_freq q_al q_line q_starts q_ends q_ta].
  assert (fr = VStr fr') by (destruct fr; cbn in FR'; congruence). subst fr. apply single_from in TS.
  assert (LT : ds' < de') by (unfold assert_ in U2; destruct (ds' <? de') eqn:E; [lia|discriminate]).
  assert (G : forall k, (List.length fr' = 1%nat -> ds' + Z.min 0 ta' <= k <= de' + Z.max 1 ta') -> AP (counts p) al' line k).
  { intros k B. destruct (lies_at _ _ _ k L) as [LA RC]. eapply co_time; [eapply name_of with (v := th); try name_; eapply theader_in; eauto|eapply layout_of; eauto|exact LA|].
    exists ds', ta'. split; [eapply starts_of; eauto|]. split; [eapply offset_of; eauto|]. intros O. pose proof (B (letter_of _ _ O FR)). split; [lia|].
    intros z Z. destruct (end_of _ _ _ Z DE) as [-> N]. cbn in DE'. injection DE' as <-. lia. }
  split.
  - intros N. split; [eapply sized_freq; eauto|]. intros k. apply G. intros. contradiction.
  - intros _. split; apply G; intros _; lia.
Qed.
End Inside.

(** ** An attempt keeps inside *)
Lemma set_nth_value {A} i (x : A) : forall l j v, nth_error (set_nth i x l) j = Some v -> (j = i /\ v = x) \/ (j <> i /\ nth_error l j = Some v).
Proof.
  revert i. intros i l. revert i. induction l as [|y l IH]; intros [|i] [|j] v; cbn; intros H; try discriminate; auto.
  - left. split; congruence.
  - destruct (IH _ _ _ H) as [[-> ->]|[N E]]; auto.
Qed.
Lemma set_nth_kept {A} i (x : A) : forall l j v, nth_error l j = Some v -> j <> i -> nth_error (set_nth i x l) j = Some v.
Proof. intros l. revert i. induction l as [|y l IH]; intros [|i] [|j] v; cbn; intros H N; try discriminate; auto; try contradiction. Qed.

Lemma inside_set p p1 i z de : inside p p1 -> py_index (dgetN n_data_ends p1) i = Ok de -> truthy de = false -> inside p (set_end p1 i (VInt z)).
Proof.
  intros [A B C D] P T. pose proof (set_end_but p1 i (VInt z)) as BE. unfold set_end in *. destruct (dgetN n_data_ends p1) as [| | | | | |l| |] eqn:E; try (split; assumption).
  cbn [py_index] in P. destruct (nth_error l i) as [de'|] eqn:N; [|discriminate]. injection P as ->. split.
  - intros k K1 K2. unfold dgetN. rewrite BE by auto. apply A; auto.
  - intros M j v y. unfold dgetN. rewrite BE by discriminate. apply B; auto.
  - intros j y Y. destruct (C j y Y) as (l' & L' & N'). rewrite E in L'. injection L' as <-. exists (set_nth i (VInt z) l). split; [unfold dgetN; rewrite dget_dset; auto|].
    apply set_nth_kept; auto. intros ->. rewrite N in N'. injection N' as ->. destruct Y as [[_ Y] _]. cbn in T. lia.
  - intros AG j v (l' & L' & N'). unfold dgetN in L'. rewrite dget_dset in L'. injection L' as <-. apply set_nth_value in N' as [[-> ->]|[NE N']];
      [exfalso; destruct (D AG i de) as (y & -> & N0); [exists l; auto|cbn in T; lia]|].
    apply (D AG j). exists l. auto.
Qed.
Lemma inside_all p p1 z p2 : inside p p1 -> set_item p1 n_data_ends (VInt z) = (p2, Ok tt) -> (forall de, py_index (dgetN n_data_ends p1) 0 = Ok de -> truthy de = false) ->
  (exists de, py_index (dgetN n_data_ends p1) 0 = Ok de) -> inside p p2.
Proof.
  intros [A B C D] S0 T (de & P). pose proof (set_item_but p1 (VInt z)) as BE. rewrite S0 in BE. cbn [fst] in BE. specialize (T de P). split.
  - intros k K1 K2. unfold dgetN. rewrite BE by auto. apply A; auto.
  - intros M j v y. unfold dgetN. rewrite BE by discriminate. apply B; auto.
  - intros j y (Y & z0 & Y0). exfalso. assert (E0 : ends_at p 0 z0) by (split; eauto). destruct (C 0%nat z0 E0) as (l' & L' & N'). rewrite L' in P. cbn [py_index] in P. rewrite N' in P. injection P as <-.
    destruct Y0 as [_ Y0]. cbn in T. lia.
  - intros AG j v _. exfalso. destruct (index_value _ _ _ _ P) as [SV|(t0 & c & _ & B0)].
    + destruct (D AG _ _ SV) as (y & -> & N). cbn in T. lia.
    + subst. discriminate.
Qed.

Section Attempt.
Variables (p : dict) (SZ : Prop) (e : env).
Hypothesis HS : SZ \/ all_ends_given p.
Notation agree_ := (agree (counts p) SZ).

Ltac fin := cbn [fst snd]; split; [reflexivity|split; [reflexivity|split; [assumption|intros; first [discriminate|assumption]]]].
Lemma many_agree n : forall i ends w w' p1, agree_ w w' -> inside p p1 ->
  let r := clean_many e n i ends w p1 in let r' := clean_many e n i ends w' p1 in
  snd r' = snd r /\ snd (fst r') = snd (fst r) /\ agree_ (fst (fst r)) (fst (fst r')) /\ inside p (snd (fst r)).
Proof.
  induction n as [|n IH]; intros i ends w w' p1 W I; cbn [clean_many]; [cbn [fst snd]; auto|].
  destruct (do thc <- py_index (dgetN n_time_header p1) i; as_text thc) as [t|x]; [|cbn [fst snd]; auto].
  destruct (find (fun kv => text_eqb t (fst kv)) ends) as [kv|].
  - destruct (py_index (dgetN n_data_ends p1) i) as [de|x] eqn:DE; [|cbn [fst snd]; auto].
    destruct (truthy de) eqn:T; apply IH; auto. eapply inside_set; eauto.
  - destruct (series_sp p1 i) as [s|x] eqn:SS; [|cbn [fst snd]; auto].
    destruct (index_agree _ _ e s w w' (inside_covers _ _ _ I HS _ _ SS) W) as [E A].
    destruct (clean_time_index e w s) as [w1 r1]. destruct (clean_time_index e w' s) as [w1' r1']. cbn [fst snd] in E, A. subst r1'.
    destruct (do z <- r1; do _ <- assert_ (negb (z =? 0)); Ok z) as [z|x]; [|cbn [fst snd]; auto].
    destruct (py_index (dgetN n_data_ends p1) i) as [de|x] eqn:DE; [|cbn [fst snd]; auto].
    destruct (truthy de) eqn:T; apply IH; auto. eapply inside_set; eauto.
Qed.
Lemma clean_agree w w' p1 : agree_ w w' -> inside p p1 ->
  let r := clean_data e w p1 in let r' := clean_data e w' p1 in
  snd r' = snd r /\ snd (fst r') = snd (fst r) /\ agree_ (fst (fst r)) (fst (fst r')) /\ (snd r = Ok tt -> inside p (snd (fst r))).
Proof.
  intros W I. unfold clean_data. destruct (py_index (dgetN n_time_multicolumn p1) 0) as [tm|x]; [|fin]. destruct (truthy tm).
  - destruct (series_sp p1 0) as [s|x] eqn:SS; [|fin].
    destruct (index_agree _ _ e s w w' (inside_covers _ _ _ I HS _ _ SS) W) as [E A].
    destruct (clean_time_index e w s) as [w1 r1]. destruct (clean_time_index e w' s) as [w1' r1']. cbn [fst snd] in E, A. subst r1'.
    destruct r1 as [z|x]; [|fin]. destruct (py_index (dgetN n_data_ends p1) 0) as [de|x] eqn:DE; [|fin]. destruct (truthy de) eqn:T; [fin|].
    destruct (set_item p1 n_data_ends (VInt z)) as [p2 r2] eqn:SI. cbn [fst snd]. split; [reflexivity|split; [reflexivity|split; [exact A|]]]. intros ->. eapply inside_all; eauto. intros de' D'. congruence.
  - destruct (py_len (dgetN n_time_header p1)) as [n|x]; [|fin].
    destruct (many_agree n 0 [] w w' p1 W I) as (A & B & C & D). auto.
Qed.
Lemma init_agree p1 : inside p p1 -> forall n i w w' fs, agree_ w w' ->
  snd (init_frames e n i w' p1 fs) = snd (init_frames e n i w p1 fs) /\ agree_ (fst (init_frames e n i w p1 fs)) (fst (init_frames e n i w' p1 fs)).
Proof.
  intros I. induction n as [|n IH]; intros i w w' fs W; cbn [init_frames]; [cbn; auto|].
  destruct (pr_query p1 i) as [q|x] eqn:Q; [|cbn; auto]. destruct (inside_query _ _ _ I HS _ _ Q) as [Q1 Q2].
  rewrite (prs_agree _ _ e w w' _ _ _ _ _ _ W Q1 Q2).
  destruct (series_prs e w _ _ _ _ _ _) as [prs|x]; [|cbn; auto].
  pose proof (touch_prs_agree _ _ w w' (q_freq q) (q_starts q) (q_line q) (q_ends q) (q_ta q) (q_al q) W) as W1.
  destruct (foldM add_frame prs fs) as [fs'|x]; [|cbn; auto]. apply IH; auto.
Qed.
Lemma fill_agree p1 : inside p p1 -> forall n i w w' fs, agree_ w w' ->
  snd (fill_frames e n i w' p1 fs) = snd (fill_frames e n i w p1 fs) /\ agree_ (fst (fill_frames e n i w p1 fs)) (fst (fill_frames e n i w' p1 fs)).
Proof.
  intros I. induction n as [|n IH]; intros i w w' fs W; cbn [fill_frames]; [cbn; auto|].
  destruct (series_sp p1 i) as [s|x] eqn:SS; [|cbn; auto].
  destruct (into_agree _ _ e w w' s fs (inside_covers _ _ _ I HS _ _ SS) W) as [E A].
  destruct (series_into e w s fs) as [w1 r1]. destruct (series_into e w' s fs) as [w1' r1']. cbn [fst snd] in E, A. subst r1'.
  destruct r1 as [fs'|x]; [|cbn; auto]. apply IH; auto.
Qed.
Lemma all_agree p1 w w' : inside p p1 -> agree_ w w' -> snd (get_data_all e w' p1) = snd (get_data_all e w p1).
Proof.
  intros I W. unfold get_data_all. destruct (zip_len p1) as [n|x]; auto.
  destruct (init_agree p1 I n 0 w w' [] W) as [E A]. destruct (init_frames e n 0 w p1 []) as [w1 r1]. destruct (init_frames e n 0 w' p1 []) as [w1' r1']. cbn [fst snd] in E, A. subst r1'.
  destruct r1 as [fs|x]; auto. destruct (py_len (dgetN n_headers_coord p1)) as [m|x]; auto.
  destruct (fill_agree p1 I m 0 w1 w1' fs A) as [E2 _]. destruct (fill_frames e m 0 w1 p1 fs) as [w2 r2]. destruct (fill_frames e m 0 w1' p1 fs) as [w2' r2']. cbn [fst snd] in *. subst. reflexivity.
Qed.
Lemma full_agree w w' p1 : agree_ w w' -> inside p p1 -> snd (attempt_full e w' p1) = snd (attempt_full e w p1).
Proof.
  intros W I. destruct (clean_agree w w' p1 W I) as (A & B & C & D). unfold attempt_full.
  destruct (clean_data e w p1) as [[w1 p2] r1]. destruct (clean_data e w' p1) as [[w1' p2'] r1']. cbn [fst snd] in *. subst.
  destruct r1 as [[]|x]; auto. pose proof (all_agree p2 w1 w1' (D eq_refl) C) as G.
  destruct (get_data_all e w1 p2) as [w2 r2]. destruct (get_data_all e w1' p2) as [w2' r2']. exact G.
Qed.
End Attempt.
