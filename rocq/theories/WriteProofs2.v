(** Proofs for C91: the attempt. *)
From Coq Require Import ZifyBool ZifyNat.
From Verif Require Import Base BaseFacts Cal Coord CoordFacts XlMethods Params ParseTime TimeIndex TimeProofs GetData PeriodRange DataFrame Scrape Xlseries
  SpecCoord SpecCoordFacts SpecParams ParamsProofs3 SpecAttempts SpecTime SpecData DataFacts SpecReach SpecFrames SpecScrape ScrapeFacts ScrapeProofs ScrapeProofs2 ReachProofs ReachProofs2 ReachProofs3 SpecSelect SelectProofs SelectProofs2 SelectProofs3 SelectProofs4 SpecNaming SpecValue SpecWrite WriteProofs.
Local Open Scope Z_scope.

Section Write.
Variables (n : nat) (p p' : dict) (e : env).
Hypothesis LP : lists n p.
Hypothesis LP' : lists n p'.
Hypothesis OM : other_marks n p p'.
Let P := labels p.
Definition ch2 (w w' : worksheet) : Prop :=
  agree P True w w' /\ forall i r c, (i < n)%nat -> on_values p i r c -> same_reading p p' i (cell w r c) (cell w' r c).
Record off2 (s : sp) : Prop := {
  o2_head : forall r c, parse_coord (sp_hc s) = Ok (r, c) -> P r c;
  o2_comp : forall cs t r c, sp_comp s = VList cs -> In (VStr t) cs -> parse_coord t = Ok (r, c) -> P r c;
  o2_times : forall t line pos, In t (th_texts (sp_th s)) -> coord_line (sp_al s) t = Ok line -> AP P (sp_al s) line pos
}.
Definition bare2 (s : sp) : sp :=
  mksp (sp_al s) VNone [] VNone VNone (sp_starts s) (sp_ends s) (sp_cont s) (sp_blank s) (sp_missings s) (sp_mv s) (sp_ta s) (sp_multi s) (sp_th s) (sp_composed s) (sp_freq s).
Definition short2 (s : sp) : sp :=
  mksp (sp_al s) (sp_name s) (sp_hc s) (sp_comp s) (sp_ctx s) (sp_starts s) (Some (sp_starts s - 1)) (sp_cont s) (sp_blank s) (sp_missings s) (sp_mv s) (sp_ta s) (sp_multi s) (sp_th s) (sp_composed s) (sp_freq s).
Lemma bare2_covers s : off2 s -> covers P True (bare2 s).
Proof.
  intros O. split; cbn [bare2 sp_ends sp_freq sp_hc sp_comp sp_al sp_starts sp_th sp_ta]; try (intros; exact I).
  - intros r c H. discriminate H.
  - intros cs t r c H. discriminate H.
  - intros line pos H. discriminate H.
  - intros t line pos J L _. eapply (o2_times _ O); eauto.
Qed.
Lemma short2_covers s : off2 s -> covers P True (short2 s).
Proof.
  intros O. split; cbn [short2 sp_ends sp_freq sp_hc sp_comp sp_al sp_starts sp_th sp_ta]; try (intros; exact I).
  - apply (o2_head _ O).
  - apply (o2_comp _ O).
  - intros line pos _ A B. specialize (B _ eq_refl). lia.
  - intros t line pos J L _. eapply (o2_times _ O); eauto.
Qed.
Lemma marks_det q i ms ms' : marks q i ms -> marks q i ms' -> ms' = ms.
Proof. intros [(l & A & B) _] [(l' & A' & B') _]. congruence. Qed.
(** what the cleaning writes is read the same *)
Lemma written_alike i v : (i < n)%nat -> v = VNone \/ (exists d, v = VDate d) -> same_reading p p' i v v.
Proof.
  intros I V. destruct OM as [_ M]. destruct (M i I) as (ms & ms' & A & B & C). apply (sr_same _ _ _ _ _ ms ms'); auto. right. destruct V as [->|(d & ->)].
  - split; [apply sd_other; discriminate|]. split; [discriminate|]. apply C. auto.
  - split; [apply sd_other; discriminate|]. split; [discriminate|]. split; intros J; exfalso; [destruct (proj2 B _ J) as [X|(t & X)]|destruct (proj2 A _ J) as [X|(t & X)]]; discriminate.
Qed.

Lemma index2 s w w' : off2 s -> ch2 w w' ->
  snd (clean_time_index e w' s) = snd (clean_time_index e w s) /\ ch2 (fst (clean_time_index e w s)) (fst (clean_time_index e w' s)).
Proof.
  intros O (A & V).
  assert (E : forall u, clean_time_index e u (bare2 s) = clean_time_index e u s) by (intros u; apply clean_alike; unfold SelectProofs.alike, bare2; cbn; repeat (split; [reflexivity|]); reflexivity).
  destruct (index_agree _ _ e (bare2 s) w w' (bare2_covers s O) A) as [B C]. rewrite !E in *. split; auto. split; auto.
  intros i r c I ON.
  assert (K : forall u, P r c \/ cell (fst (clean_time_index e u s)) r c = cell u r c).
  { intros u. destruct (clean_time_index e u s) as [u1 rr] eqn:CT. cbn [fst]. destruct (clean_split _ _ _ _ _ CT) as [[-> _]|(L & tl & wl & TL & WL & CL)]; auto.
    destruct (write_from _ _ _ WL) as (t & T1 & T2).
    destruct (Z.eq_dec (match sp_al s with Vert => c | Horiz => r end) wl) as [Q|Q].
    - left. pose proof (o2_times _ O t wl (match sp_al s with Vert => r | Horiz => c end) T1 T2) as X. unfold AP, axis_row, axis_col in X. destruct (sp_al s); subst wl; exact X.
    - right. apply (c27_frame _ _ _ _ _ CT). intros q _ J. apply (index_cell_iff _ _ _ _ _ WL) in J as [J1 J2]. apply Q. unfold axis_row, axis_col in *. destruct (sp_al s); congruence. }
  assert (ONP : P r c -> same_reading p p' i (cell (fst (clean_time_index e w s)) r c) (cell (fst (clean_time_index e w' s)) r c)).
  { intros Q. rewrite (proj2 C r c Q). destruct (clean_time_index e w s) as [u1 rr] eqn:CT. cbn [fst]. destruct (c27_values _ _ _ _ _ CT r c) as [X|X].
    - rewrite X. pose proof (V i r c I ON) as R. rewrite (proj2 A r c Q) in R. exact R.
    - apply written_alike; auto. }
  destruct (K w) as [X|X]; auto. destruct (K w') as [Y|Y]; auto. rewrite X, Y. auto.
Qed.
Lemma name2 s w w' mv : off2 s -> ch2 w w' -> get_name e w' (remark s mv) = get_name e w s.
Proof. intros O (A & _). change (get_name e w' (remark s mv)) with (get_name e w' s). exact (name_agree _ _ e w w' (short2 s) (short2_covers s O) A). Qed.
Lemma added2 w w' s q nv mv : off2 s -> ch2 w w' -> to_be_added w' (remark s mv) q nv = to_be_added w s q nv.
Proof.
  intros O (A & _). change (to_be_added w' (remark s mv) q nv) with (to_be_added w' s q nv). unfold to_be_added. destruct (sp_cont s); auto. destruct (time_line (sp_al s) (sp_multi s) (sp_th s)) as [l|] eqn:L; cbn [bind]; auto.
  destruct (line_from _ _ _ _ L) as (t & T1 & T2). rewrite (read_agree P True w w'); auto. apply (o2_times _ O t); auto.
Qed.
(** series [i] in both *)
Record series2 (i : nat) (s : sp) (ms ms' : list pyval) : Prop := {
  s2_i : (i < n)%nat;
  s2_off : off2 s;
  s2_mv : sp_mv s = VList ms;
  s2_marks : marks p i ms;
  s2_marks' : marks p' i ms';
  s2_missings : forall b, series_value p n_missings i (VBool b) -> sp_missings s = b;
  s2_on : forall l q, coord_line (sp_al s) (sp_hc s) = Ok l -> sp_starts s <= q -> on_values p i (axis_row (sp_al s) l q) (axis_col (sp_al s) l q);
  s2_implicit : In (VStr (pname "Implicit")) ms' <-> In (VStr (pname "Implicit")) ms
}.
Lemma taken2 i s ms ms' v v' : series2 i s ms ms' -> same_reading p p' i v v' -> taken (remark s (VList ms')) v' = taken s v.
Proof.
  intros H [m m' M M' -> K|b m m' y B M M' T T' R R'].
  - pose proof (marks_det _ _ _ _ M (s2_marks _ _ _ _ H)). pose proof (marks_det _ _ _ _ M' (s2_marks' _ _ _ _ H)). subst m m'.
    apply (taken_same s ms ms' v); [apply (s2_mv _ _ _ _ H)|apply (s2_marks _ _ _ _ H)|apply (s2_marks' _ _ _ _ H)|auto].
  - pose proof (marks_det _ _ _ _ M (s2_marks _ _ _ _ H)). pose proof (marks_det _ _ _ _ M' (s2_marks' _ _ _ _ H)). subst m m'. pose proof (s2_missings _ _ _ _ H b B) as SM. subst b.
    rewrite (taken_reads s ms v y); [|apply (s2_mv _ _ _ _ H)|apply M|auto|auto]. apply (taken_reads (remark s (VList ms')) ms' v' y); [reflexivity|apply M'|auto|exact R'].
Qed.
Lemma collect2 i s ms ms' w w' l : series2 i s ms ms' -> ch2 w w' -> coord_line (sp_al s) (sp_hc s) = Ok l -> forall qs, (forall q, In q qs -> sp_starts s <= q) -> collect w' (remark s (VList ms')) l qs = collect w s l qs.
Proof.
  intros H C L. induction qs as [|q qs IH]; intros GE; cbn [collect]; auto. specialize (IH (fun q0 J => GE q0 (or_intror J))). change (sp_al (remark s (VList ms'))) with (sp_al s).
  pose proof (proj2 C i _ _ (s2_i _ _ _ _ H) (s2_on _ _ _ _ H l q L (GE q (or_introl eq_refl)))) as R.
  unfold axis_read, read. destruct (cell_ok _ _); cbn [bind]; [|reflexivity]. pose proof (taken2 _ _ _ _ _ _ H R) as T. unfold taken in T. rewrite T.
  match goal with |- bind ?r _ = bind ?r _ => destruct r as [nv|]; cbn [bind]; auto end. rewrite (added2 w w' s q nv (VList ms')) by (auto; apply (s2_off _ _ _ _ H)). rewrite IH. auto.
Qed.
Lemma values2 i s ms ms' w w' : series2 i s ms ms' -> ch2 w w' -> get_values e w' (remark s (VList ms')) = get_values e w s.
Proof.
  intros H C. unfold get_values. change (sp_ends (remark s (VList ms'))) with (sp_ends s). change (sp_al (remark s (VList ms'))) with (sp_al s). change (sp_hc (remark s (VList ms'))) with (sp_hc s).
  change (sp_starts (remark s (VList ms'))) with (sp_starts s). change (sp_freq (remark s (VList ms'))) with (sp_freq s). change (sp_missings (remark s (VList ms'))) with (sp_missings s). change (sp_th (remark s (VList ms'))) with (sp_th s). change (sp_mv (remark s (VList ms'))) with (VList ms').
  destruct (sp_ends s) as [en|]; auto. destruct (coord_line (sp_al s) (sp_hc s)) as [l|] eqn:L; cbn [bind]; auto. cbv zeta.
  rewrite (collect2 i s ms ms' w w' l H C L) by (intros q J; apply zrange_In in J; lia). destruct (collect w s l _) as [vs|]; cbn [bind]; auto.
  match goal with |- bind ?r _ = bind ?r _ => destruct r as [g|]; cbn [bind]; auto end.
  rewrite (s2_mv _ _ _ _ H). cbn [py_in].
  rewrite (in_marks2 ms ms' (str_ "Implicit") (str_ "Implicit")); [|apply (s2_marks _ _ _ _ H)|apply (s2_marks' _ _ _ _ H)|apply (s2_implicit _ _ _ _ H)].
  match goal with |- bind ?r _ = bind ?r _ => destruct r as [im|]; cbn [bind]; auto end.
  destruct (im && _); auto. destruct g; auto. destruct (write_line (sp_al s) (sp_th s)) as [tl|] eqn:TL; cbn [bind]; auto.
  destruct (write_from _ _ _ TL) as (t & T1 & T2).
  rewrite (mapM_ext (axis_read (sp_al s) w' tl) (axis_read (sp_al s) w tl)) by (intros q _; apply (read_agree P True); [apply C|apply (o2_times _ (s2_off _ _ _ _ H) t); auto]). auto.
Qed.
Lemma touch_prs2 w w' f st l en ta al : ch2 w w' -> ch2 (touch_prs w f st l en ta al) (touch_prs w' f st l en ta al).
Proof. intros (A & B). split; [apply touch_prs_agree; auto|]. unfold touch_prs. destruct (accepts_freq false f); auto. Qed.
Lemma touch_data2 w w' s : ch2 w w' -> ch2 (touch_data w s) (touch_data w' s).
Proof. intros (A & B). split; [apply touch_data_agree; auto|]. unfold touch_data. destruct (sp_ends s); auto. destruct (coord_line _ _); auto. cbv zeta. destruct (sp_cont s); auto. destruct (time_line _ _ _); auto. Qed.
Lemma into2 i s ms ms' w w' fs : series2 i s ms ms' -> ch2 w w' ->
  snd (series_into e w' (remark s (VList ms')) fs) = snd (series_into e w s fs) /\ ch2 (fst (series_into e w s fs)) (fst (series_into e w' (remark s (VList ms')) fs)).
Proof.
  intros H C. pose proof (s2_off _ _ _ _ H) as O. unfold series_into. change (find (fun k => dcombo_accepts k (remark s (VList ms'))) dcombos) with (find (fun k => dcombo_accepts k s) dcombos).
  destruct (find (fun k => dcombo_accepts k s) dcombos) as [kk|]; [|cbn; auto].
  unfold get_data. rewrite (name2 s w w' (VList ms') O C), (values2 i s ms ms' w w' H C). change (touch_data w' (remark s (VList ms'))) with (touch_data w' s).
  change (sp_al (remark s (VList ms'))) with (sp_al s). change (sp_starts (remark s (VList ms'))) with (sp_starts s). change (sp_ends (remark s (VList ms'))) with (sp_ends s).
  change (sp_freq (remark s (VList ms'))) with (sp_freq s). change (sp_th (remark s (VList ms'))) with (sp_th s). change (sp_multi (remark s (VList ms'))) with (sp_multi s). change (sp_ta (remark s (VList ms'))) with (sp_ta s).
  match goal with |- context [match ?d with Ok _ => _ | Err _ => _ end] => destruct d as [nvs|z]; [|cbn; auto] end.
  pose proof (touch_data2 w w' s C) as C1. destruct nvs as [|a nvs]; [cbn; auto|]. cbv zeta.
  destruct (th_single (sp_multi s) (sp_th s)) as [t|z] eqn:TS; cbn [bind]; [|cbn; auto]. apply single_from in TS.
  destruct (coord_line (sp_al s) t) as [l|z] eqn:L; cbn [bind]; [|cbn; auto]. destruct (sp_ends s) as [en|]; [|cbn; auto].
  assert (AL : forall q, AP P (sp_al s) l q) by (intros q; apply (o2_times _ O t); auto).
  rewrite (prs_agree P True e (touch_data w s) (touch_data w' s)) by (try apply C1; auto).
  destruct (series_prs _ _ _ _ _ _ _ _) as [prs|z]; cbn [bind]; cbn [fst snd]; [|cbn; auto]. split; [reflexivity|apply touch_prs2; auto].
Qed.

(** ** The objects *)
Record two2 (p1 p1' : dict) : Prop := {
  t2_in : inside p p1;
  t2_l : lists n p1;
  t2_l' : lists n p1';
  t2_same : forall k, k <> n_missing_value -> dget k p1' = dget k p1;
  t2_mv : dget n_missing_value p1' = dget n_missing_value p'
}.
Lemma t2_get p1 p1' k : two2 p1 p1' -> k <> n_missing_value -> dgetN k p1' = dgetN k p1.
Proof. intros T K. unfold dgetN. rewrite (t2_same _ _ T) by auto. auto. Qed.
Lemma t2_kept p1 p1' k : two2 p1 p1' -> In k ALL -> k <> n_data_ends -> dgetN k p1 = dgetN k p.
Proof. intros T K D. apply (in_same _ _ (t2_in _ _ T)); auto. left. destruct (LP k K) as (l & E & _). rewrite (dgetN_of _ _ _ E). discriminate. Qed.
Ltac name_ := first [discriminate|unfold searched; cbn; intuition discriminate|eauto].
Lemma off_in p1 i s : inside p p1 -> series_sp p1 i = Ok s -> off2 s.
Proof.
  intros I SS. destruct (series_fields _ _ _ SS) as ((va & VA & AA) & VH & VC & (vs & VS & AS) & (ve & VE & AE) & (vt & VT & AT) & (vh & TH & AH) & VF). split.
  - intros r c R. eapply (la_header p r c i (sp_hc s)); [eapply name_of with (v := VStr (sp_hc s)); name_|]. apply cell_named_iff. exact R.
  - intros cs t r c E J R. eapply (la_composed p r c i t); [eapply name_of with (v := sp_comp s); name_|]. apply cell_named_iff. exact R.
  - intros t line pos J L. destruct (lies_at _ _ _ pos L) as [LA RC]. eapply (la_time p _ _ i t (sp_al s) pos).
    + eapply name_of with (v := vh); try name_; eapply theader_in; eauto.
    + eapply layout_of; eauto.
    + exact LA.
Qed.
Lemma on_in p1 i s l q : inside p p1 -> series_sp p1 i = Ok s -> coord_line (sp_al s) (sp_hc s) = Ok l -> sp_starts s <= q -> on_values p i (axis_row (sp_al s) l q) (axis_col (sp_al s) l q).
Proof.
  intros I SS L GE. destruct (series_fields _ _ _ SS) as ((va & VA & AA) & VH & _ & (vs & VS & AS) & _). destruct (lies_at _ _ _ q L) as [LA RC].
  exists (sp_hc s), (sp_al s), q, (sp_starts s). split; [eapply name_of with (v := VStr (sp_hc s)); name_|]. split; [eapply layout_of; eauto|]. split; [exact LA|]. split; auto. eapply starts_of; eauto.
Qed.
Lemma at_value q i k v : series_value q k i v -> at_ q i k = v.
Proof. intros (l & A & B). unfold at_. rewrite A. apply nth_error_nth. auto. Qed.
Lemma query2 p1 i q k : inside p p1 -> pr_query p1 i = Ok q -> AP P (q_al q) (q_line q) k.
Proof.
  intros I. unfold pr_query. intros H. apply bind_ok in H as (fr & FR & H). apply bind_ok in H as (fr' & FR' & H). apply bind_ok in H as (ds & DS & H). apply bind_ok in H as (ds' & DS' & H).
  apply bind_ok in H as (th & TH & H). apply bind_ok in H as (th' & TH' & H). apply bind_ok in H as (de & DE & H). apply bind_ok in H as (u1 & U1 & H). apply bind_ok in H as (de' & DE' & H).
  apply bind_ok in H as (ta & TA & H). apply bind_ok in H as (ta' & TA' & H). apply bind_ok in H as (al & AL & H). apply bind_ok in H as (al' & AL' & H).
  apply bind_ok in H as (u2 & U2 & H). apply bind_ok in H as (t & TS & H). apply bind_ok in H as (line & L & H). injection H as <-. cbn [q_freq q_al q_line q_starts q_ends q_ta].
  apply single_from in TS. destruct (lies_at _ _ _ k L) as [LA RC]. eapply (la_time p _ _ i t al' k).
  - eapply name_of with (v := th); try name_; eapply theader_in; eauto.
  - eapply layout_of; eauto.
  - exact LA.
Qed.
Lemma sp2 p1 p1' i : two2 p1 p1' -> (i < n)%nat ->
  match series_sp p1 i with
  | Err x => series_sp p1' i = Err x
  | Ok s => exists ms ms', series2 i s ms ms' /\ series_sp p1' i = Ok (remark s (VList ms'))
  end.
Proof.
  intros T I. destruct OM as [_ M]. destruct (M i I) as (ms & ms' & A & B & C).
  assert (E : series_sp p1' i = do s <- series_sp p1 i; Ok (remark s (at_ p1' i n_missing_value))).
  { unfold series_sp. rewrite (get_at n p1 i (t2_l _ _ T) I), (get_at n p1' i (t2_l' _ _ T) I). cbn [bind]. apply (body_remark (at_ p1 i) (at_ p1' i)). intros k K. unfold at_. rewrite (t2_get p1 p1' k T K). auto. }
  destruct (series_sp p1 i) as [s|x] eqn:SS; cbn [bind] in E; auto. exists ms, ms'.
  assert (MB : sp_mv s = at_ p1 i n_missing_value /\ sp_missings s = truthy (at_ p1 i n_missings)).
  { unfold series_sp in SS. rewrite (get_at n p1 i (t2_l _ _ T) I) in SS. cbn [bind] in SS. apply (body_marks (at_ p1 i) s SS). }
  destruct MB as [MB1 MB2].
  assert (K : forall k, In k ALL -> k <> n_data_ends -> at_ p1 i k = at_ p i k) by (intros k K1 K2; unfold at_; rewrite (t2_kept p1 p1' k T K1 K2); auto).
  split.
  - split; auto.
    + eapply off_in; eauto. apply (t2_in _ _ T).
    + rewrite MB1, K by (try discriminate; cbn; tauto). apply at_value, A.
    + intros b SB. rewrite MB2, K by (try discriminate; cbn; tauto). rewrite (at_value _ _ _ _ SB). reflexivity.
    + intros l q L GE. eapply on_in; eauto. apply (t2_in _ _ T).
  - rewrite E. replace (at_ p1' i n_missing_value) with (VList ms'); auto. unfold at_, dgetN. rewrite (t2_mv _ _ T). fold (dgetN n_missing_value p'). symmetry. apply at_value, B.
Qed.
Lemma lists2 q l : lists n q -> List.length l = n -> lists n (dset n_data_ends (VList l) q).
Proof.
  intros L LL k K. destruct (text_eqb k n_data_ends) eqn:E.
  - apply text_eqb_eq in E. subst. exists l. rewrite dget_dset_same. auto.
  - apply text_eqb_neq in E. rewrite dget_dset_other by auto. apply L. auto.
Qed.
Lemma ends2 p1 p1' l : two2 p1 p1' -> List.length l = n -> inside p (dset n_data_ends (VList l) p1) -> two2 (dset n_data_ends (VList l) p1) (dset n_data_ends (VList l) p1').
Proof.
  intros T LL I. split; auto.
  - apply lists2; auto. apply (t2_l _ _ T).
  - apply lists2; auto. apply (t2_l' _ _ T).
  - intros k K. destruct (text_eqb k n_data_ends) eqn:E.
    + apply text_eqb_eq in E. subst. rewrite !dget_dset_same. auto.
    + apply text_eqb_neq in E. rewrite !dget_dset_other by auto. apply (t2_same _ _ T). auto.
  - rewrite dget_dset_other by discriminate. apply (t2_mv _ _ T).
Qed.
Lemma set_end2 p1 p1' i z de : two2 p1 p1' -> py_index (dgetN n_data_ends p1) i = Ok de -> truthy de = false -> two2 (set_end p1 i (VInt z)) (set_end p1' i (VInt z)).
Proof.
  intros T DE F. pose proof (inside_set _ _ _ z _ (t2_in _ _ T) DE F) as I. unfold set_end in *. rewrite (t2_get p1 p1' n_data_ends T) by discriminate.
  destruct (t2_l _ _ T n_data_ends) as (l & D & LL); [cbn; tauto|]. rewrite (dgetN_of _ _ _ D) in *. apply ends2; auto. rewrite set_nth_len. auto.
Qed.

Lemma many2 m : forall i ends w w' p1 p1', (i + m <= n)%nat -> ch2 w w' -> two2 p1 p1' ->
  let r := clean_many e m i ends w p1 in let r' := clean_many e m i ends w' p1' in
  snd r' = snd r /\ ch2 (fst (fst r)) (fst (fst r')) /\ two2 (snd (fst r)) (snd (fst r')).
Proof.
  induction m as [|m IH]; intros i ends w w' p1 p1' N W T; cbn [clean_many]; [cbn [fst snd]; auto|].
  rewrite (t2_get p1 p1' n_time_header T), (t2_get p1 p1' n_data_ends T) by discriminate.
  destruct (do thc <- py_index (dgetN n_time_header p1) i; as_text thc) as [t|z]; [|cbn [fst snd]; auto].
  destruct (find (fun kv => text_eqb t (fst kv)) ends) as [kv|].
  - destruct (py_index (dgetN n_data_ends p1) i) as [de|z] eqn:DE; [|cbn [fst snd]; auto].
    destruct (truthy de) eqn:F; apply IH; auto; try lia. eapply set_end2; eauto.
  - pose proof (sp2 p1 p1' i T ltac:(lia)) as S2. destruct (series_sp p1 i) as [s|z] eqn:SS; [|rewrite S2; cbn [fst snd]; auto]. destruct S2 as (ms & ms' & S2 & ->).
    rewrite (clean_remark e w' s ms ms' (s2_mv _ _ _ _ S2)).
    destruct (index2 s w w' (s2_off _ _ _ _ S2) W) as [E A].
    destruct (clean_time_index e w s) as [w1 r1]. destruct (clean_time_index e w' s) as [w1' r1']. cbn [fst snd] in E, A. subst r1'.
    destruct (do z <- r1; do _ <- assert_ (negb (z =? 0)); Ok z) as [z|z]; [|cbn [fst snd]; auto].
    destruct (py_index (dgetN n_data_ends p1) i) as [de|z'] eqn:DE; [|cbn [fst snd]; auto].
    destruct (truthy de) eqn:F; apply IH; auto; try lia. eapply set_end2; eauto.
Qed.
Hypothesis N : (0 < n)%nat.
Hypothesis NS : get_num_series p = Some n.
Hypothesis NS' : get_num_series p' = Some n.
Lemma two_start : two2 p p'.
Proof. split; auto; [apply inside_refl|]. apply OM. Qed.
Lemma clean2 w w' : ch2 w w' ->
  let r := clean_data e w p in let r' := clean_data e w' p' in
  snd r' = snd r /\ ch2 (fst (fst r)) (fst (fst r')) /\ (snd r = Ok tt -> two2 (snd (fst r)) (snd (fst r'))).
Proof.
  intros W. pose proof two_start as T. unfold clean_data. rewrite (t2_get p p' n_time_multicolumn T), (t2_get p p' n_data_ends T), (t2_get p p' n_time_header T) by discriminate.
  destruct (py_index (dgetN n_time_multicolumn p) 0) as [tm|z]; [|cbn [fst snd]; auto]. destruct (truthy tm).
  - pose proof (sp2 p p' 0 T N) as S2. destruct (series_sp p 0) as [s|z] eqn:SS; [|rewrite S2; cbn [fst snd]; auto]. destruct S2 as (ms & ms' & S2 & ->).
    rewrite (clean_remark e w' s ms ms' (s2_mv _ _ _ _ S2)). destruct (index2 s w w' (s2_off _ _ _ _ S2) W) as [E A].
    destruct (clean_time_index e w s) as [w1 r1]. destruct (clean_time_index e w' s) as [w1' r1']. cbn [fst snd] in E, A. subst r1'.
    destruct r1 as [z|z]; [|cbn [fst snd]; auto]. destruct (py_index (dgetN n_data_ends p) 0) as [de|z'] eqn:DE; [|cbn [fst snd]; auto]. destruct (truthy de) eqn:F; [cbn [fst snd]; auto|].
    assert (SI : forall q, get_num_series q = Some n -> set_item q n_data_ends (VInt z) = (dset n_data_ends (VList (repeat (VInt z) n)) q, Ok tt)).
    { intros q NQ. unfold set_item. change (text_eqb n_data_ends n_context) with false. change (text_eqb n_data_ends n_headers_coord) with false. cbn [andb].
      unfold set_general. rewrite NQ. cbn [valid_param_list bind]. change (valid_values n_data_ends) with (Ok [VType TyInt; VNone]). cbn [bind].
      assert (V : valid_param_value (VInt z) [VType TyInt; VNone] = true) by reflexivity. rewrite V. cbn [negb].
      unfold apply_to_all. change (text_eqb n_data_ends n_time_header) with false. change (text_eqb n_data_ends n_missing_value) with false. cbn [bind].
      unfold apply_to_all_gen. cbn [is_none andb]. clear - N. destruct n; [lia|]. reflexivity. }
    assert (IA : inside p (dset n_data_ends (VList (repeat (VInt z) n)) p)) by (eapply (inside_all p p z _ (inside_refl p) (SI p NS)); [intros de' D'; congruence|eauto]).
    rewrite !SI by auto. cbn [fst snd]. split; [reflexivity|split; [exact A|]]. intros _. apply ends2; auto. apply repeat_length.
  - destruct (LP n_time_header) as (l & D & LL); [cbn; tauto|]. rewrite (dgetN_of _ _ _ D). cbn [py_len].
    destruct (many2 (List.length l) 0 [] w w' p p' ltac:(lia) W T) as (A & B & C). auto.
Qed.
Lemma init2 p1 p1' : two2 p1 p1' -> forall m i w w' fs, ch2 w w' ->
  snd (init_frames e m i w' p1' fs) = snd (init_frames e m i w p1 fs) /\ ch2 (fst (init_frames e m i w p1 fs)) (fst (init_frames e m i w' p1' fs)).
Proof.
  intros T. induction m as [|m IH]; intros i w w' fs W; cbn [init_frames]; [cbn; auto|].
  assert (PQ : pr_query p1' i = pr_query p1 i) by (unfold pr_query; rewrite !(t2_get p1 p1' _ T) by discriminate; reflexivity).
  rewrite PQ. destruct (pr_query p1 i) as [q|z] eqn:Q; [|cbn; auto]. pose proof (fun k => query2 _ _ _ k (t2_in _ _ T) Q) as Q1.
  rewrite (prs_agree P True e w w' _ _ _ _ _ _ (proj1 W)) by auto.
  destruct (series_prs e w _ _ _ _ _ _) as [prs|z]; [|cbn; auto].
  pose proof (touch_prs2 w w' (q_freq q) (q_starts q) (q_line q) (q_ends q) (q_ta q) (q_al q) W) as W1.
  destruct (foldM add_frame prs fs) as [fs'|z]; [|cbn; auto]. apply IH; auto.
Qed.
Lemma fill2 p1 p1' : two2 p1 p1' -> forall m i w w' fs, (i + m <= n)%nat -> ch2 w w' -> snd (fill_frames e m i w' p1' fs) = snd (fill_frames e m i w p1 fs).
Proof.
  intros T. induction m as [|m IH]; intros i w w' fs B W; cbn [fill_frames]; auto.
  pose proof (sp2 p1 p1' i T ltac:(lia)) as S2. destruct (series_sp p1 i) as [s|z] eqn:SS; [|rewrite S2; auto]. destruct S2 as (ms & ms' & S2 & ->).
  destruct (into2 i s ms ms' w w' fs S2 W) as [E A].
  destruct (series_into e w s fs) as [w1 [f1|z]]; destruct (series_into e w' (remark s (VList ms')) fs) as [w1' [f1'|z']]; cbn [fst snd] in E, A; try discriminate E; [|auto]. injection E as ->. apply IH; auto. lia.
Qed.
Lemma full2 w w' : ch2 w w' -> snd (attempt_full e w' p') = snd (attempt_full e w p).
Proof.
  intros W. destruct (clean2 w w' W) as (A & C & D). unfold attempt_full.
  destruct (clean_data e w p) as [[w1 p2] r1]. destruct (clean_data e w' p') as [[w1' p2'] r1']. cbn [fst snd] in *. subst.
  destruct r1 as [[]|z]; [|reflexivity]. specialize (D eq_refl).
  assert (G : snd (get_data_all e w1' p2') = snd (get_data_all e w1 p2)).
  { unfold get_data_all. assert (ZL : zip_len p2' = zip_len p2) by (unfold zip_len; cbn [mapM]; rewrite !(t2_get p2 p2' _ D) by discriminate; reflexivity).
    rewrite ZL, (t2_get p2 p2' n_headers_coord D) by discriminate. destruct (zip_len p2) as [m|z]; [|reflexivity].
    destruct (init2 p2 p2' D m 0 w1 w1' [] C) as [E A]. destruct (init_frames e m 0 w1 p2 []) as [w2 r2]. destruct (init_frames e m 0 w1' p2' []) as [w2' r2']. cbn [fst snd] in E, A. subst r2'.
    destruct r2 as [fs|z]; [|reflexivity]. destruct (t2_l _ _ D n_headers_coord) as (hs & DH & LH); [cbn; tauto|]. rewrite (dgetN_of _ _ _ DH). cbn [py_len].
    pose proof (fill2 p2 p2' D (List.length hs) 0 w2 w2' fs ltac:(lia) A) as E2. destruct (fill_frames e _ 0 w2 p2 fs) as [w3 r3]. destruct (fill_frames e _ 0 w2' p2' fs) as [w3' r3']. cbn [fst snd] in *. subst r3'. reflexivity. }
  destruct (get_data_all e w1 p2) as [w2 r2]. destruct (get_data_all e w1' p2') as [w2' r2']. exact G.
Qed.
End Write.
