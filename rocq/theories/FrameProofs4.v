(** The columns of a frame are the series, in order. *)
From Verif Require Import Base BaseFacts Cal SpecCal CalFacts Coord Params ParseTime TimeIndex PeriodRange GetData DataFrame Scrape Xlseries SpecTime SpecData TimeProofs
  SpecScrape ScrapeFacts SpecFrames CalProofs RangeProofs FrameProofs FrameProofs2 FrameProofs3 CleanReal.
From Coq Require Import Sorted.
Local Open Scope Z_scope.

Lemma belonging_app pr : forall a b l, belonging pr (a ++ b) l -> exists l1 l2, l = l1 ++ l2 /\ belonging pr a l1 /\ belonging pr b l2.
Proof.
  induction a as [|x a IH]; intros b l B; cbn [app] in B.
  - exists [], l. split; auto. split; auto. constructor.
  - inversion B; subst.
    + destruct (IH _ _ H3) as (l1 & l2 & -> & A & C). exists (x :: l1), l2. split; auto. split; auto. constructor; auto.
    + destruct (IH _ _ H3) as (l1 & l2 & -> & A & C). exists l1, l2. split; auto. split; auto. apply be_out; auto.
Qed.
Lemma belonging_in pr : forall l l', belonging pr l l' -> forall x, In x l' -> In x l /\ same_periods pr (fst x).
Proof. induction 1; intros x I; [destruct I| |]; [destruct I as [<-|I]; [split; [left; auto|auto]|]|]; destruct (IHbelonging x I); split; auto; right; auto. Qed.
Lemma belonging_once pr : forall l l', belonging pr l l' ->
  (forall j k a b, nth_error l j = Some a -> nth_error l k = Some b -> same_periods pr (fst a) -> same_periods pr (fst b) -> j = k) -> l' = [] \/ exists x, l' = [x].
Proof.
  induction 1 as [|x l l' SP B IH|x l l' SP B IH]; intros U; auto.
  - right. exists x. f_equal. destruct l' as [|y l']; auto. exfalso. destruct (belonging_in _ _ _ B y) as [I Sy]; [left; auto|].
    apply In_nth_error in I. destruct I as (n & N). specialize (U 0%nat (S n) x y eq_refl N SP Sy). discriminate.
  - apply IH. intros j k a b A C S1 S2. specialize (U (S j) (S k) a b A C S1 S2). congruence.
Qed.
Lemma letters_nodup fr : forall n cs, letters_of fr n cs -> NoDup cs.
Proof.
  induction 1; auto; [constructor|]. apply NoDup_rev in IHletters_of. rewrite <- (rev_involutive (cs ++ [c])). apply NoDup_rev. rewrite rev_app_distr. cbn. constructor; auto. rewrite <- in_rev. auto.
Qed.
Lemma pandas_inj f g n : pandas_name f n -> pandas_name g n -> f = g.
Proof. destruct 1; inversion 1; auto. Qed.
Lemma once_each e w s ps pr l : contributes e w s ps -> belonging pr ps l -> l = [] \/ exists x, l = [x].
Proof.
  intros C B. eapply belonging_once; eauto. intros j k a b A D SA SB. destruct (c36_letters _ _ _ _ C) as (cs & L & F).
  destruct (F _ _ A) as (f & nm & N1 & P1 & Q1). destruct (F _ _ D) as (g & nm' & N2 & P2 & Q2).
  destruct SA as [SA _], SB as [SB _]. rewrite SA in SB. rewrite SB in Q1. rewrite Q1 in Q2. apply T_inj in Q2. subst nm'.
  pose proof (pandas_inj _ _ _ P1 P2) as E. injection E as <-. apply letters_nodup in L. rewrite NoDup_nth_error in L. apply L; [apply nth_error_Some; congruence|congruence].
Qed.
Lemma contributes_column e w s ps pc : contributes e w s ps -> In pc ps -> exists nvs, get_data e w s = Ok nvs /\ In (snd pc) nvs.
Proof. intros (w' & t & line & en & prs & nvs & SC & GD & IC & CL & EN & NE & SP & ->) I. destruct pc as [a b]. apply in_combine_r in I. eauto. Qed.
Lemma columns_idx e w p pr : forall cs k l, (forall i ps, nth_error cs i = Some ps -> exists s, series_sp p (k + i) = Ok s /\ contributes e w s ps) ->
  belonging pr (List.concat cs) l ->
  exists idx, StronglySorted lt idx /\ Forall (fun i => (k <= i)%nat) idx /\ Forall2 (column_from e w p) idx (map snd l).
Proof.
  induction cs as [|ps cs IH]; intros k l F B; cbn [List.concat] in B.
  - inversion B; subst. exists []. split; constructor; constructor.
  - apply belonging_app in B. destruct B as (l1 & l2 & -> & B1 & B2). destruct (IH (S k) l2) as (idx & S1 & K1 & F1); auto.
    { intros i q N. replace (S k + i)%nat with (k + S i)%nat by lia. apply F. auto. }
    destruct (F 0%nat ps eq_refl) as (s & SS & C). rewrite Nat.add_0_r in SS.
    destruct (once_each _ _ _ _ _ _ C B1) as [-> | (x & ->)].
    + exists idx. split; auto. split; auto. eapply Forall_impl; [|exact K1]. cbn. intros; lia.
    + exists (k :: idx). split; [constructor; auto|]. split; [constructor; [lia|eapply Forall_impl; [|exact K1]; cbn; intros; lia]|].
      cbn [app map]. constructor; auto. destruct (belonging_in _ _ _ B1 x) as [I _]; [left; auto|]. destruct (contributes_column _ _ _ _ _ C I) as (nvs & G & J). exists s, nvs. auto.
Qed.
Lemma forall2_in_r {A B} (R : A -> B -> Prop) l l' : Forall2 R l l' -> forall b, In b l' -> exists a, In a l /\ R a b.
Proof. induction 1; intros b I; [destruct I|]. destruct I as [<-|I]; [exists x; split; [left|]; auto|]. destruct (IHForall2 b I) as (a & J & K). exists a. split; [right|]; auto. Qed.
Lemma c35_columns e w p w' dfs d : get_data_all e w p = (w', Ok dfs) -> In d dfs ->
  exists idx cols, StronglySorted lt idx /\ Forall2 (column_from e w p) idx cols /\ column_names (map fst cols) (df_cols d) /\ df_data d = map snd cols.
Proof.
  intros G I. apply c36_frames in G. destruct G as (cs & prs & PL & CS & F2 & _ & _). destruct (forall2_in_r _ _ _ F2 _ I) as (pr & _ & ps & B & (_ & CN & D)).
  destruct (columns_idx e w p pr cs 0 ps) as (idx & S1 & _ & F); auto. exists idx, (map snd ps). split; auto. split; auto. rewrite !map_map. split; auto.
Qed.
Lemma c35_unique e uni json st wb u q safe preserve st' out name pid d :
  get_data_frames e uni json st wb u q safe preserve = (st', Ok (out, name, pid)) -> frame_of out d -> NoDup (df_cols d).
Proof.
  intros H. refine (get_good (fun d => NoDup (df_cols d)) _ _ _ _ _ _ _ _ _ _ _ _ _ _ H d). intros e' w p w' dfs G. apply Forall_forall. intros x I.
  destruct (c35_columns _ _ _ _ _ _ G I) as (idx & cols & _ & _ & CN & _). eapply column_names_nodup; eauto.
Qed.
Lemma snoc_inv {A} (l : list A) : forall l' a b, l ++ [a] = l' ++ [b] -> l = l' /\ a = b.
Proof. intros. apply app_inj_tail; auto. Qed.
Lemma names_det ns : forall cols cols', column_names ns cols -> column_names ns cols' -> cols = cols'.
Proof.
  intros cols cols' H. revert cols'. induction H as [|ns n cols col C IH N]; intros cols' H'.
  - inversion H'; auto. destruct ns; discriminate.
  - inversion H' as [E|ns' n' cols2 col2 C' N' E]; [destruct ns; discriminate|]. apply snoc_inv in E. destruct E as [-> ->]. pose proof (IH _ C') as <-. f_equal. f_equal.
    destruct N as (i & Hi & -> & NI & F), N' as (j & Hj & -> & NJ & G). destruct (Z.lt_trichotomy i j) as [L|[-> | L]]; auto; exfalso; [apply NI; apply G; lia|apply NJ; apply F; lia].
Qed.
Lemma c35_not_renamed ns n cols cols' : column_names ns cols -> column_names (ns ++ [n]) cols' -> exists col, cols' = cols ++ [col] /\ next_name cols n col.
Proof.
  intros C H. inversion H as [E|ns' n' cols2 col2 C' N' E]; [destruct ns; discriminate|]. apply snoc_inv in E. destruct E as [-> ->]. rewrite (names_det _ _ _ C C'). eauto.
Qed.
