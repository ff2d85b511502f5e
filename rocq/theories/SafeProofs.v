(** Proofs for C92. *)
From Coq Require Import ZifyBool ZifyNat.
From Verif Require Import Base BaseFacts Cal Coord XlMethods Params ParamsFacts ParseTime TimeIndex GetData PeriodRange DataFrame Attempts AttemptsFacts AttemptsProofs Scrape Xlseries
  SpecParams ParamsProofs3 ParamsProofs SpecAttempts SpecReach SpecScrape ScrapeFacts ScrapeProofs ScrapeProofs2 SessionProofs ReachProofs ReachProofs2 ReachProofs3 EndBuild EndCall TurnProofs3 SelectProofs4 SpecLeave LeaveProofs.
Local Open Scope Z_scope.

Notation given dfs := (unwrap_result (DL (map DF dfs))).
Lemma unwrap_given dfs : unwrap dfs = given dfs.
Proof. destruct dfs as [|d [|d' dfs]]; reflexivity. Qed.
Lemma unwrap_twice dfs : unwrap_result (unwrap dfs) = given dfs.
Proof. destruct dfs as [|d [|d' dfs]]; reflexivity. Qed.
Lemma unique_starts : forall rs us out, unique_results rs us = Ok out -> exists more, out = us ++ more /\ incl more rs.
Proof.
  induction rs as [|r rs IH]; intros us out H; cbn [unique_results] in H; [injection H as <-; exists []; rewrite app_nil_r; split; auto; intros x []|].
  apply bind_ok in H as (b & _ & H). apply IH in H as (more & -> & I). destruct b.
  - exists more. split; auto. intros x X. right. auto.
  - exists (r :: more). rewrite <- app_assoc. split; auto. intros x [<-|X]; [left|right]; auto.
Qed.
Lemma successes_first e w : forall l a k dfs n, nth_error l k = Some a -> outcome e w a = Ok dfs -> (forall j b, (j < k)%nat -> nth_error l j = Some b -> raises (outcome e w b)) ->
  exists rest, successes e w (combine l (seq n (List.length l))) = dfs :: rest.
Proof.
  induction l as [|b l IH]; intros a k dfs n N O B; [destruct k; discriminate|]. destruct k as [|k].
  - injection N as ->. cbn [List.length seq combine successes flat_map fst]. rewrite O. eexists. reflexivity.
  - destruct (B 0%nat b) as (x & X); [lia|reflexivity|]. cbn [List.length seq combine successes flat_map fst]. rewrite X. cbn [app]. apply (IH a k dfs (S n)); auto.
    intros j c J C. apply (B (S j)); [lia|exact C].
Qed.

Section Safe.
Variables (e : env) (uni : text -> text) (json : text -> res dict) (st : store) (wb : wb_obj) (q : option text) (preserve : bool) (name : text) (i : nat).
Hypothesis WB : wb_ok st wb.
Hypothesis RES : resolves uni strip (names_of st wb) q name.
Hypothesis FS : first_such (fun i => title (sheet st i) = name) wb i.
Hypothesis BO : bounded (sheet st i).
Notation call safe u := (answered (snd (get_data_frames e uni json st wb u q safe preserve))).
Notation w0 := (if preserve then make_ws_copy (sheet st i) else sheet st i).
Lemma call_safe u p l : in_store st u -> object_of json st u p -> discover_parameters p = Ok l ->
  (exists k a dfs, nth_error l k = Some a /\ alone e w0 a = Ok dfs /\ (forall j b, (j < k)%nat -> nth_error l j = Some b -> raises (alone e w0 b)) /\
     forall x, call true u = Ok x -> x = given dfs \/ exists rest, rest <> [] /\ x = DL (given dfs :: rest) /\ forall r, In r rest -> exists a' dfs', In a' l /\ alone e w0 a' = Ok dfs' /\ r = given dfs') \/
  ((forall b, In b l -> raises (alone e w0 b)) /\ exists x, call true u = Err x).
Proof.
  intros IS OB D. destruct (c23_sheet e uni json st wb u q true preserve WB IS name p RES OB) as (j & st2 & si & pid & F1 & PF & PT & PP & S1 & S2 & ->).
  rewrite (first_such_det _ _ _ _ F1 FS) in *. assert (SH : sheet st2 si = w0) by (destruct preserve; [rewrite PT by auto; auto|]; destruct (PF eq_refl) as [_ ->]; auto).
  rewrite <- PP in D. rewrite <- SH. assert (BW : bounded (sheet st2 si)) by (rewrite SH; destruct preserve; auto; apply copy_bounded).
  assert (AC : forall a, alone e (make_ws_copy (sheet st2 si)) a = alone e (sheet st2 si) a) by (intros a; apply alone_copy; auto).
  assert (OC : forall a, outcome e (sheet st2 si) a = alone e (sheet st2 si) a) by (intros a; unfold outcome; rewrite <- alone_full; apply AC).
  destruct (first_good e (sheet st2 si) l) as [R|(k & a & dfs & N & O & B)].
  - right. split; auto. destruct (Nat.eq_dec (List.length l) 1) as [L|L].
    + destruct l as [|a [|]]; try discriminate. destruct (scrape_one_out e true st2 si pid _ a S1 S2 D eq_refl) as [E _]. unfold outputs in E. destruct (R a (or_introl eq_refl)) as (x & X). rewrite alone_full in X.
      destruct (snd (scrape e true st2 si pid)) as [y|y]; [|exists y; reflexivity]. exfalso. cbn [bind] in E. rewrite X in E. discriminate E.
    + destruct (c19_all_raise e true st2 si pid l S1 D L) as (st' & E). { intros b J. rewrite AC. auto. } rewrite E. exists EOther. reflexivity.
  - left. exists k, a, dfs. split; auto. split; auto. split; auto. intros x H. destruct (Nat.eq_dec (List.length l) 1) as [L|L].
    + left. destruct l as [|a' [|]]; try discriminate. destruct k as [|[|k]]; try discriminate. injection N as ->. destruct (scrape_one_out e true st2 si pid _ a S1 S2 D eq_refl) as [E _]. rewrite alone_full in O. rewrite O in E. unfold outputs in E.
      destruct (snd (scrape e true st2 si pid)) as [y|y]; cbn [bind] in E; [|discriminate E]. injection E as E. cbn [bind answered fst] in H. rewrite E in H. injection H as <-. reflexivity.
    + rewrite (scrape_many e true st2 si pid l S1 D L) in H. cbn [snd] in H.
      set (cl := combine l _) in H. destruct (unique_results (results_of e true (sheet st2 si) cl) []) as [us|y] eqn:U; cbn [bind] in H; [|discriminate H].
      pose proof (results_successes e (sheet st2 si) cl) as RS.
      destruct (successes_first e (sheet st2 si) l a k dfs (List.length (st_params st2)) N) as (rest & SU); [rewrite OC; auto|intros; rewrite OC; eauto|]. fold cl in SU. rewrite SU in RS.
      assert (IC : forall f, In f (dfs :: rest) -> exists a', In a' l /\ alone e (sheet st2 si) a' = Ok f). { intros f F. rewrite <- SU in F. apply successes_In in F as (a' & J & Q). exists a'. split; auto. rewrite <- OC. auto. }
      destruct (results_of e true (sheet st2 si) cl) as [|[r0 i0] rs]; [discriminate RS|]. cbn [map fst] in RS. injection RS as -> RS. cbn [unique_results fst is_repeated_result bind] in U. cbn [app] in U.
      apply unique_starts in U as (more & -> & IN). cbn [app] in H. destruct more as [|m more].
      * left. cbn [bind answered fst] in H. injection H as <-. apply unwrap_twice.
      * right. cbn [bind answered fst map] in H. injection H as <-. cbn [unwrap_result]. exists (map fst (m :: more)). split; [discriminate|]. split; [rewrite unwrap_given; reflexivity|].
        intros r J. apply in_map_iff in J as (y & <- & Y). apply IN in Y. apply (in_map fst) in Y. rewrite RS in Y. apply in_map_iff in Y as (f & <- & Y). destruct (IC f (or_intror Y)) as (a' & J & Q). exists a', f. split; auto. split; auto. apply unwrap_given.
Qed.

Variables (n : nat) (p : dict) (u : uparams).
Hypothesis LO : left_out n p.
Hypothesis US : in_store st u.
Hypothesis UO : object_of json st u p.
Lemma first_det l k a dfs k' a' dfs' : nth_error l k = Some a -> alone e w0 a = Ok dfs -> (forall j b, (j < k)%nat -> nth_error l j = Some b -> raises (alone e w0 b)) ->
  nth_error l k' = Some a' -> alone e w0 a' = Ok dfs' -> (forall j b, (j < k')%nat -> nth_error l j = Some b -> raises (alone e w0 b)) -> dfs = dfs'.
Proof.
  intros N A B N' A' B'. destruct (Nat.lt_trichotomy k k') as [L|[L|L]].
  - destruct (B' _ _ L N). congruence.
  - subst. congruence.
  - destruct (B _ _ L N'). congruence.
Qed.
Lemma c92_safe x : call true u = Ok x -> exists y, call false u = Ok y /\
  (x = y \/ exists rest, rest <> [] /\ x = DL (y :: rest) /\
     forall r, In r rest -> exists ch p', valid_choice ch /\ written_down n p ch p' /\ forall safe u', in_store st u' -> object_of json st u' p' -> call safe u' = Ok r).
Proof.
  intros H. destruct (searched_list name n p LO) as (m & missing & l & -> & PO & NS & TS & SE & D).
  destruct (call_safe u p l US UO D) as [(k & a & dfs & N & A & B & X)|[_ (y & Y)]]; [|congruence].
  destruct (call_search e uni json st wb q preserve name i WB RES FS BO u p l US UO D) as [(k' & a' & dfs' & N' & A' & B' & E)|[R _]]; [|destruct (R a (nth_error_In _ _ N)); congruence].
  rewrite <- (first_det l k a dfs k' a' dfs' N A B N' A' B') in E. exists (given dfs). split; auto. destruct (X x H) as [->|(rest & RN & -> & RI)]; auto.
  right. exists rest. split; auto. split; auto. intros r J. destruct (RI r J) as (b & f & IB & AB & ->). destruct (attempt_written p m missing PO NS TS SE l b D IB) as (ch & V & WD). exists ch, b. split; auto. split; auto.
  intros safe u' IS OB. destruct (shape p m missing PO NS TS SE l b D IB) as (c & _ & _ & _ & CO). rewrite (call_one e uni json st wb q preserve name i WB RES FS safe u' b IS OB CO), AB. reflexivity.
Qed.
Lemma c92_raises x : call false u = Err x -> exists y, call true u = Err y.
Proof.
  intros H. destruct (searched_list name n p LO) as (m & missing & l & -> & PO & NS & TS & SE & D).
  destruct (call_safe u p l US UO D) as [(k & a & dfs & N & A & B & X)|[_ Y]]; auto.
  destruct (call_search e uni json st wb q preserve name i WB RES FS BO u p l US UO D) as [(k' & a' & dfs' & N' & A' & B' & E)|[R _]]; [congruence|destruct (R a (nth_error_In _ _ N)); congruence].
Qed.
Lemma c92_nothing : (forall k, ~ unset p k) -> call true u = call false u.
Proof.
  intros NU. destruct (searched_list name n p LO) as (m & missing & l & -> & PO & NS & TS & SE & D).
  assert (CO : is_complete p = Ok true). { apply (enough_complete m p NS SE). intros k v I O ->. apply (NU k). split; auto. apply dget_NoDup; auto. apply object_NoDup; auto. }
  rewrite !(call_one e uni json st wb q preserve name i WB RES FS _ u p US UO CO). reflexivity.
Qed.
End Safe.
