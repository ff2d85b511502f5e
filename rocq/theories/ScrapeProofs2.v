(** Proofs of C21 - C23, C50 and C51: the entry point. *)
From Coq Require Import ZifyBool ZifyNat ZifyN.
From Verif Require Import Base BaseFacts Coord Comparing XlMethods Params ParseTime TimeIndex GetData PeriodRange DataFrame
  Attempts Scrape Xlseries SpecParams SpecAttempts SpecScrape ScrapeFacts ScrapeProofs.
Local Open Scope Z_scope.

(** ** the effect of scraping on the store *)
(** apart from sheet [si], and data_ends of the object [pi], nothing that
    existed changes *)
Lemma scrape_effect e safe st si pi : (si < List.length (st_sheets st))%nat -> (pi < List.length (st_params st))%nat ->
  let st' := fst (scrape e safe st si pi) in
  (forall i, (i < List.length (st_sheets st))%nat -> i <> si -> sheet st' i = sheet st i) /\
  (forall i, (i < List.length (st_params st))%nat -> i <> pi -> params st' i = params st i) /\
  but_ends (params st pi) (params st' pi).
Proof.
  intros Hs Hp. destruct (discover_parameters (params st pi)) as [l|x] eqn:D.
  - destruct (Nat.eq_dec (List.length l) 1) as [N|N].
    + assert (R : forall st1 p0, grows st st1 -> (p0 < List.length (st_params st1))%nat ->
        (p0 = pi \/ List.length (st_params st) <= p0)%nat -> scrape e safe st si pi =
          (let '(st2, r2) := run_attempt e st1 si p0 in (st2, do dfs <- r2; Ok (DL (map DF dfs), p0))) ->
        (forall i, (i < List.length (st_sheets st))%nat -> i <> si -> sheet (fst (scrape e safe st si pi)) i = sheet st i) /\
        (forall i, (i < List.length (st_params st))%nat -> i <> pi -> params (fst (scrape e safe st si pi)) i = params st i) /\
        but_ends (params st pi) (params (fst (scrape e safe st si pi)) pi)).
      { intros st1 p0 G L1 Lp ->.
        assert (Ls : (si < List.length (st_sheets st1))%nat) by (destruct G as [[m E] _]; rewrite E, app_length; lia).
        rewrite run_full by auto. destruct (attempt_full _ _ _) as [[w p] r] eqn:E. cbn [fst].
        split; [|split].
        - intros i Li Ni. unfold sheet at 1. cbn. rewrite nth_set_other by auto. apply (grows_sheet st st1); auto.
        - intros i Li Ni. unfold params at 1. cbn. rewrite nth_set_other by lia. apply (grows_params st st1); auto.
        - unfold params at 2. cbn. destruct (Nat.eq_dec p0 pi) as [->|Np].
          + rewrite nth_set_same by auto. rewrite <- (grows_params st st1 pi) by auto. eapply attempt_full_but; eauto.
          + rewrite nth_set_other by auto. fold (params st1 pi). rewrite (grows_params st st1) by auto. apply but_ends_refl. }
      destruct (attempt_objects_one _ _ _ D N) as [[A _]|A].
      * apply (R st pi); auto using grows_refl. unfold scrape. rewrite A. reflexivity.
      * apply (R (fst (alloc_params st l)) (List.length (st_params st))).
        -- pose proof (alloc_facts l st) as F. destruct (alloc_params st l). cbn. tauto.
        -- destruct (st1_facts st l) as [_ ->]. rewrite app_length. lia.
        -- auto.
        -- unfold scrape. rewrite A. reflexivity.
    + destruct (scrape_kept e safe st si pi l Hs D N) as [A B]. cbv zeta. split; [|split].
      * intros. apply A. auto.
      * intros. apply B. auto.
      * rewrite B by auto. apply but_ends_refl.
  - unfold scrape. rewrite (attempt_objects_err _ _ _ D). cbn [fst]. split; [|split]; auto using but_ends_refl.
Qed.
Lemma scrape_err_kept e safe st si pi x : discover_parameters (params st pi) = Err x -> fst (scrape e safe st si pi) = st.
Proof. intros D. unfold scrape. rewrite (attempt_objects_err _ _ _ D). auto. Qed.

(** ** copying the workbook *)
Lemma wb_ok_grows st st' wb : grows st st' -> wb_ok st wb -> wb_ok st' wb.
Proof.
  intros [[l E] _] H. eapply Forall_impl; [|exact H]. cbn. intros. rewrite E, app_length. lia.
Qed.
Lemma copy_wb_facts wb : forall st, wb_ok st wb -> let '(st', wb') := copy_wb st wb in
  grows st st' /\ st_params st' = st_params st /\ wb' = seq (List.length (st_sheets st)) (List.length wb) /\
  wb_ok st' wb' /\
  Forall2 (fun i j => sheet st' j = make_ws_copy (sheet st i)) wb wb'.
Proof.
  induction wb as [|i wb IH]; intros st H; cbn [copy_wb].
  - split; [apply grows_refl|]. repeat split; constructor.
  - inversion H; subst. pose proof (new_sheet_facts st (make_ws_copy (sheet st i))) as NF.
    destruct (new_sheet st (make_ws_copy (sheet st i))) as [st1 j]. destruct NF as [-> [G [Sh [Pp Ln]]]].
    specialize (IH st1 (wb_ok_grows _ _ _ G H3)). destruct (copy_wb st1 wb) as [st2 js].
    destruct IH as [G2 [P2 [J2 [W2 F2]]]].
    split; [eapply grows_trans; eauto|]. split; [congruence|].
    split; [rewrite J2, Ln; reflexivity|]. split.
    + constructor; auto. destruct G2 as [[m E] _]. rewrite E, app_length, Ln. lia.
    + constructor.
      * rewrite (grows_sheet st1 st2); auto. lia.
      * clear -F2 G H3. induction F2; constructor.
        -- inversion H3; subst. rewrite H. f_equal. apply grows_sheet; auto.
        -- apply IHF2. inversion H3; auto.
Qed.
Lemma copy_names st wb : wb_ok st wb -> sheetnames (fst (copy_wb st wb)) (snd (copy_wb st wb)) = sheetnames st wb.
Proof.
  intros H. pose proof (copy_wb_facts wb st H) as F. destruct (copy_wb st wb) as [st' wb']. cbn [fst snd].
  destruct F as [_ [_ [_ [_ F]]]]. unfold sheetnames. induction F; auto. cbn. rewrite H0.
  inversion H; subst. f_equal. auto.
Qed.
Lemma sheet_by_name_in st wb name i : sheet_by_name st wb name = Ok i -> In i wb /\ title (sheet st i) = name.
Proof.
  unfold sheet_by_name. destruct (find _ wb) eqn:E; intros H; [|discriminate]. inversion H; subst.
  apply find_some in E as [I E]. apply text_eqb_eq in E. auto.
Qed.

(** ** C21, C22 *)
Section Entry.
Variables (e : env) (uni : text -> text) (json : text -> res dict) (st : store) (wb : wb_obj) (u : uparams).
Variables (ws_name : option text) (safe preserve : bool).
Hypothesis Hw : wb_ok st wb.
Hypothesis Hu : in_store st u.

Definition start : store * wb_obj := if preserve then copy_wb st wb else (st, wb).
Lemma start_facts : grows st (fst start) /\ st_params (fst start) = st_params st /\ wb_ok (fst start) (snd start) /\
  (preserve = true -> forall i, In i (snd start) -> (List.length (st_sheets st) <= i)%nat).
Proof.
  unfold start. destruct preserve.
  - pose proof (copy_wb_facts wb st Hw) as F. destruct (copy_wb st wb) as [st' wb']. cbn.
    destruct F as [G [P [J [W _]]]]. split; [auto|]. split; [auto|]. split; [auto|]. intros _ i I. rewrite J in I. apply in_seq in I. lia.
  - cbn. split; [apply grows_refl|]. split; [auto|]. split; [auto|]. discriminate.
Qed.

(** either nothing was scraped, or a sheet of the (copied) workbook was, with
    the object in question *)
Lemma entry_cases : let st' := fst (get_data_frames e uni json st wb u ws_name safe preserve) in
  grows st st' \/
  exists st2 si pid p, grows st st2 /\ object_of json st u p /\ params st2 pid = p /\ (pid < List.length (st_params st2))%nat /\
    (si < List.length (st_sheets st2))%nat /\ (preserve = true -> (List.length (st_sheets st) <= si)%nat) /\
    (match u with UObj k => pid = k | UInput _ => (List.length (st_params st) <= pid)%nat end) /\
    st' = fst (scrape e safe st2 si pid).
Proof.
  cbv zeta. unfold get_data_frames. fold start. pose proof start_facts as SF. destruct start as [st1 wb1]. cbn [fst snd] in SF.
  destruct SF as [G [Pp [W1 Fresh]]].
  match goal with |- context [match ?x with Ok _ => _ | Err _ => _ end] => destruct x as [name|ex] end; [|left; auto].
  destruct (sheet_by_name st1 wb1 name) as [si|x] eqn:E; [|left; auto].
  apply sheet_by_name_in in E as [Isi _].
  assert (Lsi : (si < List.length (st_sheets st1))%nat) by (unfold wb_ok in W1; rewrite Forall_forall in W1; auto).
  destruct u as [i|pid]; cbn [params_obj].
  - destruct (make_params json i) as [p|x] eqn:M; [|left; auto]. cbn [new_params].
    set (st2 := mkstore _ _). set (pid := List.length (st_params st1)).
    right. exists st2, si, pid, p. split; [|split; [|split; [|split; [|split; [|split; [|split]]]]]].
    + eapply grows_trans; eauto. split; [exists []; cbn; rewrite app_nil_r; auto|exists [p]; auto].
    + constructor. auto.
    + unfold params, st2, pid. cbn. rewrite app_nth2, Nat.sub_diag; auto.
    + unfold st2, pid. cbn. rewrite app_length. cbn. lia.
    + auto.
    + intros Pr. apply Fresh; auto.
    + unfold pid. rewrite Pp. auto.
    + destruct (scrape e safe st2 si pid). auto.
  - right. exists st1, si, pid, (params st pid). split; [auto|]. split; [constructor|].
    split; [apply grows_params; auto|]. split; [rewrite Pp; auto|]. split; [auto|].
    split; [intros Pr; apply Fresh; auto|]. split; [auto|]. destruct (scrape e safe st1 si pid). auto.
Qed.

Lemma grows_kept s : grows st s -> sheets_kept st s /\ params_kept st s.
Proof. intros G. split; intros i L; [apply grows_sheet|apply grows_params]; auto. Qed.
Lemma grows_len s : grows st s -> (List.length (st_sheets st) <= List.length (st_sheets s))%nat /\
  (List.length (st_params st) <= List.length (st_params s))%nat.
Proof. intros [[a A] [b B]]. rewrite A, B, !app_length. lia. Qed.

Lemma c21_preserved : preserve = true -> sheets_kept st (fst (get_data_frames e uni json st wb u ws_name safe preserve)).
Proof.
  intros Pr. destruct entry_cases as [G|(st2 & si & pid & p & G & _ & _ & Lp & Ls & Fr & _ & E)]; [apply grows_kept; auto|].
  cbv zeta in *. rewrite E. intros i L. pose proof (grows_len _ G).
  destruct (scrape_effect e safe st2 si pid Ls Lp) as [A _]. cbv zeta in A. specialize (Fr Pr).
  rewrite A by lia. apply grows_sheet; auto.
Qed.
Lemma several_attempts_kept : (forall p l, object_of json st u p -> discover_parameters p = Ok l -> List.length l <> 1%nat) ->
  let st' := fst (get_data_frames e uni json st wb u ws_name safe preserve) in sheets_kept st st' /\ params_kept st st'.
Proof.
  intros Hm. cbv zeta. destruct entry_cases as [G|(st2 & si & pid & p & G & O & Ep & Lp & Ls & Fr & _ & E)]; [apply grows_kept; auto|].
  cbv zeta in *. rewrite E. pose proof (grows_len _ G) as GL.
  assert (K : sheets_kept st2 (fst (scrape e safe st2 si pid)) /\ params_kept st2 (fst (scrape e safe st2 si pid))).
  { destruct (discover_parameters (params st2 pid)) as [l|x] eqn:D.
    - apply (scrape_kept e safe st2 si pid l); auto. rewrite Ep in D. eauto.
    - rewrite (scrape_err_kept _ _ _ _ _ _ D). split; intros i _; auto. }
  destruct K as [K1 K2]. split; intros i L.
  - rewrite K1 by lia. apply grows_sheet; auto.
  - rewrite K2 by lia. apply grows_params; auto.
Qed.
Lemma c22_input i : u = UInput i -> params_kept st (fst (get_data_frames e uni json st wb u ws_name safe preserve)).
Proof.
  intros Eu. destruct entry_cases as [G|(st2 & si & pid & p & G & _ & _ & Lp & Ls & _ & K & E)]; [apply grows_kept; auto|].
  cbv zeta in *. rewrite E. rewrite Eu in K. intros j L. pose proof (grows_len _ G).
  destruct (scrape_effect e safe st2 si pid Ls Lp) as [_ [A _]]. cbv zeta in A.
  rewrite A by lia. apply grows_params; auto.
Qed.
Lemma c22_only_ends j k : (j < List.length (st_params st))%nat -> k <> n_data_ends ->
  dget k (params (fst (get_data_frames e uni json st wb u ws_name safe preserve)) j) = dget k (params st j).
Proof.
  intros L N. destruct entry_cases as [G|(st2 & si & pid & p & G & _ & _ & Lp & Ls & _ & _ & E)].
  - destruct (grows_kept _ G) as [_ K]. rewrite K; auto.
  - cbv zeta in *. rewrite E. pose proof (grows_len _ G).
    destruct (scrape_effect e safe st2 si pid Ls Lp) as [_ [A B]]. cbv zeta in A, B.
    rewrite <- (grows_params st st2 j) by auto. destruct (Nat.eq_dec j pid) as [->|Np].
    + apply B; auto.
    + rewrite A by lia. auto.
Qed.
End Entry.

(** ** C23 *)
Lemma find_first {A} (f : A -> bool) (P : A -> Prop) l : (forall x, f x = true <-> P x) ->
  match find f l with
  | Some x => first_such P l x
  | None => Forall (fun y => ~ P y) l
  end.
Proof.
  intros H. induction l as [|a l IH]; cbn; [constructor|]. destruct (f a) eqn:E.
  - exists [], l. split; auto. split; [apply H; auto|constructor].
  - assert (~ P a) by (rewrite <- H; congruence). destruct (find f l).
    + destruct IH as [l1 [l2 [-> [K F]]]]. exists (a :: l1), l2. split; auto.
    + constructor; auto.
Qed.
Lemma sanitize_spec uni q names : q <> [] ->
  (exists name, sanitize_ws_name uni q names = name /\ resolves uni strip names (Some q) name) \/
  (sanitize_ws_name uni q names = q /\ ~ In q names /\ forall name, ~ resolves uni strip names (Some q) name).
Proof.
  intros Hq. unfold sanitize_ws_name. destruct (text_in q names) eqn:E.
  - left. exists q. split; auto. apply res_exact; auto. apply text_in_In; auto.
  - assert (N : ~ In q names) by (intros I; apply text_in_In in I; congruence).
    pose proof (find_first (fun n => text_eqb (strip q) (strip n)) (fun n => strip q = strip n) names) as F.
    cbv beta in F. destruct (find _ names) as [n|] eqn:E1.
    + left. exists n. split; auto. apply res_trim; auto. apply F. intros. apply text_eqb_eq.
    + assert (F1 : Forall (fun n => strip q <> strip n) names) by (apply F; intros; apply text_eqb_eq).
      pose proof (find_first (fun n => text_eqb (strip (uni q)) (strip (uni n))) (fun n => strip (uni q) = strip (uni n)) names) as G.
      cbv beta in G. destruct (find (fun n => text_eqb (strip (uni q)) (strip (uni n))) names) as [n|] eqn:E2.
      * left. exists n. split; auto. apply res_fold; auto. apply G. intros. apply text_eqb_eq.
      * right. split; auto. split; auto.
        assert (G1 : Forall (fun n => strip (uni q) <> strip (uni n)) names) by (apply G; intros; apply text_eqb_eq).
        intros name R. rewrite Forall_forall in F1, G1. inversion R; subst; try congruence.
        -- match goal with S : first_such _ _ _ |- _ => destruct S as [l1 [l2 [-> [K _]]]] end. apply (F1 name); auto. apply in_app_iff. right. left. auto.
        -- match goal with S : first_such _ _ _ |- _ => destruct S as [l1 [l2 [-> [K _]]]] end. apply (G1 name); auto. apply in_app_iff. right. left. auto.
Qed.
Lemma first_such_det {A} (P : A -> Prop) l x y : first_such P l x -> first_such P l y -> x = y.
Proof.
  intros [l1 [l2 [-> [Px F1]]]]. revert l1 F1. intros l1 F1 [m1 [m2 [E [Py F2]]]].
  revert m1 E F2. induction l1 as [|a l1 IH]; intros [|b m1] E F2; cbn in E.
  - congruence.
  - inversion F2; subst. congruence.
  - inversion F1; subst. congruence.
  - inversion F1; inversion F2; subst. injection E as _ E. eauto.
Qed.
Lemma first_such_not {A} (P : A -> Prop) l x : first_such P l x -> Forall (fun y => ~ P y) l -> False.
Proof.
  intros [l1 [l2 [-> [Q _]]]] F. rewrite Forall_forall in F. apply (F x); auto. apply in_app_iff. right. left. auto.
Qed.
Lemma resolves_det folded trim names q a b : resolves folded trim names q a -> resolves folded trim names q b -> a = b.
Proof.
  intros H K. inversion H; subst; inversion K; subst; try congruence; eauto using first_such_det; exfalso;
    eauto using first_such_not.
Qed.

Lemma start_names st wb preserve : wb_ok st wb ->
  sheetnames (fst (start st wb preserve)) (snd (start st wb preserve)) = names_of st wb.
Proof. unfold start. destruct preserve; intros H; [rewrite copy_names; auto|auto]. Qed.

(** the name get_data_frames settles on *)
Definition name_chosen (uni : text -> text) (names : list text) (q : option text) : res text :=
  match q with
  | Some (c :: n) => Ok (sanitize_ws_name uni (c :: n) names)
  | _ => match names with n :: _ => Ok n | [] => Err EIndex end
  end.
Lemma name_chosen_spec uni names q :
  (exists name, name_chosen uni names q = Ok name /\ resolves uni strip names q name) \/
  ((forall name, ~ resolves uni strip names q name) /\
   (name_chosen uni names q = Err EIndex \/ exists name, name_chosen uni names q = Ok name /\ ~ In name names)).
Proof.
  unfold name_chosen. destruct q as [[|c n]|].
  - destruct names as [|m names]; [right; split; [intros name R; inversion R; subst; cbn in *; congruence|left; reflexivity]|].
    left. exists m. split; auto. constructor. auto.
  - destruct (sanitize_spec uni (c :: n) names) as [[name [E R]]|[E [N R]]]; [discriminate| |].
    + left. exists name. rewrite E. auto.
    + right. split; auto. right. exists (c :: n). rewrite E. auto.
  - destruct names as [|m names]; [right; split; [intros name R; inversion R; subst; cbn in *; congruence|left; reflexivity]|].
    left. exists m. split; auto. constructor. auto.
Qed.
Lemma resolves_In folded trim names q name : resolves folded trim names q name -> In name names.
Proof.
  intros H. inversion H; subst; auto; try (destruct names; [discriminate|left; cbn in *; congruence]).
  all: match goal with S : first_such _ _ _ |- _ => destruct S as [l1 [l2 [-> _]]] end; apply in_app_iff; right; left; auto.
Qed.
Lemma by_name_first st wb name : In name (sheetnames st wb) -> exists i, sheet_by_name st wb name = Ok i /\
  first_such (fun i => title (sheet st i) = name) wb i.
Proof.
  intros I. unfold sheet_by_name.
  pose proof (find_first (fun i => text_eqb (title (sheet st i)) name) (fun i => title (sheet st i) = name) wb) as F.
  cbv beta in F. destruct (find _ wb) as [i|].
  - exists i. split; auto. apply F. intros. apply text_eqb_eq.
  - exfalso. apply in_map_iff in I as [i [E I]]. assert (F' := F ltac:(intros; apply text_eqb_eq)).
    rewrite Forall_forall in F'. apply (F' i); auto.
Qed.
Lemma by_name_none st wb name : ~ In name (sheetnames st wb) -> sheet_by_name st wb name = Err EKey.
Proof.
  intros N. unfold sheet_by_name. destruct (find _ wb) eqn:E; auto. apply find_some in E as [I E].
  apply text_eqb_eq in E. exfalso. apply N. rewrite <- E. unfold sheetnames. apply in_map_iff. exists n. auto.
Qed.

Section Names.
Variables (e : env) (uni : text -> text) (json : text -> res dict) (st : store) (wb : wb_obj) (u : uparams).
Variables (q : option text) (safe preserve : bool).
Hypothesis Hw : wb_ok st wb.
Hypothesis Hu : in_store st u.

Lemma gdf_unfold : get_data_frames e uni json st wb u q safe preserve =
  let st1 := fst (start st wb preserve) in
  let wb1 := snd (start st wb preserve) in
  match name_chosen uni (names_of st wb) q with
  | Err x => (st1, Err x)
  | Ok name =>
      match sheet_by_name st1 wb1 name with
      | Err x => (st1, Err x)
      | Ok si =>
          let '(st2, rp) := params_obj json st1 u in
          match rp with
          | Err x => (st2, Err x)
          | Ok pid =>
              let '(st3, r) := scrape e safe st2 si pid in
              (st3, do x <- r; Ok (unwrap_result (fst x), name, snd x))
          end
      end
  end.
Proof.
  rewrite <- (start_names st wb preserve Hw). unfold get_data_frames, name_chosen, start.
  destruct (if preserve then copy_wb st wb else (st, wb)). reflexivity.
Qed.

Lemma c23_result st' out name pid : get_data_frames e uni json st wb u q safe preserve = (st', Ok (out, name, pid)) ->
  resolves uni strip (names_of st wb) q name.
Proof.
  rewrite gdf_unfold. cbv zeta. destruct (name_chosen_spec uni (names_of st wb) q) as [[m [E R]]|[N [E|[m [E I]]]]]; rewrite E; intros H.
  - destruct (sheet_by_name _ _ _); [|discriminate]. destruct (params_obj _ _ _) as [s [p|x]]; [|discriminate].
    destruct (scrape _ _ _ _ _) as [s3 [y|x]]; [|discriminate]. injection H as _ _ <- _. exact R.
  - discriminate.
  - rewrite <- (start_names st wb preserve Hw) in I. rewrite by_name_none in H by auto. discriminate.
Qed.
Lemma c23_unresolved : (forall name, ~ resolves uni strip (names_of st wb) q name) ->
  raises (snd (get_data_frames e uni json st wb u q safe preserve)) /\
  sheets_kept st (fst (get_data_frames e uni json st wb u q safe preserve)) /\
  params_kept st (fst (get_data_frames e uni json st wb u q safe preserve)).
Proof.
  intros N. rewrite gdf_unfold. cbv zeta.
  pose proof (start_facts st wb preserve Hw) as [G _].
  assert (K := grows_kept st _ G).
  destruct (name_chosen_spec uni (names_of st wb) q) as [[m [E R]]|[_ [E|[m [E I]]]]]; [exfalso; eapply N; eauto| |]; rewrite E.
  - split; [exists EIndex; auto|exact K].
  - rewrite <- (start_names st wb preserve Hw) in I. rewrite by_name_none by auto. split; [exists EKey; auto|exact K].
Qed.
Lemma first_such_map {A B} (f : A -> B) (P : B -> Prop) l b : first_such P (map f l) b ->
  exists a, f a = b /\ first_such (fun x => P (f x)) l a.
Proof.
  intros [l1 [l2 [E [Pb F]]]]. apply map_eq_app in E as [a1 [a2 [-> [E1 E2]]]].
  destruct a2 as [|a a2]; [discriminate|]. injection E2 as <- <-. exists a. split; auto.
  exists a1, a2. split; auto. split; auto. subst l1. rewrite Forall_map in F. auto.
Qed.
Lemma c23_sheet name p : resolves uni strip (names_of st wb) q name -> object_of json st u p ->
  exists i st2 si pid, first_such (fun i => title (sheet st i) = name) wb i /\
    (preserve = false -> si = i /\ sheet st2 si = sheet st i) /\
    (preserve = true -> sheet st2 si = make_ws_copy (sheet st i)) /\
    params st2 pid = p /\ (si < List.length (st_sheets st2))%nat /\ (pid < List.length (st_params st2))%nat /\
    snd (get_data_frames e uni json st wb u q safe preserve) =
      (do x <- snd (scrape e safe st2 si pid); Ok (unwrap_result (fst x), name, snd x)).
Proof.
  intros R O. rewrite gdf_unfold. cbv zeta.
  destruct (name_chosen_spec uni (names_of st wb) q) as [[m [E R2]]|[N _]]; [|exfalso; eapply N; eauto].
  assert (m = name) by (eapply resolves_det; eauto). subst m. rewrite E.
  assert (I : In name (sheetnames (fst (start st wb preserve)) (snd (start st wb preserve)))).
  { rewrite start_names by auto. eapply resolves_In; eauto. }
  destruct (by_name_first _ _ _ I) as [si [Es Fs]]. rewrite Es.
  destruct (start_facts st wb preserve Hw) as [G [Pp [W _]]].
  set (st1 := fst (start st wb preserve)) in *. set (wb1 := snd (start st wb preserve)) in *.
  assert (Lsi : (si < List.length (st_sheets st1))%nat).
  { apply sheet_by_name_in in Es as [Is _]. unfold wb_ok in W. rewrite Forall_forall in W. auto. }
  assert (Hi : exists i, first_such (fun i => title (sheet st i) = name) wb i /\
     (preserve = false -> si = i /\ sheet st1 si = sheet st i) /\ (preserve = true -> sheet st1 si = make_ws_copy (sheet st i))).
  { unfold st1, wb1 in *. clear st1 wb1. destruct preserve eqn:Pr.
    - pose proof (copy_wb_facts wb st Hw) as F. unfold start in *. destruct (copy_wb st wb) as [st' wb']. cbn [fst snd] in *.
      destruct F as [_ [_ [_ [_ F]]]]. destruct Fs as [l1 [l2 [-> [T1 F1]]]].
      apply Forall2_app_inv_r in F as [k1 [k2 [A [B ->]]]]. inversion B as [|i0 ? k2' ? Hi Hr]; subst.
      exists i0. split; [|split; [discriminate|auto]]. exists k1, k2'. split; auto. split.
      + rewrite Hi. reflexivity.
      + clear -A F1. induction A; constructor.
        * inversion F1; subst. rewrite H in H2. exact H2.
        * inversion F1; auto.
    - unfold start in *. cbn in *. exists si. split; auto. split; [auto|discriminate]. }
  destruct Hi as [i [Fi [Pf Pt]]].
  destruct O as [inp p M|pid]; cbn [params_obj].
  - rewrite M. cbn [new_params]. set (st2 := mkstore (st_sheets st1) (st_params st1 ++ [p])).
    exists i, st2, si, (List.length (st_params st1)).
    split; [auto|]. split; [auto|]. split; [auto|]. split; [unfold params, st2; cbn; rewrite app_nth2, Nat.sub_diag; auto|].
    split; [auto|]. split; [unfold st2; cbn; rewrite app_length; cbn; lia|].
    destruct (scrape e safe st2 si _). reflexivity.
  - exists i, st1, si, pid. split; [auto|]. split; [auto|]. split; [auto|]. split; [apply grows_params; auto|].
    split; [auto|]. split; [rewrite Pp; auto|]. destruct (scrape e safe st1 si pid). reflexivity.
Qed.
End Names.

(** ** C50 *)
Lemma copy_same w : bounded w -> same_sheet w (make_ws_copy w).
Proof.
  intros B. split; [|split; [|split]]; auto. intros r c. cbn [make_ws_copy cell].
  destruct ((1 <=? r) && (r <=? max_row w) && (1 <=? c) && (c <=? max_col w)) eqn:E; auto.
  destruct (cell w r c) eqn:C; auto; exfalso; assert (K : cell w r c <> VNone) by (rewrite C; discriminate); apply B in K; lia.
Qed.
Lemma copy_bounded w : bounded (make_ws_copy w).
Proof.
  intros r c H. cbn [make_ws_copy cell max_row max_col] in *.
  destruct ((1 <=? r) && (r <=? max_row w) && (1 <=? c) && (c <=? max_col w)) eqn:E; [lia|congruence].
Qed.
Lemma touch_bounded r c w : bounded w -> bounded (touch r c w).
Proof. intros B x y H. apply B in H. cbn. lia. Qed.
Lemma write_bounded r c v w : 1 <= r -> 1 <= c -> bounded w -> bounded (write r c v w).
Proof.
  intros R C B x y H. cbn [write cell max_row max_col] in *.
  destruct ((x =? r) && (y =? c)) eqn:E; [lia|]. apply B in H. lia.
Qed.

(** ** C51 *)
Lemma accepts_mf t : t <> [] -> exists mf, forall b, accepts_freq b t = Bool.eqb b mf.
Proof.
  intros N. destruct t as [|a [|b t]]; [congruence|exists false|exists true]; intros []; reflexivity.
Qed.
Lemma one_dcombo p : sp_freq p <> [] -> exists! k, In k dcombos /\ dcombo_accepts k p = true.
Proof.
  intros N. destruct (accepts_mf _ N) as [mf A]. unfold dcombo_accepts.
  exists (mkdcombo mf (sp_cont p)). split.
  - split; [destruct mf, (sp_cont p); cbn; tauto|]. rewrite A. cbn [dk_multifreq dk_cont]. rewrite !eqb_reflx. auto.
  - intros [a b] [_ H]. rewrite A in H. cbn [dk_multifreq dk_cont] in H. apply andb_true_iff in H as [H K].
    apply eqb_prop in H, K. congruence.
Qed.
Lemma one_combo p : sp_freq p <> [] -> exists! k, In k combos /\ k_multitable k = false /\ combo_accepts k p = true.
Proof.
  intros N. destruct (accepts_mf _ N) as [mf A]. unfold combo_accepts, accepts_table, accepts_col, accepts_offset.
  set (z := sp_ta p =? 0). exists (mkcombo false (negb z) mf (sp_multi p)). split.
  - split; [destruct mf, z, (sp_multi p); cbn; tauto|]. split; auto. rewrite A. cbn [k_multitable k_multicol k_multifreq k_offset].
    rewrite eqb_reflx. destruct z, (sp_multi p); auto.
  - intros [a b c d] [_ [Ht H]]. cbn in Ht. subst a. rewrite A in H. cbn [k_multitable k_multicol k_multifreq k_offset] in H.
    destruct b, c, d, mf, z, (sp_multi p); auto; discriminate.
Qed.
Lemma one_prange p : sp_freq p <> [] -> exists! b, accepts_freq b (sp_freq p) = true.
Proof.
  intros N. destruct (accepts_mf _ N) as [mf A]. exists mf. split; [rewrite A; apply eqb_reflx|].
  intros b H. rewrite A in H. apply eqb_prop in H. auto.
Qed.
Lemma clean_is_single e w p : sp_freq p <> [] -> clean_time_index e w p = clean_single_table e w p.
Proof.
  intros N. destruct (accepts_mf _ N) as [mf A]. unfold clean_time_index, combos, combo_accepts, accepts_table, accepts_col, accepts_offset.
  cbn [flat_map map app find k_multitable k_multicol k_multifreq k_offset]. rewrite !A.
  destruct mf, (sp_ta p =? 0), (sp_multi p); reflexivity.
Qed.
Lemma none_empty p : sp_freq p = [] -> (forall k, combo_accepts k p = false) /\ (forall dk, dcombo_accepts dk p = false) /\
  forall b, accepts_freq b (sp_freq p) = false.
Proof.
  intros E. unfold combo_accepts, dcombo_accepts. rewrite E. split; [|split].
  - intros k. destruct (k_multifreq k); cbn; rewrite ?andb_false_r; auto.
  - intros dk. destruct (dk_multifreq dk); auto.
  - intros []; auto.
Qed.
