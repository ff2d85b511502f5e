(** Turning a sheet and its parameters: the objects and the frames (C39). *)
From Coq Require Import ZifyBool ZifyNat.
From Verif Require Import Base BaseFacts Cal Coord CoordFacts XlMethods Params ParseTime TimeIndex GetData PeriodRange Attempts DataFrame Scrape Xlseries
  SpecCoord SpecCoordFacts SpecParams SpecTurn TurnProofs.
Local Open Scope Z_scope.

(** ** Parameters *)

(** a value of one series *)
Inductive turned_one (k : text) : pyval -> pyval -> Prop :=
| to_layout : k = n_alignment -> turned_one k (VStr (pname "horizontal")) (VStr (pname "vertical"))
| to_coord v v' : In k coord_names -> turned_entry v v' -> turned_one k v v'
| to_same v : k <> n_alignment -> ~ In k coord_names -> turned_one k v v.

Lemma F2_nth {A B} (R : A -> B -> Prop) l l' : Forall2 R l l' -> forall i a, nth_error l i = Some a -> exists b, nth_error l' i = Some b /\ R a b.
Proof. induction 1 as [|x y l l' H _ IH]; intros [|i] a E; cbn in *; try discriminate; [inversion E; subst; eauto|eauto]. Qed.
Lemma F2_length {A B} (R : A -> B -> Prop) l l' : Forall2 R l l' -> List.length l' = List.length l.
Proof. induction 1; cbn; congruence. Qed.
Lemma repeat_nth {A} (x : A) n i a : nth_error (repeat x n) i = Some a -> a = x /\ (i < n)%nat.
Proof. revert i. induction n as [|n IH]; intros [|i] E; cbn in E; try discriminate; [inversion E; split; [auto|lia]|]. apply IH in E as [-> L]. split; [auto|lia]. Qed.
Lemma nth_repeat_some {A} (x : A) n i : (i < n)%nat -> nth_error (repeat x n) i = Some x.
Proof. revert i. induction n as [|n IH]; intros [|i] L; cbn; auto; try lia. apply IH. lia. Qed.

Lemma index_turned_param k v v' i x : turned_param k v v' -> py_index v i = Ok x -> exists x', py_index v' i = Ok x' /\ turned_one k x x'.
Proof.
  intros [n K|l l' K F|K|u K1 K2] H; cbn [py_index] in *.
  - destruct (nth_error (repeat _ n) i) as [y|] eqn:E; [|discriminate]. inversion H; subst. apply repeat_nth in E as [-> L].
    rewrite nth_repeat_some by auto. eexists. split; [reflexivity|]. apply to_layout. reflexivity.
  - destruct (nth_error l i) as [y|] eqn:E; [|discriminate]. inversion H; subst. destruct (F2_nth _ _ _ F _ _ E) as (y' & -> & Y).
    eexists. split; [reflexivity|]. apply to_coord; auto.
  - discriminate.
  - exists x. split; auto. apply to_same; auto.
Qed.
Lemma none_turned k v v' : turned_param k v v' -> is_none v' = is_none v.
Proof. intros [n K|l l' K F|K|u K1 K2]; reflexivity. Qed.
Lemma len_turned k v v' n : turned_param k v v' -> py_len v = Ok n -> py_len v' = Ok n.
Proof.
  intros [m K|l l' K F|K|u K1 K2] H; cbn [py_len] in *; auto.
  - rewrite repeat_length in *. auto.
  - rewrite (F2_length _ _ _ F). auto.
Qed.

Section Objects.
Variables p p' : dict.
Hypothesis TP : turned_params p p'.
Lemma dget_turned k : match dget k p, dget k p' with
  | Some v, Some v' => turned_param k v v' | None, None => True | _, _ => False end.
Proof.
  induction TP as [|[a v] [b v'] q q' [E T] F IH]; cbn [dget fst snd] in *; auto. subst b.
  destruct (text_eqb k a) eqn:K; [|apply IH; auto]. apply text_eqb_eq in K. subst. auto.
Qed.
Lemma dgetN_turned k : turned_param k (dgetN k p) (dgetN k p') \/ dgetN k p = VNone /\ dgetN k p' = VNone.
Proof.
  unfold dgetN. pose proof (dget_turned k) as D. destruct (dget k p), (dget k p'); auto; contradiction.
Qed.
Lemma dgetN_same k : k <> n_alignment -> ~ In k coord_names -> dgetN k p' = dgetN k p.
Proof.
  intros K1 K2. destruct (dgetN_turned k) as [H|[-> ->]]; auto. inversion H; subst; auto; contradiction.
Qed.
Lemma index_turned_at k i x : py_index (dgetN k p) i = Ok x -> exists x', py_index (dgetN k p') i = Ok x' /\ turned_one k x x'.
Proof.
  intros H. destruct (dgetN_turned k) as [T|[E E']]; [eapply index_turned_param; eauto|]. rewrite E in H. discriminate.
Qed.
Lemma len_turned_at k n : py_len (dgetN k p) = Ok n -> py_len (dgetN k p') = Ok n.
Proof.
  intros H. destruct (dgetN_turned k) as [T|[E E']]; [eapply len_turned; eauto|]. rewrite E in H. discriminate.
Qed.
Lemma num_turned : get_num_series p' = get_num_series p.
Proof.
  unfold get_num_series. generalize (@None nat) as acc. induction TP as [|[a v] [b v'] q q' [E T] F IH]; intros acc; cbn [fold_left]; auto.
  rewrite (IH F). f_equal. cbn [fst snd] in *. subst b. destruct T as [m K|l l' K F'|K|u K1 K2]; auto.
  - rewrite !repeat_length. auto.
  - rewrite (F2_length _ _ _ F'). auto.
Qed.
Lemma dset_turned v : turned_params (dset n_data_ends v p) (dset n_data_ends v p').
Proof.
  assert (S0 : turned_param n_data_ends v v) by (apply tp_same; [discriminate|cbn; intuition discriminate]).
  unfold turned_params in *. induction TP as [|[a u] [b u'] q q' [E T] F IH]; cbn [dset].
  - constructor; auto.
  - cbn [fst snd] in *. subst b. destruct (text_eqb n_data_ends a) eqn:K; constructor; auto.
    cbn [fst snd]. apply text_eqb_eq in K. subst a. auto.
Qed.
Lemma set_end_turned i v : turned_params (set_end p i v) (set_end p' i v).
Proof.
  unfold set_end. rewrite (dgetN_same n_data_ends); [|discriminate|cbn; intuition discriminate].
  destruct (dgetN n_data_ends p); auto. apply dset_turned.
Qed.
Lemma set_item_turned z q : set_item p n_data_ends (VInt z) = (q, Ok tt) ->
  exists q', set_item p' n_data_ends (VInt z) = (q', Ok tt) /\ turned_params q q'.
Proof.
  unfold set_item. change (text_eqb n_data_ends n_context && truthy (VInt z)) with false. change (text_eqb n_data_ends n_headers_coord) with false. cbv iota.
  unfold set_general. rewrite num_turned.
  assert (A : forall vv ns d d', apply_to_all n_data_ends (VInt z) ns d vv = apply_to_all n_data_ends (VInt z) ns d' vv) by reflexivity.
  intros H.
  match type of H with match ?r with _ => _ end = _ => destruct r as [d|x] eqn:R; [|discriminate] end. inversion H; subst q. clear H.
  apply bind_ok in R as (good & G & R). rewrite G. cbn [bind]. destruct good; [inversion R; subst; eexists; split; [reflexivity|apply dset_turned]|].
  apply bind_ok in R as (vv & V & R). rewrite V. cbn [bind]. destruct (negb (valid_param_value (VInt z) vv)); [discriminate|].
  apply bind_ok in R as (v' & AP & R). rewrite (A _ _ _ p), AP. cbn [bind]. inversion R; subst. eexists; split; [reflexivity|apply dset_turned].
Qed.

(** *** the record of a series *)
Lemma series_dict_turned i d : get_series_params p i = Ok d -> exists d', get_series_params p' i = Ok d' /\
  Forall2 (fun a b => fst a = fst b /\ turned_one (fst a) (snd a) (snd b)) d d'.
Proof.
  unfold get_series_params. assert (G : forall ks acc acc' d,
    Forall2 (fun a b => fst a = fst b /\ turned_one (fst a) (snd a) (snd b)) acc acc' ->
    foldM (fun acc k => let v := dgetN k p in if is_none v then Ok acc else do x <- py_index v i; Ok (acc ++ [(k, x)])) ks acc = Ok d ->
    exists d', foldM (fun acc k => let v := dgetN k p' in if is_none v then Ok acc else do x <- py_index v i; Ok (acc ++ [(k, x)])) ks acc' = Ok d' /\
      Forall2 (fun a b => fst a = fst b /\ turned_one (fst a) (snd a) (snd b)) d d'); [|apply G; constructor].
  induction ks as [|k ks IH]; intros acc acc' d0 F H; cbn [foldM] in *; [inversion H; subst; eauto|].
  cbv zeta in *. assert (N : is_none (dgetN k p') = is_none (dgetN k p)).
  { destruct (dgetN_turned k) as [T|[-> ->]]; auto. eapply none_turned; eauto. }
  rewrite N. destruct (is_none (dgetN k p)); [cbn [bind] in *; eapply IH; eauto|].
  apply bind_ok in H as (a & A & H). apply bind_ok in A as (x & X & A). inversion A; subst a. destruct (index_turned_at _ _ _ X) as (x' & X' & T). rewrite X'. cbn [bind].
  eapply IH; [|exact H]. apply Forall2_app; auto.
Qed.
Lemma theader_turned v v' th : turned_entry v v' -> as_theader v = Ok th -> exists th', as_theader v' = Ok th' /\ turned_th th th'.
Proof.
  intros [t t' N| |l l' F] H; cbn [as_theader] in *; try discriminate.
  - inversion H; subst. eexists. split; [reflexivity|]. constructor. auto.
  - apply bind_ok in H as (ts & M & H). inversion H; subst. clear H.
    assert (G : exists ts', mapM as_text l' = Ok ts' /\ Forall2 turned_name ts ts').
    { revert ts M. induction F as [|x x' l l' X F IH]; intros ts M; cbn [mapM] in *; [inversion M; subst; eauto|].
      apply bind_ok in M as (t & A & M). apply bind_ok in M as (ts0 & B & M). inversion M; subst. destruct (IH _ B) as (ts' & -> & F').
      destruct X; try discriminate. cbn [as_text bind] in *. inversion A; subst. eexists. split; [reflexivity|]. constructor; auto. }
    destruct G as (ts' & -> & G). eexists. split; [reflexivity|]. constructor. auto.
Qed.
Lemma one_same k v v' : turned_one k v v' -> k <> n_alignment -> ~ In k coord_names -> v' = v.
Proof. intros [K|? ? K _|? K1 K2] N1 N2; auto; contradiction. Qed.
Lemma one_coord k v v' : turned_one k v v' -> In k coord_names -> turned_entry v v'.
Proof. intros [K|? ? K T|? K1 K2] N; auto; [|contradiction]. subst k. exfalso. revert N. cbn. intuition discriminate. Qed.
Lemma align_turned v v' al : turned_one n_alignment v v' -> as_align v = Ok al -> al = Horiz /\ as_align v' = Ok Vert.
Proof.
  intros [K|? ? K T|? K1 K2] H; [|exfalso; revert K; cbn; intuition discriminate|congruence].
  vm_compute in H. inversion H. split; reflexivity.
Qed.
Lemma text_turned v v' t : turned_entry v v' -> as_text v = Ok t -> exists t', as_text v' = Ok t' /\ turned_name t t'.
Proof. intros [a b N| |l l' F] H; cbn [as_text] in *; try discriminate. inversion H; subst. eauto. Qed.
Ltac same_ := match goal with V : turned_one ?k ?v ?v' |- _ => apply one_same in V; [subst v'|discriminate|cbn; intuition discriminate] end.
Lemma series_turned i s : series_sp p i = Ok s -> exists s', series_sp p' i = Ok s' /\ turned_sp s s'.
Proof.
  unfold series_sp. intros H. apply bind_ok in H as (d & D & H). destruct (series_dict_turned _ _ D) as (d' & -> & F). cbn [bind].
  assert (G : forall k v, dgetE k d = Ok v -> exists v', dgetE k d' = Ok v' /\ turned_one k v v').
  { clear - F. unfold dgetE. intros k v. induction F as [|[a x] [b x'] d d' [E T] F IH]; cbn [dget fst snd] in *; [discriminate|]. subst b.
    destruct (text_eqb k a) eqn:K; auto. apply text_eqb_eq in K. subst. intros H. inversion H; subst. eauto. }
  unfold sp_of in H |- *.
  repeat match type of H with
  | (do x <- dgetE ?k d; _) = _ => let v := fresh "v" in let v' := fresh "v'" in let E := fresh "E" in let E' := fresh "E'" in let V := fresh "V" in
      apply bind_ok in H; destruct H as [v [E H]]; destruct (G k v E) as (v' & E' & V); rewrite E'; cbn [bind]; clear E E';
      first [apply one_same in V; [subst v'|discriminate|cbn; intuition discriminate] | idtac]
  | (do x <- as_align ?v; _) = _ => let a := fresh "a" in let A := fresh "A" in apply bind_ok in H; destruct H as [a [A H]];
      match goal with V : turned_one n_alignment v ?v' |- _ => destruct (align_turned _ _ _ V A) as [-> ->]; cbn [bind]; clear V end
  | (do x <- as_theader ?v; _) = _ => let a := fresh "th" in let A := fresh "A" in let B := fresh "B" in let C := fresh "C" in apply bind_ok in H; destruct H as [a [A H]];
      match goal with V : turned_one n_time_header v ?v' |- _ => apply one_coord in V; [|cbn; tauto]; destruct (theader_turned _ _ _ V A) as (? & B & C); rewrite B; cbn [bind]; clear V B A end
  | (do x <- as_text ?v; _) = _ => let a := fresh "t" in let A := fresh "A" in let B := fresh "B" in let C := fresh "C" in apply bind_ok in H; destruct H as [a [A H]];
      first [match goal with V : turned_one n_headers_coord v ?v' |- _ => apply one_coord in V; [|cbn; tauto]; destruct (text_turned _ _ _ V A) as (? & B & C); rewrite B; cbn [bind]; clear V B A end
            |rewrite A; cbn [bind]]
  | (do x <- ?r; _) = _ => let a := fresh "z" in let A := fresh "A" in apply bind_ok in H; destruct H as [a [A H]]; rewrite A; cbn [bind]
  end.
  inversion H; subst s. eexists. split; [reflexivity|]. constructor; cbn [sp_al sp_name sp_hc sp_comp sp_ctx sp_starts sp_ends sp_cont sp_blank sp_missings sp_mv sp_ta sp_multi sp_th sp_composed sp_freq]; auto.
  match goal with V : turned_one n_composed _ _ |- _ => apply one_coord in V; [exact V|cbn; tauto] end.
Qed.
End Objects.

(** ** Frequencies of one letter *)
Lemma letters_dset p v : single_letters p -> single_letters (dset n_data_ends v p).
Proof.
  intros (l & D & F). exists l. split; auto. rewrite <- D. clear. induction p as [|[k u] p IH]; cbn [dset dget]; [reflexivity|].
  destruct (text_eqb n_data_ends k) eqn:K; cbn [dget]; [|rewrite IH; auto]. apply text_eqb_eq in K. subst k. reflexivity.
Qed.
Lemma letters_end p i v : single_letters p -> single_letters (set_end p i v).
Proof. intros H. unfold set_end. destruct (dgetN n_data_ends p); auto. apply letters_dset. auto. Qed.
Lemma letters_item p z q r : single_letters p -> set_item p n_data_ends (VInt z) = (q, r) -> single_letters q.
Proof.
  unfold set_item. change (text_eqb n_data_ends n_context && truthy (VInt z)) with false. change (text_eqb n_data_ends n_headers_coord) with false. cbv iota.
  unfold set_general. intros S1 H.
  match type of H with match ?r with _ => _ end = _ => destruct r as [d|x] eqn:R end; [|inversion H; subst; auto]. inversion H; subst q. clear H.
  apply bind_ok in R as (good & G & R). destruct good; [inversion R; subst; apply letters_dset; auto|].
  apply bind_ok in R as (vv & V & R). destruct (negb (valid_param_value (VInt z) vv)); [discriminate|].
  apply bind_ok in R as (v' & AP & R). inversion R; subst. apply letters_dset. auto.
Qed.
Lemma letter_at p i v : single_letters p -> py_index (dgetN n_frequency p) i = Ok v -> exists c, v = VStr [c].
Proof.
  intros (l & D & F) H. unfold dgetN in H. change (pname "frequency") with n_frequency in D. rewrite D in H. cbn [py_index] in H. destruct (nth_error l i) as [u|] eqn:E; [|discriminate]. inversion H; subst.
  apply nth_error_In in E. rewrite Forall_forall in F. auto.
Qed.
Lemma series_from p i d k v : get_series_params p i = Ok d -> dget k d = Some v -> py_index (dgetN k p) i = Ok v.
Proof.
  unfold get_series_params. assert (G : forall ks acc d, Forall (fun kv => py_index (dgetN (fst kv) p) i = Ok (snd kv)) acc ->
    foldM (fun acc k => let v := dgetN k p in if is_none v then Ok acc else do x <- py_index v i; Ok (acc ++ [(k, x)])) ks acc = Ok d ->
    Forall (fun kv => py_index (dgetN (fst kv) p) i = Ok (snd kv)) d).
  { induction ks as [|k0 ks IH]; intros acc d0 A H; cbn [foldM] in H; [inversion H; subst; auto|]. cbv zeta in H.
    destruct (is_none (dgetN k0 p)); [eapply IH; eauto|]. apply bind_ok in H as (a & B & H). apply bind_ok in B as (x & X & B). inversion B; subst a.
    eapply IH; [|exact H]. apply Forall_app. split; auto. }
  intros H D. specialize (G _ _ _ (Forall_nil _) H). clear H. induction G as [|[a x] d H F IH]; cbn [dget fst snd] in *; [discriminate|].
  destruct (text_eqb k a) eqn:K; auto. apply text_eqb_eq in K. subst. inversion D; subst. auto.
Qed.
Lemma series_letter p i s : single_letters p -> series_sp p i = Ok s -> exists c, sp_freq s = [c].
Proof.
  intros L H. unfold series_sp in H. apply bind_ok in H as (d & D & H). unfold sp_of in H.
  repeat match type of H with (do x <- ?r; _) = _ => let a := fresh "a" in let A := fresh "A" in apply bind_ok in H; destruct H as [a [A H]] end.
  match goal with A : dgetE n_frequency d = Ok ?v, B : as_text ?v = Ok ?t |- _ =>
    unfold dgetE in A; destruct (dget n_frequency d) as [u|] eqn:E; [|discriminate A]; inversion A; subst u;
    destruct (letter_at _ _ _ L (series_from _ _ _ _ _ D E)) as (c & ->); exists c; cbn in B; inversion B; subst end.
  inversion H; subst. reflexivity.
Qed.

(** ** Cleaning *)
Section Clean.
Variable e : env.
Definition ends_related (l l' : list (text * Z)) : Prop := Forall2 (fun a b => turned_name (fst a) (fst b) /\ snd a = snd b) l l'.
Lemma find_turned t t' l l' : turned_name t t' -> ends_related l l' ->
  match find (fun kv => text_eqb t (fst kv)) l, find (fun kv => text_eqb t' (fst kv)) l' with
  | Some a, Some b => snd a = snd b | None, None => True | _, _ => False end.
Proof.
  intros N. induction 1 as [|a b l l' [A1 A2] F IH]; cbn [find]; auto. rewrite (turned_same _ _ _ _ N A1). destruct (text_eqb t (fst a)); auto.
Qed.
Lemma header_text p p' i t : turned_params p p' -> (do thc <- py_index (dgetN n_time_header p) i; as_text thc) = Ok t ->
  exists t', (do thc <- py_index (dgetN n_time_header p') i; as_text thc) = Ok t' /\ turned_name t t'.
Proof.
  intros T H. apply bind_ok in H as (v & V & H). destruct (index_turned_at _ _ T _ _ _ V) as (v' & V' & O). rewrite V'. cbn [bind].
  apply (text_turned v v' t); auto. apply one_coord with (k := n_time_header); auto. cbn. tauto.
Qed.
Lemma ends_at p p' i : turned_params p p' -> py_index (dgetN n_data_ends p') i = py_index (dgetN n_data_ends p) i.
Proof. intros T. rewrite (dgetN_same _ _ T); auto; [discriminate|cbn; intuition discriminate]. Qed.
Lemma many_turned n : forall i ends ends' w w' p p' w1 p1, turned w w' -> turned_params p p' -> single_letters p -> ends_related ends ends' ->
  clean_many e n i ends w p = (w1, p1, Ok tt) ->
  exists w1' p1', clean_many e n i ends' w' p' = (w1', p1', Ok tt) /\ turned w1 w1' /\ turned_params p1 p1' /\ single_letters p1.
Proof.
  induction n as [|n IH]; intros i ends ends' w w' p p' w1 p1 W T L R H; cbn [clean_many] in *.
  - inversion H; subst. eexists _, _. split; [reflexivity|]. auto.
  - destruct (do thc <- py_index (dgetN n_time_header p) i; as_text thc) as [t|x] eqn:TH; [|discriminate].
    destruct (header_text _ _ _ _ T TH) as (t' & TH' & N). rewrite TH'. pose proof (find_turned _ _ _ _ N R) as FD.
    destruct (find (fun kv => text_eqb t (fst kv)) ends) as [kv|], (find (fun kv => text_eqb t' (fst kv)) ends') as [kv'|]; try contradiction.
    + rewrite <- FD, (ends_at _ _ i T). destruct (py_index (dgetN n_data_ends p) i) as [de|x]; [|discriminate].
      eapply IH; [| | | |exact H]; auto.
      * destruct (truthy de); auto. apply set_end_turned. auto.
      * destruct (truthy de); auto. apply letters_end. auto.
    + destruct (series_sp p i) as [s|x] eqn:SP; [|discriminate]. destruct (series_turned _ _ T _ _ SP) as (s' & -> & TS).
      destruct (clean_time_index e w s) as [w2 r2] eqn:C. destruct r2 as [z|x]; [|discriminate].
      destruct (index_turned _ _ _ _ _ _ _ TS W C) as (w2' & -> & W2). cbn [bind] in *.
      destruct (assert_ (negb (z =? 0))) as [u|x]; [|discriminate]. cbn [bind] in *. rewrite (ends_at _ _ i T).
      destruct (py_index (dgetN n_data_ends p) i) as [de|x]; [|discriminate].
      eapply IH; [| | | |exact H]; auto.
      * destruct (truthy de); auto. apply set_end_turned. auto.
      * destruct (truthy de); auto. apply letters_end. auto.
      * constructor; auto.
Qed.
Lemma clean_turned w w' p p' w1 p1 : turned w w' -> turned_params p p' -> single_letters p -> clean_data e w p = (w1, p1, Ok tt) ->
  exists w1' p1', clean_data e w' p' = (w1', p1', Ok tt) /\ turned w1 w1' /\ turned_params p1 p1' /\ single_letters p1.
Proof.
  intros W T L H. unfold clean_data in *. rewrite (dgetN_same _ _ T n_time_multicolumn); [|discriminate|cbn; intuition discriminate].
  destruct (py_index (dgetN n_time_multicolumn p) 0) as [tm|x]; [|discriminate]. destruct (truthy tm).
  - destruct (series_sp p 0) as [s|x] eqn:SP; [|discriminate]. destruct (series_turned _ _ T _ _ SP) as (s' & -> & TS).
    destruct (clean_time_index e w s) as [w2 r2] eqn:C. destruct r2 as [z|x]; [|discriminate].
    destruct (index_turned _ _ _ _ _ _ _ TS W C) as (w2' & -> & W2). rewrite (ends_at _ _ _ T).
    destruct (py_index (dgetN n_data_ends p) 0) as [de|x]; [|discriminate]. destruct (truthy de).
    + inversion H; subst. eexists _, _. split; [reflexivity|]. auto.
    + destruct (set_item p n_data_ends (VInt z)) as [q r] eqn:SI. inversion H; subst. destruct (set_item_turned _ _ T _ _ SI) as (q' & -> & T2).
      eexists _, _. split; [reflexivity|]. split; auto. split; auto. eapply letters_item; eauto.
  - destruct (py_len (dgetN n_time_header p)) as [n|x] eqn:LN; [|discriminate]. rewrite (len_turned_at _ _ T _ _ LN).
    eapply many_turned; eauto. constructor.
Qed.

(** ** Ranges and frames *)
Lemma single_turned w w' c st l en ta prs : turned w w' -> l <= max_column -> series_prs e w [c] st l en ta Horiz = Ok prs ->
  series_prs e w' [c] st l en ta Vert = Ok prs.
Proof.
  intros W L. unfold series_prs. cbn [accepts_freq List.length Nat.ltb Nat.leb Nat.eqb]. unfold single_prs. intros H.
  apply bind_ok in H as (a & A & H). rewrite (read_turned _ _ _ _ _ W L A). cbn [bind]. apply bind_ok in H as (b & B & H). rewrite (read_turned _ _ _ _ _ W L B). auto.
Qed.
Lemma touch_prs_turned w w' f st l en ta : turned w w' -> turned (touch_prs w f st l en ta Horiz) (touch_prs w' f st l en ta Vert).
Proof. intros W. unfold touch_prs. destruct (accepts_freq false f); auto. apply axis_touch_turned, axis_touch_turned. auto. Qed.
Lemma th_turned m th th' t : turned_th th th' -> th_single m th = Ok t -> exists t', th_single m th' = Ok t' /\ turned_name t t'.
Proof.
  intros [a b N|l l' F] H; cbn [th_single] in *; [inversion H; subst; eauto|]. destruct F as [|a b l l' N F]; destruct m; try discriminate.
  inversion H; subst. eauto.
Qed.
Lemma query_turned p p' i q : turned_params p p' -> single_letters p -> pr_query p i = Ok q ->
  exists q' c, pr_query p' i = Ok q' /\ q_freq q = [c] /\ q_freq q' = [c] /\ q_starts q' = q_starts q /\ q_line q' = q_line q /\ q_line q <= max_column /\ q_ends q' = q_ends q /\ q_ta q' = q_ta q /\
    q_al q = Horiz /\ q_al q' = Vert.
Proof.
  intros T L H. unfold pr_query in *.
  rewrite (dgetN_same _ _ T n_frequency), (dgetN_same _ _ T n_data_starts), (dgetN_same _ _ T n_data_ends), (dgetN_same _ _ T n_time_alignment), (dgetN_same _ _ T n_time_multicolumn)
    by first [discriminate|cbn; intuition discriminate].
  apply bind_ok in H as (fr & FR & H). destruct (letter_at _ _ _ L FR) as (c & ->). rewrite FR. cbn [bind as_text] in *.
  apply bind_ok in H as (ds & -> & H). cbn [bind] in *. apply bind_ok in H as (ds' & -> & H). cbn [bind] in *.
  apply bind_ok in H as (th & TH & H). destruct (index_turned_at _ _ T _ _ _ TH) as (th1 & -> & O). cbn [bind] in *.
  apply bind_ok in H as (th' & TA & H). apply one_coord in O; [|cbn; tauto]. destruct (theader_turned _ _ _ O TA) as (th2 & -> & TT). cbn [bind] in *.
  apply bind_ok in H as (de & -> & H). cbn [bind] in *. apply bind_ok in H as (u & -> & H). cbn [bind] in *. apply bind_ok in H as (de' & -> & H). cbn [bind] in *.
  apply bind_ok in H as (ta & -> & H). cbn [bind] in *. apply bind_ok in H as (ta' & -> & H). cbn [bind] in *.
  apply bind_ok in H as (al & AL & H). destruct (index_turned_at _ _ T _ _ _ AL) as (al1 & -> & O2). cbn [bind] in *.
  apply bind_ok in H as (al' & AA & H). destruct (align_turned _ _ _ O2 AA) as [-> ->]. cbn [bind] in *.
  apply bind_ok in H as (u2 & -> & H). cbn [bind] in *. apply bind_ok in H as (t & TS & H). destruct (th_turned _ _ _ _ TT TS) as (t' & -> & N). cbn [bind] in *.
  destruct (line_turned _ _ N) as (l & L1 & L2 & LM). rewrite L1 in H. rewrite L2. cbn [bind] in *. inversion H; subst.
  eexists _, c. split; [reflexivity|]. cbn. repeat (split; auto).
Qed.
Lemma init_turned p p' : turned_params p p' -> single_letters p -> forall n i w w' fs w1 r, turned w w' ->
  init_frames e n i w p fs = (w1, Ok r) -> exists w1', init_frames e n i w' p' fs = (w1', Ok r) /\ turned w1 w1'.
Proof.
  intros T L. induction n as [|n IH]; intros i w w' fs w1 r W H; cbn [init_frames] in *.
  - inversion H; subst. eauto.
  - destruct (pr_query p i) as [q|x] eqn:Q; [|discriminate]. destruct (query_turned _ _ _ _ T L Q) as (q' & c & -> & Q1 & Q2 & Q3 & Q4 & Q5 & Q6 & Q7 & Q8 & Q9).
    rewrite Q2, Q3, Q4, Q6, Q7, Q9. rewrite Q1, Q8 in H.
    destruct (series_prs e w [c] _ _ _ _ Horiz) as [prs|x] eqn:PR; [|discriminate]. rewrite (single_turned _ _ _ _ _ _ _ _ W Q5 PR).
    destruct (foldM add_frame prs fs) as [fs'|x]; [|discriminate]. cbv zeta in *. eapply IH; [|exact H]. apply touch_prs_turned. auto.
Qed.
Lemma touch_data_turned w w' s s' : turned_sp s s' -> turned w w' -> turned (touch_data w s) (touch_data w' s').
Proof.
  intros T W. unfold touch_data. destruct (ts_al _ _ T) as [A1 A2]. rewrite (ts_ends _ _ T), (ts_cont _ _ T), (ts_multi _ _ T), (ts_ta _ _ T), A1, A2.
  destruct (sp_ends s) as [en|]; auto. destruct (line_turned _ _ (ts_hc _ _ T)) as (l & -> & -> & _). cbv zeta. destruct (sp_cont s); [apply axis_touch_turned; auto|].
  assert (TL : match time_line Vert (sp_multi s) (sp_th s'), time_line Horiz (sp_multi s) (sp_th s) with Ok a, Ok b => a = b | Err _, Err _ => True | _, _ => False end).
  { destruct (ts_th _ _ T) as [t t' N|ts ts' F]; destruct (sp_multi s); cbn [time_line].
    - destruct N as (r & c & N1 & _ & N2 & _).
      assert (NE : forall q q1 q2, cell_named q q1 q2 -> q <> []).
      { intros q q1 q2 Q ->. apply cell_named_iff in Q. discriminate. }
      assert (NE1 := NE _ _ _ N1). assert (NE2 := NE _ _ _ N2). destruct t as [|c1 t]; [congruence|]. destruct t' as [|c2 t']; [congruence|].
      assert (Y : forall ch al, exists x, coord_line al [ch] = Err x).
      { clear. intros c0 al. unfold coord_line, parse_coord. cbn [take_while drop_while]. destruct (is_letter c0) eqn:L0; cbn; eauto.
        rewrite andb_true_r. destruct (is_digit c0); cbn; eauto. }
      destruct (Y c1 Horiz) as (x1 & ->), (Y c2 Vert) as (x2 & ->). exact I.
    - destruct (line_turned _ _ N) as (k & -> & -> & _). reflexivity.
    - destruct F as [|t t' ts ts' N F]; [exact I|]. destruct (line_turned _ _ N) as (k & -> & -> & _). reflexivity.
    - exact I. }
  destruct (time_line Horiz (sp_multi s) (sp_th s)), (time_line Vert (sp_multi s) (sp_th s')); try contradiction; subst; repeat apply axis_touch_turned; auto.
Qed.
Lemma into_turned w w' s s' c fs w1 r : turned_sp s s' -> sp_freq s = [c] -> turned w w' -> series_into e w s fs = (w1, Ok r) ->
  exists w1', series_into e w' s' fs = (w1', Ok r) /\ turned w1 w1'.
Proof.
  intros T FQ W H. unfold series_into in *.
  assert (E : find (fun k => dcombo_accepts k s') dcombos = find (fun k => dcombo_accepts k s) dcombos).
  { unfold dcombo_accepts. rewrite (ts_cont _ _ T), (ts_freq _ _ T). reflexivity. }
  rewrite E. clear E. destruct (find (fun k => dcombo_accepts k s) dcombos) as [k|]; [|discriminate H].
  destruct (get_data e w s) as [nvs|x] eqn:G; [|discriminate]. rewrite (data_turned _ _ _ _ _ _ T W G). destruct nvs as [|nv nvs]; [discriminate|].
  cbv zeta in *. pose proof (touch_data_turned _ _ _ _ T W) as W1. destruct (ts_al _ _ T) as [A1 A2].
  destruct (do t <- th_single (sp_multi s) (sp_th s); _) as [[[line en] prs]|x] eqn:P; [|discriminate].
  apply bind_ok in P as (t & TS & P). destruct (th_turned _ _ _ _ (ts_th _ _ T) TS) as (t' & TS' & N). rewrite (ts_multi _ _ T), TS'. cbn [bind].
  destruct (line_turned _ _ N) as (l & L1 & L2 & LM). rewrite A1, L1 in P. rewrite A2, L2, (ts_ends _ _ T). cbn [bind] in *.
  destruct (sp_ends s) as [en0|]; [|discriminate]. apply bind_ok in P as (prs0 & PR & P). inversion P; subst.
  rewrite (ts_freq _ _ T), (ts_starts _ _ T), (ts_ta _ _ T). rewrite FQ in *. rewrite (single_turned _ _ _ _ _ _ _ _ W1 LM PR). cbn [bind].
  injection H as H1 H2. rewrite H2. eexists. split; [reflexivity|]. rewrite <- H1, A1. apply touch_prs_turned. auto.
Qed.
Lemma fill_turned p p' : turned_params p p' -> single_letters p -> forall n i w w' fs w1 r, turned w w' ->
  fill_frames e n i w p fs = (w1, Ok r) -> exists w1', fill_frames e n i w' p' fs = (w1', Ok r) /\ turned w1 w1'.
Proof.
  intros T L. induction n as [|n IH]; intros i w w' fs w1 r W H; cbn [fill_frames] in *.
  - inversion H; subst. eauto.
  - destruct (series_sp p i) as [s|x] eqn:SP; [|discriminate]. destruct (series_turned _ _ T _ _ SP) as (s' & -> & TS). destruct (series_letter _ _ _ L SP) as (c & FQ).
    destruct (series_into e w s fs) as [w2 r2] eqn:SI. destruct r2 as [fs'|x]; [|discriminate]. destruct (into_turned _ _ _ _ _ _ _ _ TS FQ W SI) as (w2' & -> & W2).
    eapply IH; eauto.
Qed.
Lemma zip_turned p p' n : turned_params p p' -> zip_len p = Ok n -> zip_len p' = Ok n.
Proof.
  intros T. unfold zip_len. intros H. apply bind_ok in H as (ns & M & H).
  assert (G : forall ks ns, mapM (fun k => py_len (dgetN k p)) ks = Ok ns -> mapM (fun k => py_len (dgetN k p')) ks = Ok ns).
  { induction ks as [|k ks IH]; intros ns0 X; cbn [mapM] in *; auto. apply bind_ok in X as (a & A & X). rewrite (len_turned_at _ _ T _ _ A). cbn [bind].
    apply bind_ok in X as (b & B & X). rewrite (IH _ B). auto. }
  rewrite (G _ _ M). exact H.
Qed.
Lemma all_turned w w' p p' w1 dfs : turned w w' -> turned_params p p' -> single_letters p -> get_data_all e w p = (w1, Ok dfs) ->
  exists w1', get_data_all e w' p' = (w1', Ok dfs) /\ turned w1 w1'.
Proof.
  intros W T L H. unfold get_data_all in *. destruct (zip_len p) as [n|x] eqn:ZL; [|discriminate]. rewrite (zip_turned _ _ _ T ZL).
  destruct (init_frames e n 0 w p []) as [w2 r] eqn:IN. destruct r as [fs|x]; [|discriminate]. destruct (init_turned _ _ T L _ _ _ _ _ _ _ W IN) as (w2' & -> & W2).
  destruct (py_len (dgetN n_headers_coord p)) as [m|x] eqn:LN; [|discriminate]. rewrite (len_turned_at _ _ T _ _ LN).
  destruct (fill_frames e m 0 w2 p fs) as [w3 r] eqn:FF. injection H as H1 H2. subst w1. destruct r as [fs'|x]; [|discriminate].
  destruct (fill_turned _ _ T L _ _ _ _ _ _ _ W2 FF) as (w3' & -> & W3). rewrite H2. eauto.
Qed.
End Clean.
