(** Proofs for C87: one series. *)
From Coq Require Import ZifyBool ZifyNat.
From Verif Require Import Base BaseFacts Cal Coord CoordFacts XlMethods Params ParseTime TimeIndex TimeProofs GetData PeriodRange DataFrame Scrape Xlseries
  SpecCoord SpecCoordFacts SpecParams SpecTime SpecReach SpecFrames ScrapeFacts ScrapeProofs ScrapeProofs2 ReachProofs ReachProofs2 ReachProofs3 MoveProofs SelectProofs SpecValue.
Local Open Scope Z_scope.

Lemma one_length x x' l l' : one_value x x' l l' -> List.length l' = List.length l.
Proof. intros (a & b & y & y' & -> & -> & _). rewrite !app_length. reflexivity. Qed.
Lemma one_pre x x' k l l' : one_value x x' l l' -> one_value x x' (k ++ l) (k ++ l').
Proof. intros (a & b & z & z' & -> & -> & A & B). exists (k ++ a), b, z, z'. rewrite <- !app_assoc. auto. Qed.
Lemma one_cons x x' y l l' : one_value x x' l l' -> one_value x x' (y :: l) (y :: l').
Proof. apply (one_pre x x' [y]). Qed.
Lemma one_post x x' k l l' : one_value x x' l l' -> one_value x x' (l ++ k) (l' ++ k).
Proof. intros (a & b & y & y' & -> & -> & A & B). exists a, (b ++ k), y, y'. rewrite <- !app_assoc. auto. Qed.
(** the same, or with another value *)
Definition near (x x' : spec_float) (l l' : list spec_float) : Prop := l' = l \/ one_value x x' l l'.
Lemma near_length x x' l l' : near x x' l l' -> List.length l' = List.length l.
Proof. intros [->|H]; auto. eapply one_length; eauto. Qed.
Lemma near_refl x x' l : near x x' l l.
Proof. left. auto. Qed.
Lemma near_pre x x' k l l' : near x x' l l' -> near x x' (k ++ l) (k ++ l').
Proof. intros [->|H]; [left; auto|right; apply one_pre; auto]. Qed.
Lemma near_cons x x' y l l' : near x x' l l' -> near x x' (y :: l) (y :: l').
Proof. apply (near_pre x x' [y]). Qed.

Lemma up_refl {A} (R : A -> A -> Prop) k l : up_to R k l l.
Proof. induction l; constructor; auto. Qed.
Lemma up_app {A} (R : A -> A -> Prop) j l l' : up_to R j l l' -> forall k m m', up_to R k m m' -> up_to R (j + k) (l ++ m) (l' ++ m').
Proof.
  induction 1 as [j|j a l l' H IH|j a a' l l' X H IH]; intros k m m' M; cbn [app].
  - clear - M. induction M as [k|k a m m' M IH|k a a' m m' X M IH]; [constructor|constructor; auto|]. replace (j + S k)%nat with (S (j + k)) by lia. constructor; auto.
  - constructor. auto.
  - cbn [Nat.add]. constructor; auto.
Qed.
Lemma up_more {A} (R : A -> A -> Prop) j l l' : up_to R j l l' -> forall k, (j <= k)%nat -> up_to R k l l'.
Proof.
  induction 1 as [j|j a l l' H IH|j a a' l l' X H IH]; intros k M; [constructor|constructor; auto|]. destruct k as [|k]; [lia|]. constructor; auto. apply IH. lia.
Qed.
Lemma up_length {A} (R : A -> A -> Prop) j l l' : up_to R j l l' -> List.length l' = List.length l.
Proof. induction 1; cbn; auto. Qed.
Lemma up_map {A B} (R : A -> A -> Prop) (S0 : B -> B -> Prop) (f : A -> B) : (forall a b, R a b -> S0 (f a) (f b)) -> forall k l l', up_to R k l l' -> up_to S0 k (map f l) (map f l').
Proof. intros H. induction 1; cbn; constructor; auto. Qed.

(** ** Values by frequency *)
Section Groups.
Variables x x' : spec_float.
Definition rgroup (a b : ascii * list spec_float) : Prop := fst b = fst a /\ one_value x x' (snd a) (snd b).
Lemma add_same c f k g g' : up_to rgroup k g g' -> up_to rgroup k (add_to_group c f g) (add_to_group c f g').
Proof.
  induction 1 as [k|k [a l] g g' F IH|k [a l] [a' l'] g g' [A B] F IH]; cbn [add_to_group]; [apply up_refl| |].
  - destruct (ch_eqb c a); constructor; auto.
  - cbn [fst snd] in *. subst a'. destruct (ch_eqb c a); constructor; auto; split; auto. cbn [snd]. apply one_post. auto.
Qed.
Lemma add_other c y y' g : stands_for y x -> stands_for y' x' -> up_to rgroup 1 (add_to_group c y g) (add_to_group c y' g).
Proof.
  intros A B. assert (O : forall l, one_value x x' (l ++ [y]) (l ++ [y'])) by (intros l; exists l, [], y, y'; auto).
  induction g as [|[k l] g IH]; cbn [add_to_group].
  - constructor; [|constructor]. split; auto. apply (O []).
  - destruct (ch_eqb c k); constructor; auto; [|apply up_refl]. split; auto. apply O.
Qed.
Lemma group_same fr k : forall vs lf g g', up_to rgroup k g g' -> both (up_to rgroup k) (group fr lf vs g) (group fr lf vs g').
Proof.
  induction vs as [|f vs IH]; intros lf g g' F; cbn [group]; [exact F|]. destruct (next_frequency fr lf) as [cf|e]; cbn [bind]; [|reflexivity]. apply IH. apply add_same. auto.
Qed.
Lemma group_two fr : forall vs vs' lf g, near x x' vs vs' -> both (up_to rgroup 1) (group fr lf vs g) (group fr lf vs' g).
Proof.
  intros vs vs' lf g [->|(a & b & y & y' & -> & -> & A & B)]; [apply group_same, up_refl|]. revert lf g. induction a as [|f a IH]; intros lf g; cbn [app group].
  - destruct (next_frequency fr lf) as [cf|e]; cbn [bind]; [|reflexivity]. apply group_same. apply add_other; auto.
  - destruct (next_frequency fr lf) as [cf|e]; cbn [bind]; [|reflexivity]. apply IH.
Qed.
Lemma fill_two e fr : forall tvs vs vs' ex, near x x' vs vs' -> both (near x x') (fill_implicit e fr ex (combine tvs vs)) (fill_implicit e fr ex (combine tvs vs')).
Proof.
  intros tvs vs vs' ex [->|(a & b & y & y' & -> & -> & A & B)].
  - destruct (fill_implicit e fr ex (combine tvs vs)); cbn; auto. apply near_refl.
  - revert tvs ex. induction a as [|f a IH]; intros [|tv tvs] ex; cbn [app combine fill_implicit]; try apply near_refl.
    + destruct (arrow_any e tv) as [obs|z]; cbn [bind]; [|reflexivity]. destruct (fill_hole _ fr _ obs) as [h|z]; cbn [bind]; [|reflexivity]. destruct (increment_time (snd h) 1 fr) as [ex'|z]; cbn [bind]; [|reflexivity].
      destruct (fill_implicit e fr (Some ex') (combine tvs b)) as [rest|z]; cbn [bind both]; [|reflexivity]. right. exists (fst h), rest, y, y'. auto.
    + destruct (arrow_any e tv) as [obs|z]; cbn [bind]; [|reflexivity]. destruct (fill_hole _ fr _ obs) as [h|z]; cbn [bind]; [|reflexivity]. destruct (increment_time (snd h) 1 fr) as [ex'|z]; cbn [bind]; [|reflexivity].
      apply (both_bind (near x x')); [apply IH|]. intros l l' L. cbn. apply near_pre, near_cons. auto.
Qed.
End Groups.

(** ** Two sheets with a different number in one cell *)
Section Change.
Variables (r0 c0 : Z) (v v' : pyval) (x x' : spec_float).
Hypothesis NUM : number v x.
Hypothesis NUM' : number v' x'.
Definition others (r c : Z) : Prop := (r, c) <> (r0, c0).
Definition ch (w w' : worksheet) : Prop := agree others True w w' /\ cell w r0 c0 = v /\ cell w' r0 c0 = v'.
Record off (s : sp) : Prop := {
  off_head : forall r c, parse_coord (sp_hc s) = Ok (r, c) -> others r c;
  off_comp : forall cs t r c, sp_comp s = VList cs -> In (VStr t) cs -> parse_coord t = Ok (r, c) -> others r c;
  off_times : forall t line pos, In t (th_texts (sp_th s)) -> coord_line (sp_al s) t = Ok line -> AP others (sp_al s) line pos
}.
(** without headers; without values *)
Definition bare (s : sp) : sp :=
  mksp (sp_al s) VNone [] VNone VNone (sp_starts s) (sp_ends s) (sp_cont s) (sp_blank s) (sp_missings s) (sp_mv s) (sp_ta s) (sp_multi s) (sp_th s) (sp_composed s) (sp_freq s).
Definition short (s : sp) : sp :=
  mksp (sp_al s) (sp_name s) (sp_hc s) (sp_comp s) (sp_ctx s) (sp_starts s) (Some (sp_starts s - 1)) (sp_cont s) (sp_blank s) (sp_missings s) (sp_mv s) (sp_ta s) (sp_multi s) (sp_th s) (sp_composed s) (sp_freq s).
Lemma bare_covers s : off s -> covers others True (bare s).
Proof.
  intros O. split; cbn [bare sp_ends sp_freq sp_hc sp_comp sp_al sp_starts sp_th sp_ta]; try (intros; exact I).
  - intros r c H. discriminate H.
  - intros cs t r c H. discriminate H.
  - intros line pos H. discriminate H.
  - intros t line pos J L _. eapply (off_times _ O); eauto.
Qed.
Lemma short_covers s : off s -> covers others True (short s).
Proof.
  intros O. split; cbn [short sp_ends sp_freq sp_hc sp_comp sp_al sp_starts sp_th sp_ta]; try (intros; exact I).
  - apply (off_head _ O).
  - apply (off_comp _ O).
  - intros line pos _ A B. specialize (B _ eq_refl). lia.
  - intros t line pos J L _. eapply (off_times _ O); eauto.
Qed.
Lemma index_ch e s w w' : off s -> ch w w' ->
  snd (clean_time_index e w' s) = snd (clean_time_index e w s) /\ ch (fst (clean_time_index e w s)) (fst (clean_time_index e w' s)).
Proof.
  intros O (A & V & V').
  assert (E : forall u, clean_time_index e u (bare s) = clean_time_index e u s) by (intros u; apply clean_alike; unfold SelectProofs.alike, bare; cbn; repeat (split; [reflexivity|]); reflexivity).
  destruct (index_agree _ _ e (bare s) w w' (bare_covers s O) A) as [B C]. rewrite !E in *. split; auto. split; auto.
  assert (K : forall u, cell (fst (clean_time_index e u s)) r0 c0 = cell u r0 c0).
  { intros u. destruct (clean_time_index e u s) as [u1 r] eqn:CT. cbn [fst]. destruct (clean_split _ _ _ _ _ CT) as [[-> _]|(L & tl & wl & TL & WL & CL)]; auto.
    apply (c27_frame _ _ _ _ _ CT). intros q _ Q. apply (index_cell_iff _ _ _ _ _ WL) in Q as [Q1 Q2]. destruct (write_from _ _ _ WL) as (t & T1 & T2). apply (off_times _ O t wl q T1 T2). congruence. }
  rewrite !K. auto.
Qed.
Lemma name_ch e s w w' : off s -> ch w w' -> get_name e w' s = get_name e w s.
Proof. intros O (A & _). exact (name_agree _ _ e w w' (short s) (short_covers s O) A). Qed.
Lemma added_ch w w' s q nv : off s -> ch w w' -> to_be_added w' s q nv = to_be_added w s q nv.
Proof.
  intros O (A & _). unfold to_be_added. destruct (sp_cont s); auto. destruct (time_line (sp_al s) (sp_multi s) (sp_th s)) as [l|] eqn:L; cbn [bind]; auto.
  destruct (line_from _ _ _ _ L) as (t & T1 & T2). rewrite (read_agree others True w w'); auto. apply (off_times _ O t); auto.
Qed.
Lemma in_marks u u' y y' mv : number u y -> number u' y' -> match py_in u mv, py_in u' mv with Ok _, Ok _ => True | Err _, Err _ => True | _, _ => False end.
Proof.
  intros [[(f & ->)|(z & ->)] _] [[(f' & ->)|(z' & ->)] _]; unfold py_in; destruct mv; auto.
Qed.
Lemma handled s : match (if sp_cont s then handle_continuous v (sp_missings s) (sp_blank s) (sp_mv s) else handle_non_continuous v (sp_missings s) (sp_mv s)),
    (if sp_cont s then handle_continuous v' (sp_missings s) (sp_blank s) (sp_mv s) else handle_non_continuous v' (sp_missings s) (sp_mv s)) with
  | Ok (Some y), Ok (Some y') => stands_for y x /\ stands_for y' x' | Err _, Err _ => True | _, _ => False end.
Proof.
  pose proof (in_marks v v' x x' (sp_mv s) NUM NUM') as M.
  assert (S1 : forall u y, number u y -> is_none u = false /\ (match u with VStr t => VStr (strip t) | _ => u end) = u /\
    (match u with VStr t => if Nat.eqb (List.length (strip t)) 0 then VNone else u | _ => u end) = u /\ py_float u = Ok y) by (intros u y [[(f & ->)|(z & ->)] H]; auto).
  destruct (S1 v x NUM) as (A1 & A2 & A3 & A4). destruct (S1 v' x' NUM') as (B1 & B2 & B3 & B4).
  destruct (sp_cont s).
  - unfold handle_continuous. rewrite A1, B1, A2, B2, A4, B4, !andb_false_r. cbv zeta. destruct (sp_missings s); cbn [bind].
    + destruct (py_in v (sp_mv s)) as [b|], (py_in v' (sp_mv s)) as [b'|]; try contradiction; cbn [bind]; auto. destruct b, b'; cbn; unfold stands_for; auto.
    + unfold stands_for. auto.
  - unfold handle_non_continuous. rewrite A3, B3, A4, B4. cbv zeta. destruct (sp_missings s); cbn [bind].
    + destruct (py_in v (sp_mv s)) as [b|], (py_in v' (sp_mv s)) as [b'|]; try contradiction; cbn [bind]; auto. destruct b, b'; cbn; unfold stands_for; auto.
    + unfold stands_for. auto.
Qed.
Lemma collect_off w w' s l : off s -> ch w w' -> forall qs, (forall q, In q qs -> AP others (sp_al s) l q) -> collect w' s l qs = collect w s l qs.
Proof.
  intros O C. induction qs as [|q qs IH]; intros F; cbn [collect]; auto. rewrite (read_agree others True w w') by (try apply C; apply F; left; auto).
  destruct (axis_read (sp_al s) w l q); cbn [bind]; auto. match goal with |- bind ?r _ = bind ?r _ => destruct r as [nv|]; cbn [bind]; auto end.
  rewrite (added_ch w w') by auto. rewrite IH by (intros; apply F; right; auto). auto.
Qed.
Lemma collect_ch w w' s l : off s -> ch w w' -> forall qs, NoDup qs -> both (near x x') (collect w s l qs) (collect w' s l qs).
Proof.
  intros O C. induction qs as [|q qs IH]; intros ND; cbn [collect]; [apply near_refl|]. inversion ND as [|? ? NI ND']; subst.
  assert (D : AP others (sp_al s) l q \/ (axis_row (sp_al s) l q = r0 /\ axis_col (sp_al s) l q = c0)).
  { unfold AP, others. destruct (Z.eq_dec (axis_row (sp_al s) l q) r0), (Z.eq_dec (axis_col (sp_al s) l q) c0); auto; left; congruence. }
  destruct D as [D|[D1 D2]].
  - rewrite (read_agree others True w w' _ _ _ (proj1 C) D). destruct (axis_read (sp_al s) w l q) as [u|]; cbn [bind]; [|reflexivity].
    match goal with |- both _ (bind ?r _) (bind ?r _) => destruct r as [nv|]; cbn [bind]; [|reflexivity] end. rewrite (added_ch w w') by auto. destruct (to_be_added w s q nv) as [ad|]; cbn [bind]; [|reflexivity].
    apply (both_bind (near x x')); [auto|]. intros a b AB. destruct nv as [f|]; [destruct ad|]; cbn; auto. apply near_cons. auto.
  - rewrite (collect_off w w' s l O C qs).
    2:{ intros q' I E. inversion E as [[E1 E2]]. apply NI. replace q with q'; auto. unfold axis_row, axis_col in *. destruct (sp_al s); lia. }
    unfold axis_read. rewrite D1, D2. unfold read. destruct (cell_ok r0 c0); cbn [bind]; [|reflexivity]. assert (C' := C). destruct C as (A & -> & ->).
    pose proof (handled s) as H.
    destruct (if sp_cont s then handle_continuous v _ _ _ else _) as [[y|]|], (if sp_cont s then handle_continuous v' _ _ _ else _) as [[y'|]|]; try contradiction; cbn [bind]; [|reflexivity].
    destruct H as [H1 H2]. assert (E : to_be_added w' s q (Some y') = to_be_added w s q (Some y)).
    { rewrite (added_ch w w' s q (Some y') O C'). reflexivity. }
    rewrite E. destruct (to_be_added w s q (Some y)) as [ad|]; cbn [bind]; [|reflexivity]. destruct (collect w s l qs) as [vs|]; cbn [bind]; [|reflexivity].
    destruct ad; cbn; [|apply near_refl]. right. exists [], vs, y, y'. auto.
Qed.

Lemma values_ch e w w' s : off s -> ch w w' -> both (up_to (one_value x x') 1) (get_values e w s) (get_values e w' s).
Proof.
  intros O C. unfold get_values. destruct (sp_ends s) as [en|]; [|reflexivity]. destruct (coord_line (sp_al s) (sp_hc s)) as [l|]; cbn [bind]; [|reflexivity]. cbv zeta.
  assert (ONE : forall a b, near x x' a b -> up_to (one_value x x') 1 [a] [b]) by (intros a b [->|H]; repeat constructor; auto).
  apply (both_bind (near x x')); [apply collect_ch; auto; apply zrange_NoDup|]. intros vs vs' V.
  apply (both_bind (up_to (one_value x x') 1)).
  - destruct (Nat.eqb (List.length (sp_freq s)) 1).
    + pose proof (near_length _ _ _ _ V) as L. destruct vs, vs'; try discriminate L; cbn; [constructor|apply ONE; auto].
    + apply (both_bind (up_to (rgroup x x') 1)); [apply group_two; auto|]. intros g g' G. cbn. eapply up_map; [|exact G]. intros a b [_ H]. exact H.
  - intros g g' G. destruct (if sp_missings s then _ else _) as [i|]; cbn [bind]; [|reflexivity]. destruct (i && _); [|exact G].
    assert (R : match g, g' with [], [] => True | a :: _, b :: _ => near x x' a b | _, _ => False end) by (inversion G; subst; auto; [apply near_refl|right; auto]).
    destruct g as [|a g], g' as [|b g']; try contradiction; [reflexivity|].
    destruct (write_line (sp_al s) (sp_th s)) as [tl|] eqn:TL; cbn [bind]; [|reflexivity]. destruct (write_from _ _ _ TL) as (t & T1 & T2).
    rewrite (mapM_ext (axis_read (sp_al s) w' tl) (axis_read (sp_al s) w tl)) by (intros q _; apply (read_agree others True); [apply C|apply (off_times _ O t); auto]).
    destruct (mapM _ _) as [tvs|]; cbn [bind]; [|reflexivity]. apply (both_bind (near x x')); [apply fill_two; auto|]. intros r r' R'. apply ONE. auto.
Qed.
(** a series that is elsewhere *)
Definition elsewhere (s : sp) : Prop := forall l q, coord_line (sp_al s) (sp_hc s) = Ok l -> AP others (sp_al s) l q.
Lemma values_else e w w' s : off s -> ch w w' -> elsewhere s -> get_values e w' s = get_values e w s.
Proof.
  intros O C E. unfold get_values. destruct (sp_ends s) as [en|]; auto. destruct (coord_line (sp_al s) (sp_hc s)) as [l|] eqn:L; cbn [bind]; auto. cbv zeta.
  rewrite (collect_off w w' s l O C) by (intros; apply E; auto). destruct (collect w s l _) as [vs|]; cbn [bind]; auto.
  match goal with |- bind ?r _ = bind ?r _ => destruct r as [g|]; cbn [bind]; auto end.
  match goal with |- bind ?r _ = bind ?r _ => destruct r as [i|]; cbn [bind]; auto end.
  destruct (i && _); auto. destruct g; auto. destruct (write_line (sp_al s) (sp_th s)) as [tl|] eqn:TL; cbn [bind]; auto.
  destruct (write_from _ _ _ TL) as (t & T1 & T2).
  rewrite (mapM_ext (axis_read (sp_al s) w' tl) (axis_read (sp_al s) w tl)) by (intros q _; apply (read_agree others True); [apply C|apply (off_times _ O t); auto]). auto.
Qed.
Definition rnamed (a b : text * list spec_float) : Prop := fst b = fst a /\ one_value x x' (snd a) (snd b).
Lemma data_ch e w w' s k : off s -> ch w w' -> (k = 1%nat \/ elsewhere s) -> both (up_to rnamed k) (get_data e w s) (get_data e w' s).
Proof.
  intros O C K. unfold get_data. rewrite (name_ch e s w w' O C). destruct (get_name e w s) as [nm|]; cbn [bind]; [|reflexivity].
  apply (both_bind (up_to (one_value x x') k)).
  - destruct K as [->|K]; [apply values_ch; auto|]. rewrite (values_else e w w' s O C K). destruct (get_values e w s); cbn; auto. apply up_refl.
  - intros a b F. cbn. eapply up_map; [|exact F]. intros u u' U. split; auto.
Qed.

(** ** Frames *)
Inductive rfrs : nat -> list ((text * datetime * datetime) * frame) -> list ((text * datetime * datetime) * frame) -> Prop :=
| rf_nil k : rfrs k [] []
| rf_cons j k h pr cols data data' fs fs' : up_to (one_value x x') j data data' -> rfrs k fs fs' -> rfrs (j + k) ((h, mkframe pr cols data) :: fs) ((h, mkframe pr cols data') :: fs').
Lemma rfrs_refl l : rfrs 0 l l.
Proof. induction l as [|[h [pr cols data]] l IH]; [constructor|]. apply (rf_cons 0 0); auto. apply up_refl. Qed.
Lemma put_ch h nm vs vs' c : (vs' = vs \/ (c = 1%nat /\ one_value x x' vs vs')) -> forall k fs fs', rfrs k fs fs' -> both (rfrs (k + c)) (put_values h nm vs fs) (put_values h nm vs' fs').
Proof.
  intros V. induction 1 as [k|j k h0 pr cols data data' fs fs' U F IH]; cbn [put_values]; [reflexivity|].
  destruct (hash_eqb h h0).
  - cbn [both f_pr f_cols f_data]. replace (j + k + c)%nat with (j + c + k)%nat by lia. constructor; auto. apply up_app; auto. destruct V as [->|[-> V]]; [apply up_refl|]. apply up_other; [auto|constructor].
  - apply (both_bind (rfrs (k + c))); auto. intros a b AB. cbn [both]. replace (j + k + c)%nat with (j + (k + c))%nat by lia. constructor; auto.
Qed.
Lemma puts_ch : forall c nvs nvs', up_to rnamed c nvs nvs' -> forall prs k fs fs', rfrs k fs fs' ->
  both (rfrs (k + c)) (foldM (fun fs pn => do h <- pr_hash (fst pn); put_values h (fst (snd pn)) (snd (snd pn)) fs) (combine prs nvs) fs)
    (foldM (fun fs pn => do h <- pr_hash (fst pn); put_values h (fst (snd pn)) (snd (snd pn)) fs) (combine prs nvs') fs').
Proof.
  assert (MORE : forall k fs fs', rfrs k fs fs' -> forall c, rfrs (k + c) fs fs').
  { induction 1 as [k|j k h pr cols data data' fs fs' U F IH]; intros c; [constructor|]. replace (j + k + c)%nat with (j + (k + c))%nat by lia. constructor; auto. }
  induction 1 as [c|c a nvs nvs' F IH|c a b nvs nvs' [A B] F IH]; intros [|pr prs] k fs fs' R; cbn [combine foldM]; try (apply MORE; exact R); cbn [fst snd].
  - destruct (pr_hash pr) as [h|]; cbn [bind]; [|reflexivity]. apply (both_bind (rfrs k)); [replace k with (k + 0)%nat by lia; apply put_ch; auto|]. intros f f' G. apply IH. auto.
  - destruct (pr_hash pr) as [h|]; cbn [bind]; [|reflexivity]. apply (both_bind (rfrs (k + 1))); [rewrite A; apply put_ch; auto|]. intros f f' G. replace (k + S c)%nat with (k + 1 + c)%nat by lia. apply IH. auto.
Qed.
Lemma touch_prs_ch w w' f st l en ta al : ch w w' -> ch (touch_prs w f st l en ta al) (touch_prs w' f st l en ta al).
Proof. intros (A & B & C). split; [apply touch_prs_agree; auto|]. unfold touch_prs. destruct (accepts_freq false f); auto. Qed.
Lemma touch_data_ch w w' s : ch w w' -> ch (touch_data w s) (touch_data w' s).
Proof. intros (A & B & C). split; [apply touch_data_agree; auto|]. unfold touch_data. destruct (sp_ends s); auto. destruct (coord_line _ _); auto. cbv zeta. destruct (sp_cont s); auto. destruct (time_line _ _ _); auto. Qed.
Lemma into_ch e w w' s k c fs fs' : off s -> ch w w' -> (c = 1%nat \/ elsewhere s) -> rfrs k fs fs' ->
  both (rfrs (k + c)) (snd (series_into e w s fs)) (snd (series_into e w' s fs')) /\ ch (fst (series_into e w s fs)) (fst (series_into e w' s fs')).
Proof.
  intros O C K F. unfold series_into. destruct (find (fun k => dcombo_accepts k s) dcombos) as [kk|]; [|cbn; auto].
  pose proof (data_ch e w w' s c O C K) as D. destruct (get_data e w s) as [nvs|z], (get_data e w' s) as [nvs'|z']; cbn [both] in D; try contradiction; [|subst; cbn; auto].
  pose proof (touch_data_ch w w' s C) as C1. pose proof (up_length _ _ _ _ D) as LD. destruct nvs as [|a nvs], nvs' as [|b nvs']; try discriminate LD; [cbn; auto|]. cbv zeta.
  destruct (th_single (sp_multi s) (sp_th s)) as [t|z] eqn:TS; cbn [bind]; [|cbn; auto]. apply single_from in TS.
  destruct (coord_line (sp_al s) t) as [l|z] eqn:L; cbn [bind]; [|cbn; auto]. destruct (sp_ends s) as [en|]; [|cbn; auto].
  assert (AL : forall q, AP others (sp_al s) l q) by (intros q; apply (off_times _ O t); auto).
  rewrite (prs_agree others True e (touch_data w s) (touch_data w' s)) by (try apply C1; auto).
  destruct (series_prs _ _ _ _ _ _ _ _) as [prs|z]; cbn [bind]; cbn [fst snd]; [|cbn; auto]. split; [|apply touch_prs_ch; auto].
  apply puts_ch; auto.
Qed.
Definition rdf (k : nat) (d d' : df) : Prop := df_index d' = df_index d /\ df_cols d' = df_cols d /\ up_to (one_value x x') k (df_data d) (df_data d').
Lemma make_ch k pr cols data data' : up_to (one_value x x') k data data' -> both (rdf k) (make_df pr cols data) (make_df pr cols data').
Proof.
  intros F. unfold make_df. rewrite (up_length _ _ _ _ F).
  replace (forallb (fun c => Nat.eqb (List.length c) (List.length (pr_dates pr))) data') with (forallb (fun c => Nat.eqb (List.length c) (List.length (pr_dates pr))) data)
    by (induction F as [k|k a l l' F IH|k a b l l' A F IH]; cbn; auto; [rewrite IH; auto|rewrite (one_length _ _ _ _ A), IH; auto]).
  destruct (_ && _); cbn; auto. split; auto.
Qed.
Lemma build_ch k pr cols data data' : up_to (one_value x x') k data data' -> both (rdf k) (build_df pr cols data) (build_df pr cols data').
Proof.
  intros F. unfold build_df. destruct (text_eqb _ _); [|apply make_ch; auto]. pose proof (make_ch k pr cols data data' F) as M.
  destruct (make_df pr cols data), (make_df pr cols data'); cbn [both] in M; try contradiction; auto.
  destruct (pr_first pr); [|reflexivity]. destruct (pr_last pr); [|reflexivity]. apply make_ch; auto.
Qed.
Definition rdfs (k : nat) (l l' : list df) : Prop :=
  Forall2 (fun d d' => df_index d' = df_index d /\ df_cols d' = df_cols d /\ List.length (df_data d') = List.length (df_data d)) l l' /\
  up_to (one_value x x') k (List.concat (map df_data l)) (List.concat (map df_data l')).
Lemma builds_ch k fs fs' : rfrs k fs fs' ->
  both (rdfs k) (mapM (fun kf => build_df (f_pr (snd kf)) (f_cols (snd kf)) (f_data (snd kf))) fs) (mapM (fun kf => build_df (f_pr (snd kf)) (f_cols (snd kf)) (f_data (snd kf))) fs').
Proof.
  induction 1 as [k|j k h pr cols data data' fs fs' U F IH]; cbn [mapM]; [split; constructor|]. cbn [snd f_pr f_cols f_data].
  apply (both_bind (rdf j)); [apply build_ch; auto|]. intros d d' (A & B & C). apply (both_bind (rdfs k)); auto. intros l l' [G H]. cbn [both]. split; [constructor; auto; split; [auto|split; [auto|eapply up_length; eauto]]|].
  cbn [map List.concat]. apply up_app; auto.
Qed.

(** ** The call *)
Section Attempt.
Variables (p : dict) (e : env).
Hypothesis JV : just_a_value p r0 c0.
Ltac name_ := first [discriminate|unfold searched; cbn; intuition discriminate|eauto].
Lemma inside_off p1 i s : inside p p1 -> series_sp p1 i = Ok s -> off s.
Proof.
  intros I SS. destruct (series_fields _ _ _ SS) as ((va & VA & AA) & VH & VC & (vs & VS & AS) & (ve & VE & AE) & (vt & VT & AT) & (vh & TH & AH) & VF). split.
  - intros r c R E. inversion E; subst r c. eapply (jv_header _ _ _ JV i (sp_hc s)); [eapply name_of with (v := VStr (sp_hc s)); name_|]. apply cell_named_iff. exact R.
  - intros cs t r c E J R X. inversion X; subst r c. eapply (jv_composed _ _ _ JV i t); [eapply name_of with (v := sp_comp s); name_|]. apply cell_named_iff. exact R.
  - intros t line pos J L X. destruct (lies_at _ _ _ pos L) as [LA RC]. eapply (jv_time _ _ _ JV i t (sp_al s) pos).
    + eapply name_of with (v := vh); try name_; eapply theader_in; eauto.
    + eapply layout_of; eauto.
    + rewrite <- X. exact LA.
Qed.
Lemma query_off p1 i q k : inside p p1 -> pr_query p1 i = Ok q -> AP others (q_al q) (q_line q) k.
Proof.
  intros I. unfold pr_query. intros H. apply bind_ok in H as (fr & FR & H). apply bind_ok in H as (fr' & FR' & H). apply bind_ok in H as (ds & DS & H). apply bind_ok in H as (ds' & DS' & H).
  apply bind_ok in H as (th & TH & H). apply bind_ok in H as (th' & TH' & H). apply bind_ok in H as (de & DE & H). apply bind_ok in H as (u1 & U1 & H). apply bind_ok in H as (de' & DE' & H).
  apply bind_ok in H as (ta & TA & H). apply bind_ok in H as (ta' & TA' & H). apply bind_ok in H as (al & AL & H). apply bind_ok in H as (al' & AL' & H).
  apply bind_ok in H as (u2 & U2 & H). apply bind_ok in H as (t & TS & H). apply bind_ok in H as (line & L & H). injection H as <-. cbn [q_freq q_al q_line q_starts q_ends q_ta].
  apply single_from in TS. intros X. destruct (lies_at _ _ _ k L) as [LA RC]. eapply (jv_time _ _ _ JV i t al' k).
  - eapply name_of with (v := th); try name_; eapply theader_in; eauto.
  - eapply layout_of; eauto.
  - rewrite <- X. exact LA.
Qed.
Ltac fin := cbn [fst snd]; split; [reflexivity|split; [reflexivity|split; [assumption|intros; first [discriminate|assumption]]]].
Lemma many_ch n : forall i ends w w' p1, ch w w' -> inside p p1 ->
  let r := clean_many e n i ends w p1 in let r' := clean_many e n i ends w' p1 in
  snd r' = snd r /\ snd (fst r') = snd (fst r) /\ ch (fst (fst r)) (fst (fst r')) /\ inside p (snd (fst r)).
Proof.
  induction n as [|n IH]; intros i ends w w' p1 W I; cbn [clean_many]; [cbn [fst snd]; auto|].
  destruct (do thc <- py_index (dgetN n_time_header p1) i; as_text thc) as [t|z]; [|cbn [fst snd]; auto].
  destruct (find (fun kv => text_eqb t (fst kv)) ends) as [kv|].
  - destruct (py_index (dgetN n_data_ends p1) i) as [de|z] eqn:DE; [|cbn [fst snd]; auto].
    destruct (truthy de) eqn:T; apply IH; auto. eapply inside_set; eauto.
  - destruct (series_sp p1 i) as [s|z] eqn:SS; [|cbn [fst snd]; auto].
    destruct (index_ch e s w w' (inside_off _ _ _ I SS) W) as [E A].
    destruct (clean_time_index e w s) as [w1 r1]. destruct (clean_time_index e w' s) as [w1' r1']. cbn [fst snd] in E, A. subst r1'.
    destruct (do z <- r1; do _ <- assert_ (negb (z =? 0)); Ok z) as [z|z]; [|cbn [fst snd]; auto].
    destruct (py_index (dgetN n_data_ends p1) i) as [de|z'] eqn:DE; [|cbn [fst snd]; auto].
    destruct (truthy de) eqn:T; apply IH; auto. eapply inside_set; eauto.
Qed.
Lemma clean_ch w w' p1 : ch w w' -> inside p p1 ->
  let r := clean_data e w p1 in let r' := clean_data e w' p1 in
  snd r' = snd r /\ snd (fst r') = snd (fst r) /\ ch (fst (fst r)) (fst (fst r')) /\ (snd r = Ok tt -> inside p (snd (fst r))).
Proof.
  intros W I. unfold clean_data. destruct (py_index (dgetN n_time_multicolumn p1) 0) as [tm|z]; [|fin]. destruct (truthy tm).
  - destruct (series_sp p1 0) as [s|z] eqn:SS; [|fin].
    destruct (index_ch e s w w' (inside_off _ _ _ I SS) W) as [E A].
    destruct (clean_time_index e w s) as [w1 r1]. destruct (clean_time_index e w' s) as [w1' r1']. cbn [fst snd] in E, A. subst r1'.
    destruct r1 as [z|z]; [|fin]. destruct (py_index (dgetN n_data_ends p1) 0) as [de|z'] eqn:DE; [|fin]. destruct (truthy de) eqn:T; [fin|].
    destruct (set_item p1 n_data_ends (VInt z)) as [p2 r2] eqn:SI. cbn [fst snd]. split; [reflexivity|split; [reflexivity|split; [exact A|]]]. intros ->. eapply inside_all; eauto. intros de' D'. congruence.
  - destruct (py_len (dgetN n_time_header p1)) as [n|z]; [|fin].
    destruct (many_ch n 0 [] w w' p1 W I) as (A & B & C & D). auto.
Qed.
Lemma init_ch p1 : inside p p1 -> forall n i w w' fs, ch w w' ->
  snd (init_frames e n i w' p1 fs) = snd (init_frames e n i w p1 fs) /\ ch (fst (init_frames e n i w p1 fs)) (fst (init_frames e n i w' p1 fs)).
Proof.
  intros I. induction n as [|n IH]; intros i w w' fs W; cbn [init_frames]; [cbn; auto|].
  destruct (pr_query p1 i) as [q|z] eqn:Q; [|cbn; auto]. pose proof (fun k => query_off _ _ _ k I Q) as Q1.
  rewrite (prs_agree others True e w w' _ _ _ _ _ _ (proj1 W)) by auto.
  destruct (series_prs e w _ _ _ _ _ _) as [prs|z]; [|cbn; auto].
  pose proof (touch_prs_ch w w' (q_freq q) (q_starts q) (q_line q) (q_ends q) (q_ta q) (q_al q) W) as W1.
  destruct (foldM add_frame prs fs) as [fs'|z]; [|cbn; auto]. apply IH; auto.
Qed.
(** the series the cell is on *)
Variable hot : list nat.
Hypothesis HOT : forall i, on_series p i r0 c0 -> In i hot.
Definition heat (i n : nat) : nat := List.length (filter (fun j => existsb (Nat.eqb j) hot) (seq i n)).
Lemma inside_else p1 i s : inside p p1 -> series_sp p1 i = Ok s -> existsb (Nat.eqb i) hot = false -> elsewhere s.
Proof.
  intros I SS H l q L X. destruct (series_fields _ _ _ SS) as ((va & VA & AA) & VH & _). destruct (lies_at _ _ _ q L) as [LA RC].
  assert (J : In i hot).
  { apply HOT. exists (sp_hc s), (sp_al s), q. split; [eapply name_of with (v := VStr (sp_hc s)); name_|]. split; [eapply layout_of; eauto|]. rewrite <- X. exact LA. }
  assert (T : existsb (Nat.eqb i) hot = true) by (apply existsb_exists; exists i; split; auto; apply Nat.eqb_refl). congruence.
Qed.
Lemma fill_ch p1 : inside p p1 -> forall n i w w' k fs fs', ch w w' -> rfrs k fs fs' ->
  both (rfrs (k + heat i n)) (snd (fill_frames e n i w p1 fs)) (snd (fill_frames e n i w' p1 fs')).
Proof.
  intros I. induction n as [|n IH]; intros i w w' k fs fs' W F; cbn [fill_frames]; [unfold heat; cbn; rewrite Nat.add_0_r; exact F|].
  destruct (series_sp p1 i) as [s|z] eqn:SS; [|reflexivity].
  set (c := if existsb (Nat.eqb i) hot then 1%nat else 0%nat).
  assert (K : c = 1%nat \/ elsewhere s) by (unfold c; destruct (existsb _ hot) eqn:E; auto; right; eapply inside_else; eauto).
  replace (k + heat i (S n))%nat with (k + c + heat (S i) n)%nat by (unfold heat, c; cbn [seq filter]; destruct (existsb _ hot); cbn [List.length]; lia).
  destruct (into_ch e w w' s k c fs fs' (inside_off _ _ _ I SS) W K F) as [E A].
  destruct (series_into e w s fs) as [w1 [f1|z]]; destruct (series_into e w' s fs') as [w1' [f1'|z']]; cbn [fst snd both] in E, A; try contradiction; auto.
Qed.
Lemma heat_hot n : (heat 0 n <= List.length hot)%nat.
Proof.
  unfold heat. apply NoDup_incl_length; [apply NoDup_filter, seq_NoDup|]. intros j J. apply filter_In in J as [_ J]. apply existsb_exists in J as (i & I & E). apply Nat.eqb_eq in E. congruence.
Qed.
Lemma full_ch w w' : ch w w' -> both (rdfs (List.length hot)) (snd (attempt_full e w p)) (snd (attempt_full e w' p)).
Proof.
  intros W. destruct (clean_ch w w' p W (inside_refl p)) as (A & B & C & D). unfold attempt_full.
  destruct (clean_data e w p) as [[w1 p2] r1]. destruct (clean_data e w' p) as [[w1' p2'] r1']. cbn [fst snd] in *. subst.
  destruct r1 as [[]|z]; [|reflexivity]. specialize (D eq_refl).
  assert (G : both (rdfs (List.length hot)) (snd (get_data_all e w1 p2)) (snd (get_data_all e w1' p2))).
  { unfold get_data_all. destruct (zip_len p2) as [n|z]; [|reflexivity].
    destruct (init_ch p2 D n 0 w1 w1' [] C) as [E A]. destruct (init_frames e n 0 w1 p2 []) as [w2 r2]. destruct (init_frames e n 0 w1' p2 []) as [w2' r2']. cbn [fst snd] in E, A. subst r2'.
    destruct r2 as [fs|z]; [|reflexivity]. destruct (py_len (dgetN n_headers_coord p2)) as [m|z]; [|reflexivity].
    pose proof (fill_ch p2 D m 0 w2 w2' 0 fs fs A (rfrs_refl fs)) as E2. destruct (fill_frames e m 0 w2 p2 fs) as [w3 r3]. destruct (fill_frames e m 0 w2' p2 fs) as [w3' r3']. cbn [fst snd] in *.
    apply (both_bind (rfrs (0 + heat 0 m))); [exact E2|]. intros f f' F. pose proof (builds_ch _ _ _ F) as BC. pose proof (heat_hot m) as HH.
    destruct (mapM _ f), (mapM _ f'); cbn [both] in *; auto. destruct BC as [B1 B2]. split; auto. eapply up_more; eauto. }
  destruct (get_data_all e w1 p2) as [w2 r2]. destruct (get_data_all e w1' p2) as [w2' r2']. exact G.
Qed.
End Attempt.
End Change.
