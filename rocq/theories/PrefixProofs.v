(** Proofs for C88. *)
From Coq Require Import ZifyBool ZifyNat.
From Verif Require Import Base BaseFacts Cal Coord CoordFacts XlMethods Params ParseTime TimeIndex TimeFacts TimeProofs GetData PeriodRange DataFrame Scrape Xlseries
  SpecCoord SpecCoordFacts SpecParams ParamsProofs3 SpecAttempts SpecTime SpecEnd SpecReach SpecFrames FrameProofs FrameProofs2 SpecScrape ScrapeFacts ScrapeProofs ScrapeProofs2 ReachProofs ReachProofs2 ReachProofs3
  SpecSelect SelectProofs SelectProofs2 SelectProofs3 SelectProofs4 SpecPrefix.
Local Open Scope Z_scope.

Definition until (s : sp) (m : Z) : sp :=
  mksp (sp_al s) (sp_name s) (sp_hc s) (sp_comp s) (sp_ctx s) (sp_starts s) (Some m) (sp_cont s) (sp_blank s) (sp_missings s) (sp_mv s) (sp_ta s) (sp_multi s) (sp_th s) (sp_composed s) (sp_freq s).
Definition early (al : align) (m r c : Z) : Prop := (match al with Vert => r | Horiz => c end) <= m.
Lemma early_at al m line q : q <= m -> AP (early al m) al line q.
Proof. intros H. unfold AP, early. destruct al; cbn; auto. Qed.

(** ** Cleaning *)
Lemma loop_until e s m m' tl wl : forall l1 l2 prev st i j, (forall q, In q l2 -> (i, j) <> (axis_row (sp_al s) wl q, axis_col (sp_al s) wl q)) ->
  cell (fst (clean_loop e (until s m') tl wl (l1 ++ l2) prev st)) i j = cell (fst (clean_loop e (until s m) tl wl l1 prev st)) i j.
Proof.
  induction l1 as [|q l1 IH]; intros l2 prev st i j N.
  - cbn [app]. destruct (clean_loop e (until s m') tl wl l2 prev st) as [w' r] eqn:C. cbn [fst]. rewrite (loop_frame e (until s m') tl wl l2 prev st w' r C i j N). cbn [clean_loop]. destruct prev; reflexivity.
  - cbn [app clean_loop]. change (sp_al (until s m')) with (sp_al (until s m)). change (sp_ta (until s m')) with (sp_ta (until s m)). change (sp_cont (until s m')) with (sp_cont (until s m)). change (sp_blank (until s m')) with (sp_blank (until s m)).
    destruct (do c <- _; _) as [[curr next]|x]; [|reflexivity]. cbv zeta. change (process_value e (until s m')) with (process_value e (until s m)). change (sp_starts (until s m')) with (sp_starts (until s m)).
    destruct (must_be_time _ curr).
    + destruct (process_value _ _ _ _ _) as [sticky [[[d lasts] lf]|x]]; [apply IH; auto|]. destruct (_ || _); [apply IH; auto|]. cbn [until sp_ends]. rewrite andb_false_r. reflexivity.
    + destruct (_ && _); [apply IH; auto|reflexivity].
Qed.
Lemma index_until e w s m m' : m <= m' -> sp_starts s <= m -> agree (early (sp_al s) m) False (fst (clean_time_index e w (until s m))) (fst (clean_time_index e w (until s m'))).
Proof.
  intros L B. split; [contradiction|]. intros i j E. unfold clean_time_index. change (find (fun k => combo_accepts k (until s m')) combos) with (find (fun k => combo_accepts k (until s m)) combos).
  destruct (find _ combos) as [k|]; [|reflexivity]. destruct (k_multitable k); [reflexivity|]. unfold clean_single_table. cbn [until sp_ends sp_starts last_position sp_al sp_th sp_multi].
  rewrite (zrange_app (sp_starts s) m m') by lia. pose proof (zrange_in (m + 1) m') as ZR. destruct (zrange (sp_starts s) m) as [|q qs] eqn:Z0.
  { exfalso. assert (I : In (sp_starts s) (zrange (sp_starts s) m)) by (apply zrange_In; lia). rewrite Z0 in I. destruct I. }
  cbn [app]. destruct (time_lines _ _ _) as [tl|x]; [|reflexivity]. destruct (write_line _ _) as [wl|x]; [|reflexivity].
  change (q :: qs ++ zrange (m + 1) m') with ((q :: qs) ++ zrange (m + 1) m'). apply loop_until. intros p I X. apply ZR in I. unfold early in E. inversion X as [[X1 X2]]. destruct (sp_al s); cbn in *; lia.
Qed.

(** ** Values *)
Section Values.
Variables (w w' : worksheet) (s : sp) (m m' : Z).
Hypothesis W : agree (early (sp_al s) m) False w w'.
Hypothesis TA : sp_ta s <= 0 \/ (sp_ta s = 1 /\ sp_cont s = true).
Lemma collect_until l : forall qs, (forall q, In q qs -> q <= m) -> collect w' (until s m') l qs = collect w (until s m) l qs.
Proof.
  induction qs as [|q qs IH]; intros B; cbn [collect]; auto. change (sp_al (until s m')) with (sp_al s). change (sp_al (until s m)) with (sp_al s).
  rewrite (read_agree (early (sp_al s) m) False w w') by (auto; apply early_at, B; left; auto). destruct (axis_read (sp_al s) w l q); cbn [bind]; auto.
  change (sp_cont (until s m')) with (sp_cont (until s m)). change (sp_missings (until s m')) with (sp_missings (until s m)). change (sp_blank (until s m')) with (sp_blank (until s m)). change (sp_mv (until s m')) with (sp_mv (until s m)).
  match goal with |- bind ?r _ = bind ?r _ => destruct r as [nv|]; cbn [bind]; auto end.
  assert (A : to_be_added w' (until s m') q nv = to_be_added w (until s m) q nv).
  { unfold to_be_added. cbn [until sp_cont sp_al sp_multi sp_th sp_ta]. destruct (sp_cont s); auto. destruct (time_line _ _ _) as [k|]; cbn [bind]; auto.
    rewrite (read_agree (early (sp_al s) m) False w w'); auto. apply early_at. assert (q <= m) by (apply B; left; auto). destruct TA as [|[_ X]]; [lia|discriminate]. }
  rewrite A. rewrite IH by (intros; apply B; right; auto). auto.
Qed.
Lemma collect_app l p0 : forall q1 q2 v, collect w' p0 l (q1 ++ q2) = Ok v -> exists v1, collect w' p0 l q1 = Ok v1 /\ begins v1 v.
Proof.
  induction q1 as [|q q1 IH]; intros q2 v; cbn [app collect]; [intros H; exists []; split; auto; exists v; auto|].
  intros H. apply bind_ok in H as (u & -> & H). apply bind_ok in H as (nv & N & H). apply bind_ok in H as (ad & A & H). apply bind_ok in H as (vs & C & H).
  destruct (IH q2 vs C) as (v1 & C1 & r & ->). cbn [bind]. rewrite N. cbn [bind]. rewrite A, C1. cbn [bind]. destruct nv as [f|]; [destruct ad|]; injection H as <-; eexists; (split; [reflexivity|]); exists r; auto.
Qed.
Lemma collect_length l p0 : forall qs v, collect w' p0 l qs = Ok v -> (List.length v <= List.length qs)%nat.
Proof.
  induction qs as [|q qs IH]; intros v; cbn [collect]; [intros H; injection H as <-; auto|]. intros H.
  apply bind_ok in H as (u & _ & H). apply bind_ok in H as (nv & _ & H). apply bind_ok in H as (ad & _ & H). apply bind_ok in H as (vs & C & H). specialize (IH vs C).
  destruct nv as [f|]; [destruct ad|]; injection H as <-; cbn; lia.
Qed.
Lemma fill_begins e fr : forall l1 l2 ex r, fill_implicit e fr ex (l1 ++ l2) = Ok r -> exists r1, fill_implicit e fr ex l1 = Ok r1 /\ begins r1 r.
Proof.
  induction l1 as [|[tv f] l1 IH]; intros l2 ex r; cbn [app fill_implicit]; [intros H; exists []; split; auto; exists r; auto|].
  intros H. apply bind_ok in H as (obs & -> & H). cbn [bind] in *. apply bind_ok in H as (h & -> & H). cbn [bind] in *. apply bind_ok in H as (ex' & -> & H). cbn [bind] in *. apply bind_ok in H as (rest & R & H). injection H as <-.
  destruct (IH l2 _ rest R) as (r1 & -> & r2 & ->). cbn [bind]. eexists. split; [reflexivity|]. exists r2. rewrite <- app_assoc. reflexivity.
Qed.
Lemma combine_begins {A B} : forall (t1 : list A) (v1 : list B) t2 v2, (List.length v1 <= List.length t1)%nat -> exists l2, combine (t1 ++ t2) (v1 ++ v2) = combine t1 v1 ++ l2.
Proof.
  induction t1 as [|t t1 IH]; intros [|v v1] t2 v2 L; cbn in *; try lia; eauto. destruct (IH v1 t2 v2 ltac:(lia)) as (l2 & ->). eauto.
Qed.
Lemma mapM_app {A B} (f : A -> res B) : forall l1 l2 r, mapM f (l1 ++ l2) = Ok r -> exists r1 r2, mapM f l1 = Ok r1 /\ r = r1 ++ r2.
Proof.
  induction l1 as [|a l1 IH]; intros l2 r; cbn [app mapM]; [intros H; exists [], r; auto|]. intros H. apply bind_ok in H as (b & -> & H). apply bind_ok in H as (bs & M & H). injection H as <-.
  destruct (IH l2 bs M) as (r1 & r2 & -> & ->). exists (b :: r1), r2. auto.
Qed.
Lemma mapM_length {A B} (f : A -> res B) : forall l r, mapM f l = Ok r -> List.length r = List.length l.
Proof. induction l as [|a l IH]; intros r; cbn [mapM]; [intros H; injection H as <-; auto|]. intros H. apply bind_ok in H as (b & _ & H). apply bind_ok in H as (bs & M & H). injection H as <-. cbn. f_equal. auto. Qed.
Lemma values_until e v vs v' vs' : List.length (sp_freq s) = 1%nat -> m <= m' -> sp_starts s <= m + 1 ->
  get_values e w (until s m) = Ok (v :: vs) -> get_values e w' (until s m') = Ok (v' :: vs') -> begins v v'.
Proof.
  intros F L B H H'. unfold get_values in *. cbn [until sp_ends sp_al sp_hc sp_starts sp_freq sp_missings sp_mv sp_th] in *. rewrite F in *. cbn [Nat.eqb] in *.
  destruct (coord_line (sp_al s) (sp_hc s)) as [l|]; cbn [bind] in *; [|discriminate]. cbv zeta in *. rewrite (zrange_app _ m m') in H' by lia.
  apply bind_ok in H' as (c' & C' & H'). destruct (collect_app l _ _ _ _ C') as (c1 & C1 & r & ->). pose proof (collect_length l _ _ _ C1) as LC.
  rewrite (collect_until l) in C1 by (intros q I; apply zrange_in in I; lia). rewrite C1 in H. cbn [bind] in *.
  destruct (if sp_missings s then _ else _) as [imp|]; cbn [bind] in *; [|discriminate]. rewrite andb_true_r in *. destruct imp.
  - destruct c1 as [|c c1]; [discriminate H|]. cbn [app] in H'. destruct (write_line _ _) as [tl|]; cbn [bind] in *; [|discriminate].
    apply bind_ok in H' as (tvs' & T' & H'). apply bind_ok in H' as (r' & R' & H'). injection H' as <- <-. apply bind_ok in H as (tvs & T0 & H). apply bind_ok in H as (r0 & R & H). injection H as <- <-.
    destruct (mapM_app _ _ _ _ T') as (t1 & t2 & T1 & ->).
    rewrite (mapM_ext (axis_read (sp_al s) w' tl) (axis_read (sp_al s) w tl)) in T1 by (intros q I; apply zrange_in in I; apply (read_agree (early (sp_al s) m) False); auto; apply early_at; lia).
    rewrite T0 in T1. injection T1 as <-. pose proof (mapM_length _ _ _ T0) as LT. change (c :: c1 ++ r) with ((c :: c1) ++ r) in R'.
    destruct (combine_begins tvs (c :: c1) t2 r ltac:(lia)) as (l2 & E). rewrite E in R'. destruct (fill_begins e _ _ _ _ _ R') as (r1 & R1 & X). rewrite R in R1. injection R1 as <-. auto.
  - destruct c1 as [|c c1]; [discriminate H|]. cbn [app] in H'. injection H as <- <-. injection H' as <- <-. exists r. auto.
Qed.
End Values.
