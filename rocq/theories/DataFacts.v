(** The values read from the cells of a series (C30 - C33, C53). *)
From Verif Require Import Base BaseFacts Coord SpecCoord SpecCoordFacts Params ParseTime TimeIndex GetData SpecTime TimeFacts TimeProofs SpecData NumberFacts.
Local Open Scope Z_scope.

(** *** float_of_Z is never NaN and has the sign of the number *)
Lemma iter_shr_nonneg p : forall r, 0 <= shr_m r -> 0 <= shr_m (iter_pos shr_1 p r).
Proof.
  assert (S1 : forall r, 0 <= shr_m r -> 0 <= shr_m (shr_1 r)).
  { intros [m a b]; cbn. destruct m as [|[q|q|]|q]; cbn; lia. }
  induction p as [p IH|p IH|]; intros r H; cbn [iter_pos]; auto.
Qed.
Lemma shr_nonneg r e n : 0 <= shr_m r -> 0 <= shr_m (fst (shr r e n)).
Proof. destruct n; cbn; auto. intros. apply iter_shr_nonneg. auto. Qed.
Lemma shr_of_loc m l : shr_m (shr_record_of_loc m l) = m.
Proof. destruct l as [|[]]; reflexivity. Qed.
Lemma round_aux_shape s m e l : 0 <= m ->
  binary_round_aux prec emax s m e l = S754_zero s \/ binary_round_aux prec emax s m e l = S754_infinity s \/
  exists n k, binary_round_aux prec emax s m e l = S754_finite s n k.
Proof.
  intros H. unfold binary_round_aux. destruct (shr_fexp prec emax m e l) as [r1 e1] eqn:E1.
  assert (H1 : 0 <= shr_m r1).
  { unfold shr_fexp in E1. apply (f_equal fst) in E1. cbn [fst] in E1. rewrite <- E1. apply shr_nonneg. rewrite shr_of_loc. auto. }
  set (m1 := round_nearest_even (shr_m r1) (loc_of_shr_record r1)).
  assert (H2 : 0 <= m1).
  { unfold m1, round_nearest_even. destruct (loc_of_shr_record r1) as [|[]]; [| | |]; try lia. destruct (Z.even (shr_m r1)); lia. }
  destruct (shr_fexp prec emax m1 e1 loc_Exact) as [r2 e2] eqn:E2.
  assert (H3 : 0 <= shr_m r2).
  { unfold shr_fexp in E2. apply (f_equal fst) in E2. cbn [fst] in E2. rewrite <- E2. apply shr_nonneg. rewrite shr_of_loc. auto. }
  destruct (shr_m r2) as [|n|n]; [auto| |lia]. destruct (Zle_bool e2 (emax - prec)); [right; right; eauto|auto].
Qed.
Lemma float_of_Z_shape z : (exists s, float_of_Z z = S754_zero s) \/ float_of_Z z = S754_infinity (z <? 0) \/
  exists s n k, float_of_Z z = S754_finite s n k.
Proof.
  unfold float_of_Z, binary_normalize. destruct z as [|p|p]; [eauto| |]; unfold binary_round;
    match goal with |- context [shl_align ?a ?b ?c] => destruct (shl_align a b c) as [mz ez] end.
  - destruct (round_aux_shape false (Zpos mz) ez loc_Exact) as [H|[H|(n & k & H)]]; [lia| | |]; rewrite H; eauto 6.
  - destruct (round_aux_shape true (Zpos mz) ez loc_Exact) as [H|[H|(n & k & H)]]; [lia| | |]; rewrite H; eauto 6.
Qed.

Lemma cell_number_iff v f : cell_number v f <-> py_float v = Ok f.
Proof.
  split.
  - intros [g|z N|b|t neg m e D|t g S]; cbn [py_float]; auto.
    + cbv zeta. destruct (float_of_Z_shape z) as [[s E]|[E|(s & n & k & E)]]; [|congruence|]; rewrite E; reflexivity.
    + apply float_decimal. auto.
    + apply float_special. auto.
  - destruct v as [|b|z|g|t|d|l|d|d]; cbn [py_float]; try discriminate.
    + intros E. injection E as <-. apply (cn_bool b).
    + cbv zeta. destruct (finite_or_zero (float_of_Z z)) eqn:F; [|discriminate]. intros E. injection E as <-. constructor.
      intros Q. rewrite Q in F. discriminate.
    + intros E. injection E as <-. constructor.
    + intros E. apply float_text in E. destruct E as [(neg & m & e & D & ->)|S]; [apply cn_text; auto|apply cn_special; auto].
Qed.

(** *** markers *)
Lemma tight_iff t : tight t <-> (forall c r, t = c :: r -> ~ white c) /\ (forall c r, t = r ++ [c] -> ~ white c).
Proof.
  unfold tight. split.
  - intros [H1 H2]. split; intros c r ->.
    + rewrite white_space, H1. discriminate.
    + rewrite rev_app_distr in H2. cbn in H2. rewrite white_space, H2. discriminate.
  - intros [H1 H2]. split.
    + destruct t as [|c t]; auto. specialize (H1 c t eq_refl). rewrite white_space in H1. destruct (is_space c); congruence.
    + destruct (rev t) as [|c r] eqn:E; auto. assert (Q : t = rev r ++ [c]) by (rewrite <- (rev_involutive t), E; auto).
      specialize (H2 c (rev r) Q). rewrite white_space in H2. destruct (is_space c); congruence.
Qed.
Definition strip_val (v : pyval) : pyval := match v with VStr t => VStr (strip t) | _ => v end.
Lemma stripped_iff v v' : stripped v v' <-> v' = strip_val v.
Proof.
  split.
  - intros [a t b A B T1 T2|u N].
    + cbn. rewrite strip_around; auto; try (apply white_all; auto). apply tight_iff. auto.
    + destruct u; cbn; auto. destruct (N t eq_refl).
  - intros ->. destruct v; cbn; try (apply sd_other; congruence).
    destruct (strip_split t) as (a & b & E & A & B & TI). rewrite E at 1. apply tight_iff in TI. destruct TI.
    apply sd_text; try (apply white_all); auto.
Qed.
Lemma strip_idem t : strip (strip t) = strip t.
Proof. destruct (strip_split t) as (a & b & _ & _ & _ & TI). apply strip_tight. auto. Qed.
Lemma float_strip v : py_float (strip_val v) = py_float v.
Proof. destruct v; cbn; auto. unfold py_float_of_text. rewrite strip_idem. auto. Qed.
Lemma marker_iff p ms v : sp_mv p = VList ms -> marker p v <-> existsb (fun x => py_eq v x) ms = true.
Proof.
  intros E. unfold marker. rewrite existsb_exists. split.
  - intros (ms' & m & E' & I & Q). assert (ms' = ms) by congruence. subst. eauto.
  - intros (m & I & Q). eauto.
Qed.

(** *** reading along an axis *)
Lemma in_series_iff p w line : coord_line (sp_al p) (sp_hc p) = Ok line -> forall q v, in_series p w q v <-> axis_val (sp_al p) w line q = v.
Proof.
  intros L q v. unfold coord_line in L. apply bind_ok in L. destruct L as ([r c] & P & L). apply cell_named_iff in P. cbn [fst snd] in L.
  unfold in_series, axis_val. split.
  - intros (i & j & [r' c' A N|r' c' A N] & V); assert (X : r' = r /\ c' = c) by (apply cell_named_iff in P, N; split; congruence);
      destruct X; subst; rewrite A in *; injection L as <-; cbn; auto.
  - intros V. destruct (sp_al p) eqn:A; injection L as <-; cbn [axis_row axis_col] in V.
    + exists q, c. split; [eapply sc_column; eauto|auto].
    + exists r, q. split; [eapply sc_row; eauto|auto].
Qed.
Lemma axis_read_val al w line q v : axis_read al w line q = Ok v -> axis_val al w line q = v.
Proof. unfold axis_read, read, axis_val. destruct (cell_ok _ _); congruence. Qed.

(** *** one cell *)
Definition listed (p : sp) : Prop := sp_missings p = true -> exists ms, sp_mv p = VList ms.
Lemma is_none_iff v : is_none v = true <-> v = VNone.
Proof. destruct v; cbn; split; congruence. Qed.
Lemma in_marker p : listed p -> sp_missings p = true -> forall v, exists b, py_in v (sp_mv p) = Ok b /\ (b = true <-> marker p v).
Proof.
  intros LS M v. destruct (LS M) as [ms E]. rewrite E. cbn [py_in]. eexists. split; [reflexivity|]. symmetry. apply marker_iff. auto.
Qed.
Lemma handle_cont p v x : listed p -> handle_continuous v (sp_missings p) (sp_blank p) (sp_mv p) = Ok x <->
  match x with
  | None => sp_blank p = true /\ v = VNone
  | Some f => (sp_blank p = true -> v <> VNone) /\
      ((sp_missings p = true /\ marker p (strip_val v) /\ f = S754_nan) \/
       ((sp_missings p = true -> ~ marker p (strip_val v)) /\ py_float v = Ok f))
  end.
Proof.
  intros LS. unfold handle_continuous. destruct (sp_blank p && is_none v) eqn:B.
  { apply andb_true_iff in B. destruct B as [B N]. apply is_none_iff in N. split.
    - intros E. injection E as <-. auto.
    - destruct x; [|auto]. intros [H _]. destruct (H B N). }
  assert (NB : sp_blank p = true -> v <> VNone).
  { intros E N. rewrite E in B. apply is_none_iff in N. rewrite N in B. discriminate. }
  destruct (sp_missings p) eqn:M.
  - change (match v with VStr t => VStr (strip t) | _ => v end) with (strip_val v).
    destruct (in_marker p LS M (strip_val v)) as (b & E & MB). rewrite E. cbn [bind]. destruct b.
    + split.
      * intros Q. injection Q as <-. split; auto. left. tauto.
      * destruct x; [|intros [Q1 Q2]; destruct (NB Q1 Q2)]. intros [_ [(_ & _ & ->)|[H _]]]; auto. destruct (H eq_refl). tauto.
    + rewrite float_strip. assert (NM : ~ marker p (strip_val v)) by (rewrite <- MB; discriminate). split.
      * destruct (py_float v) eqn:F; [|discriminate]. intros Q. injection Q as <-. split; auto.
      * destruct x; [|intros [Q1 Q2]; destruct (NB Q1 Q2)]. intros [_ [(_ & H & _)|[_ H]]]; [tauto|]. rewrite H. auto.
  - split.
    + intros H. apply bind_ok in H. destruct H as (f & F & H). injection H as <-. split; auto. right. split; [discriminate|auto].
    + destruct x; [|intros [Q1 Q2]; destruct (NB Q1 Q2)]. intros [_ [(Q & _)|[_ H]]]; [discriminate|]. rewrite H. auto.
Qed.
Definition content_val (v : pyval) : pyval :=
  match v with VStr t => if Nat.eqb (List.length (strip t)) 0 then VNone else v | _ => v end.
Lemma blank_text t : Nat.eqb (List.length (strip t)) 0 = true <-> Forall white t.
Proof. rewrite <- strip_blank. destruct (List.length (strip t)); cbn; split; congruence. Qed.
Lemma content_iff v v' : content v v' <-> v' = content_val v.
Proof.
  split.
  - intros [t H|u H]; cbn.
    + apply blank_text in H. rewrite H. auto.
    + destruct u; cbn; auto. destruct (Nat.eqb (List.length (strip t)) 0) eqn:E; auto. apply blank_text in E. destruct (H t eq_refl E).
  - intros ->. destruct v; cbn; try (apply co_other; congruence). destruct (Nat.eqb (List.length (strip t)) 0) eqn:E.
    + apply co_white, blank_text. auto.
    + apply co_other. intros u Q. injection Q as <-. rewrite <- blank_text, E. discriminate.
Qed.
Lemma white_no_number t f : Forall white t -> py_float (VStr t) <> Ok f.
Proof.
  intros H E. apply blank_text in H. cbn in E. unfold py_float_of_text in E. destruct (strip t); [|discriminate]. discriminate.
Qed.
Lemma content_float v f : py_float (content_val v) = Ok f <-> py_float v = Ok f.
Proof.
  destruct v; cbn [content_val]; try tauto. destruct (Nat.eqb (List.length (strip t)) 0) eqn:E; [|tauto].
  apply blank_text in E. split; [discriminate|]. intros F. destruct (white_no_number t f E F).
Qed.
Lemma handle_non_cont p v : listed p -> exists x, handle_non_continuous v (sp_missings p) (sp_mv p) = Ok x /\
  forall f, worth p v f <-> x = Some f.
Proof.
  intros LS. unfold handle_non_continuous. cbv zeta. fold (content_val v).
  assert (W1 : forall f, cell_number v f -> content_val v = v).
  { intros f F. apply cell_number_iff, content_float in F. destruct v; auto. cbn in *. destruct (Nat.eqb (List.length (strip t)) 0); [discriminate|auto]. }
  set (parsed := match py_float (content_val v) with Ok f => Some f | Err _ => None end).
  assert (P : forall f, cell_number v f <-> parsed = Some f).
  { intros f. rewrite cell_number_iff, <- content_float. unfold parsed. destruct (py_float (content_val v)); split; congruence. }
  destruct (sp_missings p) eqn:M.
  - destruct (in_marker p LS M (content_val v)) as (b & E & MB). rewrite E. cbn [bind]. destruct b.
    + eexists. split; [reflexivity|]. intros f. split.
      * intros [v' _ C MK|f0 N C]; auto. rewrite (W1 f0 C) in MB. destruct (N M). tauto.
      * intros Q. injection Q as <-. eapply wo_marker; eauto; [apply content_iff; reflexivity|tauto].
    + exists parsed. split; [reflexivity|]. intros f. split.
      * intros [v' _ C MK|f0 N C]; [apply content_iff in C; subst v'; rewrite <- MB in MK; discriminate|apply P; auto].
      * intros Q. apply P in Q. apply wo_number; auto. intros _ MK. rewrite <- (W1 f Q), <- MB in MK. discriminate.
  - exists parsed. split; [reflexivity|]. intros f. split.
    + intros [v' Q _ _|f0 N C]; [congruence|apply P; auto].
    + intros Q. apply wo_number; [congruence|apply P; auto].
Qed.

(** *** all of them *)
Lemma collect_cont p w line : listed p -> sp_cont p = true -> coord_line (sp_al p) (sp_hc p) = Ok line ->
  forall n a en vs, n = Z.to_nat (en + 1 - a) ->
  (collect w p line (zrange a en) = Ok vs <->
   (forall q, a <= q <= en -> exists v, axis_read (sp_al p) w line q = Ok v) /\
   exists l, cells_from p w en a l /\ continuous_values p l vs).
Proof.
  intros LS CT CL. induction n as [|n IH]; intros a en vs E.
  { assert (en < a) by lia. rewrite zrange_nil by auto. cbn [collect]. split.
    - intros Q. injection Q as <-. split; [intros; lia|]. exists []. split; constructor; auto.
    - intros (_ & l & C & V). inversion C; subst; [|lia]. inversion V; auto. }
  assert (L : a <= en) by lia. rewrite zrange_cons by auto. cbn [collect].
  assert (IH' := IH (a + 1) en). specialize (fun vs => IH' vs ltac:(lia)).
  split.
  - intros H. apply bind_ok in H. destruct H as (v & R & H). apply bind_ok in H. destruct H as (nv & HV & H).
    apply bind_ok in H. destruct H as (add & AD & H). apply bind_ok in H. destruct H as (vs' & CV & H).
    apply IH' in CV. destruct CV as (RD & l & CF & CV).
    assert (HV' : handle_continuous v (sp_missings p) (sp_blank p) (sp_mv p) = Ok nv).
    { rewrite CT in HV. destruct (handle_continuous v _ _ _); congruence. }
    apply handle_cont in HV'; auto.
    assert (VS : in_series p w a v) by (apply (in_series_iff p w line CL), axis_read_val; auto).
    split.
    { intros q Q. destruct (Z.eq_dec q a) as [->|]; [eauto|apply RD; lia]. }
    exists (v :: l). split; [constructor; auto|].
    unfold to_be_added in AD. rewrite CT in AD. destruct nv as [f|]; injection AD as <-; injection H as <-.
    + destruct HV' as [NB [(M & MK & ->)|[NM F]]].
      * eapply cv_marker; eauto. apply stripped_iff. auto.
      * apply cv_number with (v' := strip_val v); auto; [apply stripped_iff; auto|apply cell_number_iff; auto].
    + destruct HV' as [B ->]. apply cv_blank; auto.
  - intros (RD & l & CF & CV). destruct (RD a) as [v R]; [lia|]. rewrite R. cbn [bind].
    inversion CF as [|a' v' l' L' VS CF']; subst; [lia|]. apply (in_series_iff p w line CL) in VS.
    apply axis_read_val in R. rewrite R in VS. subst v'. clear R. rewrite CT.
    assert (RD' : forall q, a + 1 <= q <= en -> exists v, axis_read (sp_al p) w line q = Ok v) by (intros; apply RD; lia).
    assert (G : forall nv vs', handle_continuous v (sp_missings p) (sp_blank p) (sp_mv p) = Ok nv -> continuous_values p l' vs' ->
      vs = match nv with Some f => f :: vs' | None => vs' end ->
      (do nv <- match handle_continuous v (sp_missings p) (sp_blank p) (sp_mv p) with Ok x => Ok x | Err _ => Err EOther end;
       do add <- to_be_added w p a nv;
       do vs <- collect w p line (zrange (a + 1) en);
       match nv with Some f => if add : bool then Ok (f :: vs) else Ok vs | None => Ok vs end) = Ok vs).
    { intros nv vs' HV CV' ->. rewrite HV. cbn [bind]. unfold to_be_added. rewrite CT. cbn [bind].
      assert (C' : collect w p line (zrange (a + 1) en) = Ok vs') by (apply IH'; eauto). rewrite C'. cbn [bind]. destruct nv; auto. }
    inversion CV as [|l0 vs' B CV'|v0 v' l0 vs' NB M ST MK CV'|v0 v' f l0 vs' NB ST NM F CV']; subst.
    + eapply (G None); [|exact CV'|reflexivity]. apply handle_cont; auto.
    + eapply (G (Some S754_nan)); [|exact CV'|reflexivity]. apply handle_cont; auto. split; auto. left. apply stripped_iff in ST. subst. auto.
    + eapply (G (Some f)); [|exact CV'|reflexivity]. apply handle_cont; auto. split; auto. right. apply stripped_iff in ST. subst. split; auto. apply cell_number_iff. auto.
Qed.
Lemma one_char al c l : coord_line al [c] <> Ok l.
Proof.
  unfold coord_line. intros H. apply bind_ok in H. destruct H as ([r k] & P & _). apply cell_named_iff in P.
  destruct P as (x & d & E & C & _ & D & _). apply (f_equal (@List.length _)) in E. rewrite app_length in E. cbn in E.
  assert (x <> []) by (intros ->; inversion C as [|t ? ? ? ? ? Q]; destruct t; discriminate).
  assert (d <> []) by (intros ->; inversion D as [|t ? ? ? ? ? Q]; destruct t; discriminate).
  destruct x, d; try congruence. cbn in E. lia.
Qed.
Lemma time_line_write p l : time_line (sp_al p) (sp_multi p) (sp_th p) = Ok l -> write_line (sp_al p) (sp_th p) = Ok l.
Proof.
  unfold time_line, write_line. destruct (sp_multi p); destruct (sp_th p) as [[|c t]|[|t ts]]; try discriminate; auto.
  intros H. destruct (one_char _ _ _ H).
Qed.
Lemma is_date_iff v : is_date v = true <-> is_datetime v.
Proof. unfold is_datetime. destruct v; cbn; split; try discriminate; eauto; intros [? E]; congruence. Qed.

Lemma collect_loose p w line tl : listed p -> sp_cont p = false -> coord_line (sp_al p) (sp_hc p) = Ok line ->
  time_line (sp_al p) (sp_multi p) (sp_th p) = Ok tl ->
  forall n a en vs, n = Z.to_nat (en + 1 - a) ->
  (collect w p line (zrange a en) = Ok vs <->
   (forall q, a <= q <= en -> (exists v, axis_read (sp_al p) w line q = Ok v) /\ exists v, axis_read (sp_al p) w tl (q + sp_ta p) = Ok v) /\
   exists l, dated_cells_from p w en a l /\ loose_values p l vs).
Proof.
  intros LS CT CL TL. pose proof (time_line_write _ _ TL) as WL. induction n as [|n IH]; intros a en vs E.
  { assert (en < a) by lia. rewrite zrange_nil by auto. cbn [collect]. split.
    - intros Q. injection Q as <-. split; [intros; lia|]. exists []. split; constructor; auto.
    - intros (_ & l & C & V). inversion C; subst; [|lia]. inversion V; auto. }
  assert (L : a <= en) by lia. rewrite zrange_cons by auto. cbn [collect]. rewrite CT.
  assert (IH' := IH (a + 1) en). specialize (fun vs => IH' vs ltac:(lia)).
  split.
  - intros H. apply bind_ok in H. destruct H as (v & R & H). apply bind_ok in H. destruct H as (nv & HV & H).
    apply bind_ok in H. destruct H as (add & AD & H). apply bind_ok in H. destruct H as (vs' & CV & H).
    apply IH' in CV. destruct CV as (RD & l & CF & CV).
    destruct (handle_non_cont p v LS) as (x & HN & WO). rewrite HN in HV. injection HV as <-.
    unfold to_be_added in AD. rewrite CT, TL in AD. cbn [bind] in AD. apply bind_ok in AD. destruct AD as (t & RT & AD). injection AD as <-.
    split.
    { intros q Q. destruct (Z.eq_dec q a) as [->|]; [eauto|apply RD; lia]. }
    exists ((v, t) :: l). split.
    { constructor; auto; [apply (in_series_iff p w line CL), axis_read_val; auto|apply (holds_iff _ _ _ _ _ WL), axis_read_val; auto]. }
    destruct x as [f|].
    + cbn [andb] in H. destruct (is_date t) eqn:D; injection H as <-.
      * apply lv_taken; auto; [apply is_date_iff; auto|apply WO; auto].
      * apply lv_left; auto. left. rewrite <- is_date_iff, D. discriminate.
    + injection H as <-. apply lv_left; auto. right. intros f F. apply WO in F. discriminate.
  - intros (RD & l & CF & CV). destruct (RD a) as [[v R] [t RT]]; [lia|]. rewrite R. cbn [bind].
    inversion CF as [|a' v' t' l' L' VS TS CF']; subst; [lia|]. apply (in_series_iff p w line CL) in VS. apply (holds_iff _ _ _ _ _ WL) in TS.
    unfold to_be_added. rewrite CT, TL. cbn [bind]. rewrite RT. cbn [bind].
    apply axis_read_val in R, RT. rewrite R in VS. rewrite RT in TS. subst v' t'. clear R RT.
    destruct (handle_non_cont p v LS) as (x & HN & WO). rewrite HN. cbn [bind].
    assert (RD' : forall q, a + 1 <= q <= en -> (exists v, axis_read (sp_al p) w line q = Ok v) /\ exists v, axis_read (sp_al p) w tl (q + sp_ta p) = Ok v)
      by (intros; apply RD; lia).
    assert (G : forall vs', loose_values p l' vs' -> collect w p line (zrange (a + 1) en) = Ok vs') by (intros vs' Q; apply IH'; eauto).
    inversion CV as [|v0 t0 f l0 vs' DT WF CV'|v0 t0 l0 vs' NO CV']; subst; rewrite (G _ CV'); cbn [bind].
    + apply WO in WF. rewrite WF. apply is_date_iff in DT. rewrite DT. auto.
    + destruct x as [f|]; auto. destruct (is_date t) eqn:D; auto. apply is_date_iff in D.
      destruct NO as [NO|NO]; [tauto|]. destruct (NO f). apply WO. auto.
Qed.
