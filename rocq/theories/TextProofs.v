(** Proofs about numbers stored as text (C53). *)
From Verif Require Import Base BaseFacts Cal Coord CoordFacts CoordProofs Params ParseTime TimeIndex GetData SpecCal
  SpecCoord SpecCoordFacts SpecTime TimeProofs SpecData NumberFacts DataFacts DataProofs.
Local Open Scope Z_scope.

Lemma decimal_nonneg ds n : decimal ds n -> 0 <= n.
Proof. induction 1; [lia|]. match goal with D : digit _ |- _ => unfold digit in D end. lia. Qed.
Lemma text_nonneg t neg m e : decimal_text t neg m e -> 0 <= m.
Proof. intros H. destruct H. eapply decimal_nonneg; eauto. Qed.
Lemma int_text_float t z : int_text t z -> py_float (VStr t) = Ok (float_of_Z z).
Proof.
  intros (neg & m & D & -> & N). cbn [py_float]. rewrite (float_decimal _ _ _ _ D). f_equal. pose proof (text_nonneg _ _ _ _ D) as P.
  unfold float_of_dec, float_of_Z. destruct m as [|m|m]; [|clear P|lia].
  - destruct neg; [destruct (N eq_refl eq_refl)|reflexivity].
  - cbn [Z.leb]. change (0 <=? 0) with true. cbv iota. change (10 ^ 0) with 1. rewrite Z.mul_1_r. destruct neg; reflexivity.
Qed.
Lemma int_float z : float_of_Z z <> S754_infinity (z <? 0) -> py_float (VInt z) = Ok (float_of_Z z).
Proof. intros H. apply cell_number_iff. constructor. auto. Qed.
Lemma c53_number t z : int_text t z -> forall f, cell_number (VInt z) f -> cell_number (VStr t) f.
Proof.
  intros I f F. inversion F; subst. apply cell_number_iff, int_text_float. auto.
Qed.
Lemma retyped_cont p v v' : marker_list p -> retyped p v v' ->
  handle_continuous v (sp_missings p) (sp_blank p) (sp_mv p) = handle_continuous v' (sp_missings p) (sp_blank p) (sp_mv p).
Proof.
  intros LS [u|z t I O M]; auto. unfold handle_continuous. cbn [is_none]. rewrite andb_false_r. destruct (sp_missings p) eqn:MS.
  - destruct (M eq_refl) as (M1 & M2 & M3). destruct (in_marker p LS MS (VInt z)) as (b & E & B). rewrite E. cbn [bind].
    destruct (in_marker p LS MS (VStr (strip t))) as (b' & E' & B'). rewrite E'. cbn [bind].
    assert (b = false) as -> by (destruct b; auto; tauto).
    assert (b' = false) as ->. { destruct b'; auto. exfalso. apply (M3 (VStr (strip t))); [apply stripped_iff; reflexivity|tauto]. }
    rewrite (int_float z O). change (VStr (strip t)) with (strip_val (VStr t)). rewrite float_strip, (int_text_float t z I). auto.
  - rewrite (int_float z O), (int_text_float t z I). auto.
Qed.
Lemma retyped_loose p v v' : marker_list p -> retyped p v v' ->
  handle_non_continuous v (sp_missings p) (sp_mv p) = handle_non_continuous v' (sp_missings p) (sp_mv p).
Proof.
  intros LS [u|z t I O M]; auto. unfold handle_non_continuous. cbv zeta.
  assert (E : Nat.eqb (List.length (strip t)) 0 = false).
  { destruct (Nat.eqb (List.length (strip t)) 0) eqn:E; auto. apply blank_text in E. exfalso. eapply white_no_number; eauto. apply int_text_float; eauto. }
  rewrite E, (int_float z O), (int_text_float t z I). destruct (sp_missings p) eqn:MS; auto.
  destruct (M eq_refl) as (M1 & M2 & M3). destruct (in_marker p LS MS (VInt z)) as (b & E1 & B). rewrite E1. cbn [bind].
  destruct (in_marker p LS MS (VStr t)) as (b' & E' & B'). rewrite E'. cbn [bind].
  assert (b = false) as -> by (destruct b; auto; tauto). assert (b' = false) as -> by (destruct b'; auto; tauto). auto.
Qed.
Lemma axis_read_ext al w w' l q : axis_val al w l q = axis_val al w' l q -> axis_read al w l q = axis_read al w' l q.
Proof. unfold axis_val, axis_read, read. intros ->. auto. Qed.
Lemma holds_same p w w' tl : write_line (sp_al p) (sp_th p) = Ok tl -> (forall q v, holds p w q v <-> holds p w' q v) ->
  forall q, axis_val (sp_al p) w tl q = axis_val (sp_al p) w' tl q.
Proof.
  intros WL H q. symmetry. apply (holds_iff _ _ _ _ _ WL). apply H. apply (holds_iff _ _ _ _ _ WL). auto.
Qed.
Lemma collect_ext p w w' line : marker_list p -> (forall q v, holds p w q v <-> holds p w' q v) ->
  forall l, (forall q, In q l -> retyped p (axis_val (sp_al p) w line q) (axis_val (sp_al p) w' line q)) ->
  collect w p line l = collect w' p line l.
Proof.
  intros LS HO. induction l as [|q l IH]; intros H; auto. cbn [collect].
  assert (R : retyped p (axis_val (sp_al p) w line q) (axis_val (sp_al p) w' line q)) by (apply H; left; auto).
  unfold axis_read, read. unfold axis_val in R. destruct (cell_ok _ _); [|reflexivity]. cbn [bind].
  rewrite IH by (intros; apply H; right; auto).
  replace (if sp_cont p then handle_continuous (cell w' (axis_row (sp_al p) line q) (axis_col (sp_al p) line q)) (sp_missings p) (sp_blank p) (sp_mv p)
    else handle_non_continuous (cell w' (axis_row (sp_al p) line q) (axis_col (sp_al p) line q)) (sp_missings p) (sp_mv p))
  with (if sp_cont p then handle_continuous (cell w (axis_row (sp_al p) line q) (axis_col (sp_al p) line q)) (sp_missings p) (sp_blank p) (sp_mv p)
    else handle_non_continuous (cell w (axis_row (sp_al p) line q) (axis_col (sp_al p) line q)) (sp_missings p) (sp_mv p)).
  2: { destruct (sp_cont p); [apply retyped_cont; auto|apply retyped_loose; auto]. }
  destruct (if sp_cont p then _ else _) as [nv|]; auto. cbn [bind].
  replace (to_be_added w' p q nv) with (to_be_added w p q nv); auto.
  unfold to_be_added. destruct (sp_cont p); auto. destruct (time_line (sp_al p) (sp_multi p) (sp_th p)) as [tl|] eqn:TL; auto. cbn [bind].
  rewrite (axis_read_ext (sp_al p) w w' tl (q + sp_ta p)); auto. apply (holds_same p w w' tl); auto. apply time_line_write. auto.
Qed.
Lemma mapM_ext_in {A B} (f g : A -> res B) l : (forall x, In x l -> f x = g x) -> mapM f l = mapM g l.
Proof. induction l as [|x l IH]; intros H; auto. cbn [mapM]. rewrite (H x) by (left; auto). rewrite IH by (intros; apply H; right; auto). auto. Qed.
Lemma coord_same w w' t : (forall r c, cell_named t r c -> cell w r c = cell w' r c) -> read_coord w t = read_coord w' t.
Proof.
  intros H. unfold read_coord. destruct (parse_coord t) as [[r c]|] eqn:P; auto. cbn [bind fst snd]. apply cell_named_iff in P. unfold read. rewrite (H r c P). auto.
Qed.
Lemma name_same e w w' p : (forall r c, header_cell p r c -> cell w r c = cell w' r c) -> get_name e w p = get_name e w' p.
Proof.
  intros H. unfold get_name. destruct (truthy (sp_name p)); auto. rewrite (coord_same w w' (sp_hc p)) by (intros; apply H; left; auto).
  destruct (read_coord w' (sp_hc p)); auto. cbn [bind]. destruct (py_str e a); auto. cbn [bind].
  destruct (truthy (sp_comp p)); auto. destruct (sp_comp p) as [| | | | | |cs| | ] eqn:CS; auto.
  erewrite (mapM_ext_in _ _ cs); [reflexivity|]. intros x I. cbv beta. destruct (as_text x) as [t|] eqn:X; auto. cbn [bind].
  rewrite (coord_same w w' t); auto. intros r c N. apply H. right. exists cs, t. split; auto. split; auto. destruct x; try discriminate. injection X as ->. auto.
Qed.
Lemma c53_same_values e w w' p : marker_list p -> text_stored p w w' -> get_data e w p = get_data e w' p.
Proof.
  intros LS (S1 & S2 & S3). unfold get_data. rewrite (name_same e w w' p S2). destruct (get_name e w' p); auto. cbn [bind].
  replace (get_values e w' p) with (get_values e w p); auto. unfold get_values. destruct (sp_ends p) as [en|] eqn:EN; auto.
  destruct (coord_line (sp_al p) (sp_hc p)) as [line|] eqn:L; auto. cbn [bind].
  rewrite (collect_ext p w w' line LS S3 (zrange (sp_starts p) en)).
  2: { intros q I. apply zrange_In in I. apply (S1 en q); auto. unfold coord_line in L. apply bind_ok in L. destruct L as ([r c] & P & L). injection L as <-.
       apply cell_named_iff in P. destruct (sp_al p) eqn:AL; cbn [axis_row axis_col fst snd]; econstructor; eauto. }
  destruct (collect w' p line (zrange (sp_starts p) en)) as [vs|]; auto. cbn [bind].
  match goal with |- bind ?X _ = bind ?X _ => destruct X as [groups|]; auto end. cbn [bind].
  match goal with |- bind ?X _ = bind ?X _ => destruct X as [imp|]; auto end. cbn [bind].
  destruct (imp && Nat.eqb (List.length (sp_freq p)) 1); auto. destruct groups; auto.
  destruct (write_line (sp_al p) (sp_th p)) as [tl|] eqn:WL; auto. cbn [bind].
  rewrite (mapM_ext_in (axis_read (sp_al p) w tl) (axis_read (sp_al p) w' tl)); auto.
  intros q _. apply axis_read_ext. apply (holds_same p w w' tl WL S3).
Qed.

(** str() of an int *)
Lemma digits_of t : t <> [] -> forallb is_digit t = true -> digits t t.
Proof.
  induction t as [|c t IH]; intros NE F; [congruence|]. cbn [forallb] in F. apply andb_true_iff in F. destruct F as [D F]. apply digit_iff in D.
  destruct t as [|c' t]; [apply dg_one; auto|]. apply dg_more; auto. apply IH; [congruence|auto].
Qed.
Lemma plain_text n neg s : 0 <= n -> sign s neg -> decimal_text (s ++ Z_text n) neg n 0.
Proof.
  intros N S. assert (D : decimal (Z_text n) n) by (apply decimal_iff; split; [apply Z_text_digits|apply Z_text_val]; auto).
  pose proof (dt_intro [] s (Z_text n) [] [] neg (Z_text n) 0 n 0 (Forall_nil _) (Forall_nil _) S
    (mt_int _ _ (digits_of _ (Z_text_nonempty n) (Z_text_digits n N))) ex_none D) as H.
  cbn [app] in H. rewrite app_nil_r in H. exact H.
Qed.
Lemma c53_printed z : int_text (Z_text z) z.
Proof.
  destruct z as [|n|n].
  - exists false, 0. split; [apply (plain_text 0 false []); [lia|constructor]|]. split; auto; discriminate.
  - exists false, (Zpos n). split; [apply (plain_text (Zpos n) false []); [lia|constructor]|]. split; auto; discriminate.
  - exists true, (Zpos n). split; [apply (plain_text (Zpos n) true ["-"%char]); [lia|constructor]|]. split; auto; discriminate.
Qed.
