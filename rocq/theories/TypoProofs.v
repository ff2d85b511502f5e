(** Typing mistakes in the dates of an index (C63). *)
From Coq Require Import Sorted ZifyBool ZifyNat.
From Verif Require Import Base BaseFacts Cal Coord CoordFacts XlMethods Params ParseTime TimeIndex GetData PeriodRange Attempts DataFrame Scrape Xlseries
  SpecCal CalFacts CalProofs SpecCoord SpecCoordFacts SpecParams SpecAttempts
  SpecTime TimeFacts TimeProofs TimeProofs2 RangeExact TimeEnd SpecData SpecFrames SpecScrape SpecParse SpecSimple IndexWalk IndexTexts ComposedProofs SimpleProofs2
  SpecEnd EndFacts EndAttempt EndBuild EndCall SpecText EndText SpecTypo.
Local Open Scope Z_scope.

(** ** One date *)
Lemma typo_iff c x : time_value_typo c x = true <-> one_wrong c x.
Proof.
  unfold time_value_typo. split.
  - destruct (dt_d c =? dt_d x) eqn:A, (dt_m c =? dt_m x) eqn:B, (dt_y c =? dt_y x) eqn:C; cbn; intros H; try discriminate;
      [apply ow_year|apply ow_month|apply ow_day]; lia.
  - intros [A B C|A B C|A B C].
    + replace (dt_d c =? dt_d x) with false by lia. rewrite B, C, !Z.eqb_refl. reflexivity.
    + replace (dt_m c =? dt_m x) with false by lia. rewrite A, C, !Z.eqb_refl. reflexivity.
    + replace (dt_y c =? dt_y x) with false by lia. rewrite A, B, !Z.eqb_refl. reflexivity.
Qed.
Lemma typed_fixed ms mv c l x f : increment_time l 1 f = Ok x -> typed ms c (Some l) x -> correct_progression (Some l) c f ms mv = Ok x.
Proof.
  intros I T. unfold correct_progression. rewrite I. cbn [bind]. destruct T as [->|l' E W B|l' E W -> B].
  - rewrite dt_eqb_refl. reflexivity.
  - inversion E; subst l'. destruct (dt_eqb x c) eqn:Q; [apply dt_eqb_eq in Q; subst; auto|].
    apply ltb_earlier in B. rewrite B. apply typo_iff in W. rewrite W. reflexivity.
  - inversion E; subst l'. destruct (dt_eqb x c) eqn:Q; [apply dt_eqb_eq in Q; subst; auto|].
    apply typo_iff in W. destruct (dt_ltb c l); [rewrite W; reflexivity|]. apply ltb_earlier in B. rewrite B. cbn [negb andb]. rewrite W. reflexivity.
Qed.
Lemma simple_pool e tp q c l n : tp_composed tp = false -> q = None \/ q = Some SMonth1 -> parse_with_pool e tp q (VDate c) l n = (Some SMonth1, Ok c).
Proof.
  intros C [-> | ->]; unfold parse_with_pool.
  - cbn [pool_loop strategies accepts]. rewrite C. reflexivity.
  - reflexivity.
Qed.

(** ** The index *)
Lemma typo_cleaned e w s al f t r c z m ds : open_series al t (T f) z m s -> m = z + Z.of_nat (List.length ds) - 1 -> (2 <= List.length ds)%nat ->
  cell_named t r c -> periodic f -> consecutive f ds -> Forall (fun x => real_date x /\ 1678 <= dt_y x <= 2261) ds ->
  1 <= z /\ (al = Horiz -> m < 18278) -> index_ends s w m -> sp_composed s = false ->
  (forall k x, nth_error ds k = Some x -> exists y, holds s w (z + Z.of_nat k) (VDate y) /\ typed (sp_missings s) y (date_before ds k) x) ->
  (exists v, holds s w (m + 1) v) ->
  cleaned e w s (date_at ds z) m.
Proof.
  intros (O1 & O2 & O3 & O4 & O5 & O6 & O7 & O9) M TWO CN FREQ CONS YEARS [I1 I2] ENDS CO AT (vm & AFT).
  assert (FL : frequency_letter f) by (unfold periodic, frequency_letter in *; cbn in *; tauto).
  assert (CELL : forall q, z <= q <= m -> exists y, holds s w q (VDate y) /\ typed (sp_missings s) y (if q =? z then None else Some (date_at ds z (q - 1))) (date_at ds z q)).
  { intros q Q. destruct (AT (Z.to_nat (q - z)) (date_at ds z q)) as (y & H & TY); [apply date_at_nth; lia|].
    replace (z + Z.of_nat (Z.to_nat (q - z))) with q in H by lia. exists y. split; auto.
    replace (if q =? z then None else Some (date_at ds z (q - 1))) with (date_before ds (Z.to_nat (q - z))); auto.
    destruct (q =? z) eqn:QZ.
    - replace (Z.to_nat (q - z)) with 0%nat by lia. reflexivity.
    - replace (Z.to_nat (q - z)) with (S (Z.to_nat (q - 1 - z))) by lia. cbn [date_before]. apply date_at_nth. lia. }
  unfold cleaned. apply (walk_index e w s t r c SMonth1); auto.
  - rewrite O6. destruct FL as [<-|[<-|[<-|[<-|[<-|[<-|[]]]]]]]; discriminate.
  - rewrite O3. split; auto. rewrite O1. destruct al; auto.
  - rewrite O3. intros q Q. destruct (CELL q Q) as (y & H & TY).
    assert (NX : exists n, holds s w (q + 1) n).
    { destruct (Z.eq_dec q m) as [->|NE]; [eauto|]. destruct (CELL (q + 1)) as (y' & H' & _); [lia|]. eauto. }
    destruct NX as (n & HN). exists (VDate y), n. split; auto. split; [intros NT; inversion NT|]. split; auto.
    intros st L1 L2. unfold process_value. cbn zeta.
    rewrite simple_pool; auto; [|rewrite L2; unfold before; destruct (q =? sp_starts s); auto].
    cbn [bind]. unfold correct_state. rewrite (letter_single s f O6 FL). rewrite O6.
    assert (PR : correct_progression (cs_last st) y (T f) (sp_missings s) (sp_mv s) = Ok (date_at ds z q) /\ same_as_last (date_at ds z q) (cs_last st) = false).
    { rewrite L1. unfold before. rewrite O3. destruct (q =? z) eqn:QZ.
      - split; auto. destruct TY as [->|l E|l E]; [reflexivity|discriminate..].
      - assert (OP : one_period f (date_at ds z (q - 1)) (date_at ds z q)).
        { apply (consecutive_next f ds CONS (Z.to_nat (q - 1 - z))); [apply date_at_nth; lia|].
          replace (S (Z.to_nat (q - 1 - z))) with (Z.to_nat (q - z)) by lia. apply date_at_nth; lia. }
        assert (R : forall q', z <= q' <= m -> real_date (date_at ds z q')).
        { intros q' Q'. assert (N : nth_error ds (Z.to_nat (q' - z)) = Some (date_at ds z q')) by (apply date_at_nth; lia).
          apply (EndAttempt.Forall_nth_error _ _ YEARS) in N. apply N. }
        assert (R1 := R (q - 1) ltac:(lia)). assert (R2 := R q Q).
        split; [apply typed_fixed; auto; apply period_step; auto|]. cbn [same_as_last].
        destruct (dt_eqb _ _) eqn:B; auto. apply dt_eqb_eq in B. destruct (period_earlier f _ _ R1 R2 OP) as [_ X]. rewrite B in X. destruct (earlier_irrefl _ X). }
    destruct PR as [-> P2]. cbn [bind fst]. rewrite P2. reflexivity.
  - lia.
  - rewrite O3, O5. lia.
Qed.

(** ** The call *)
Lemma typo_alone e d w cells time z m f se names ds data hs t a :
  request d cells time z m f se -> periodic f -> (se_missings se = true -> ~ In (VStr (pname "Implicit")) (se_markers se)) ->
  names_cells hs cells -> cell_named t (fst time) (snd time) ->
  (forall k, In k PARAM_NAMES -> fixed a (List.length cells) k (requested d z m f se hs t k)) ->
  typo_table d w cells time z m f se ds data -> table_names e d w cells names ->
  exists pn cols, pandas_name f pn /\ column_names names cols /\ alone e w a = Ok [mkdf (mkpr (T pn) ds) cols data].
Proof.
  intros RQ FREQ NI NC TN F [c1 c2 c0 c3 c4 c5 c6 c7 c8 c9 c10 c11] TNM.
  apply (cleaned_alone e d w cells time z m f se names ds data hs t a); auto.
  set (s := series_of d z m f se hs t 0).
  assert (SER : open_series (se_align se) t (T f) z m s).
  { unfold s, series_of, open_series.
    cbn [sp_al sp_name sp_hc sp_comp sp_ctx sp_starts sp_ends sp_cont sp_blank sp_missings sp_mv sp_ta sp_multi sp_th sp_composed sp_freq].
    destruct (is_none (dgetN n_data_ends d)); repeat (split; auto); intros MS; exists (se_markers se); split; auto. }
  apply (typo_cleaned e w s (se_align se) f t (fst time) (snd time) z m ds); auto.
  - apply (stops_ends d cells time z m f se RQ); auto.
  - intros k x K. destruct (c3 k x K) as (y & A & TY). exists y. split; auto. apply (along_holds time se s w t); auto.
  - eexists. apply (along_holds time se s w t); auto.
Qed.
Lemma typo_same w w' d cells time z m f se ds data : same_sheet w w' -> typo_table d w cells time z m f se ds data -> typo_table d w' cells time z m f se ds data.
Proof.
  intros SM [c1 c2 c0 c3 c4 c5 c6 c7 c8 c9 c10 c11]. constructor; auto.
  - intros k x K. destruct (c3 k x K) as (y & A & TY). exists y. split; auto. rewrite <- (along_same _ _ SM). auto.
  - apply (stops_same _ _ SM). auto.
  - eapply F2_imp; [|exact c11]. intros rc l (L & V). split; auto. intros k x K. rewrite <- (along_same _ _ SM). auto.
Qed.
Lemma c63 e uni json st wb q preserve name i d cells time z m f se names ds data :
  wb_ok st wb -> resolves uni strip (names_of st wb) q name -> first_such (fun i => title (sheet st i) = name) wb i ->
  bounded (sheet st i) ->
  request d cells time z m f se -> periodic f -> (se_missings se = true -> ~ In (VStr (pname "Implicit")) (se_markers se)) ->
  typo_table d (sheet st i) cells time z m f se ds data -> table_names e d (sheet st i) cells names ->
  exists n cols pid, pandas_name f n /\ column_names names cols /\
    snd (get_data_frames e uni json st wb (UInput (PDict d)) q false preserve) = Ok (DF (mkdf (mkpr (T n) ds) cols data), name, pid).
Proof.
  intros WB RES FS BO RQ FREQ NOIMP CT TN.
  assert (NM : ~ given (pname "series_names") d \/ exists ns, dget (pname "series_names") d = Some (VList (map VStr ns)) /\ List.length ns = List.length cells).
  { destruct TN as [G L _|G _]; eauto. }
  set (P := fun fr => exists n cols, pandas_name f n /\ column_names names cols /\ fr = mkdf (mkpr (T n) ds) cols data).
  destruct (call_first P e uni json st wb q preserve name i d cells time z m f se WB RES FS BO RQ FREQ (yt_after _ _ _ _ _ _ _ _ _ _ CT) NM)
    as (fr & pid & (n & cols & P1 & P2 & ->) & E).
  { intros w hs t a SM NC TH F. assert (T2 := typo_same _ _ _ _ _ _ _ _ _ _ _ SM CT). assert (T3 := names_same _ _ SM _ _ _ _ TN).
    destruct (typo_alone e d w cells time z m f se names ds data hs t a RQ FREQ NOIMP NC TH F T2 T3) as (n & cols & P1 & P2 & P3).
    eexists. split; [exact P3|]. exists n, cols. auto. }
  exists n, cols, pid. auto.
Qed.

(** ** Nothing else is corrected *)
Lemma make_date_parts y m d x : make_date y m d = Ok x -> dt_y x = y /\ dt_m x = m /\ dt_d x = d.
Proof. unfold make_date. destruct (valid_ymd y m d); intros H; inversion H. auto. Qed.
Lemma corrected_near l c f ms mv x : correct_progression l c f ms mv = Ok x -> same_day c x \/ one_wrong c x.
Proof.
  unfold correct_progression, same_day. destruct l as [l|]; [|intros H; inversion H; auto].
  intros H. apply bind_ok in H as [ex [_ H]]. destruct (dt_eqb ex c); [inversion H; auto|].
  destruct (dt_ltb c l); [destruct (time_value_typo c ex) eqn:T; inversion H; subst; apply typo_iff in T; auto|].
  destruct (dt_ltb l c && negb ms); [destruct (time_value_typo c ex) eqn:T; inversion H; subst; apply typo_iff in T; auto|].
  apply bind_ok in H as [mx [_ H]]. destruct (dt_ltb mx c && ms && _); [|inversion H; auto].
  apply bind_ok in H as [o [F H]]. unfold forth_time_value_typo in F.
  apply bind_ok in F as [x1 [A F]]. apply bind_ok in F as [x2 [B F]]. apply bind_ok in F as [x3 [C F]].
  apply make_date_parts in A as (A1 & A2 & A3), B as (B1 & B2 & B3), C as (C1 & C2 & C3). inversion F as [G]. clear F. subst o.
  destruct (dt_ltb x1 mx); [inversion H; subst x|destruct (dt_ltb x2 mx); [inversion H; subst x|destruct (dt_ltb x3 mx); inversion H; subst x]].
  - destruct (Z.eq_dec (dt_d c) (dt_d x1)); [left; auto|right; apply ow_day; auto].
  - destruct (Z.eq_dec (dt_m c) (dt_m x2)); [left; auto|right; apply ow_month; auto].
  - destruct (Z.eq_dec (dt_y c) (dt_y x3)); [left; auto|right; apply ow_year; auto].
Qed.
Lemma process_near e p st c next k x ls lf : process_value e p st (VDate c) next = (k, Ok (x, ls, lf)) -> same_day c x \/ one_wrong c x.
Proof.
  unfold process_value. cbn zeta. destruct (parse_with_pool _ _ _ _ _ _) as [k' r] eqn:P. intros H. inversion H as [[K H']]. clear H K.
  apply pool_date in P as [-> | ->]; [|discriminate]. cbn [bind] in H'. apply bind_ok in H' as [y [CS H']]. unfold correct_state in CS.
  destruct (Nat.eqb _ 1); [|apply bind_ok in CS as [cf [_ CS]]]; apply bind_ok in CS as [d [C CS]]; inversion CS; subst y; clear CS;
    destruct (_ && _); inversion H'; subst; eapply corrected_near; eauto.
Qed.
Lemma process_keeps e p st c next k x : process_value e p st (VDate c) next = (k, Err x) -> x <> EDay /\ x <> EMonth.
Proof.
  unfold process_value. cbn zeta. destruct (parse_with_pool _ _ _ _ _ _) as [k' r] eqn:P. intros H. inversion H as [[K H']]. clear H K.
  apply pool_date in P as [-> | ->]; [|cbn in H'; inversion H'; split; discriminate]. cbn [bind] in H'.
  assert (IE : forall l n f x, increment_time l n f = Err x -> x <> EDay /\ x <> EMonth).
  { intros l n f y I. unfold increment_time, add_seconds, add_months in I.
    repeat match type of I with
    | Err _ = Err _ => inversion I; subst; split; discriminate
    | context [match ?y with _ => _ end] => destruct y
    end; try discriminate. }
  assert (CP : forall l c f ms mv x, correct_progression l c f ms mv = Err x -> x <> EDay /\ x <> EMonth).
  { intros l c' f ms mv y C. unfold correct_progression, forth_time_value_typo, make_date in C. destruct l as [l|]; [|discriminate].
    destruct (increment_time l 1 f) eqn:I1; cbn [bind] in C; [|inversion C; subst; eauto].
    destruct (increment_time l (max_forth_units f) f) eqn:I2; cbn [bind] in C.
    - repeat match type of C with
      | Err _ = Err _ => inversion C; subst; split; discriminate
      | Ok _ = Err _ => discriminate
      | context [if ?y then _ else _] => destruct y; cbn [bind] in C
      end.
    - repeat match type of C with
      | Err _ = Err _ => inversion C; subst; eauto; split; discriminate
      | Ok _ = Err _ => discriminate
      | context [if ?y then _ else _] => destruct y; cbn [bind] in C
      end. }
  unfold correct_state in H'. destruct (Nat.eqb _ 1).
  - destruct (correct_progression _ _ _ _ _) eqn:C; cbn [bind] in H'; [|inversion H'; subst; eauto].
    destruct (_ && _); inversion H'; split; discriminate.
  - destruct (next_frequency _ _) eqn:NF; cbn [bind] in H'.
    + destruct (correct_progression _ _ _ _ _) eqn:C; cbn [bind] in H'; [|inversion H'; subst; eauto].
      destruct (_ && _); inversion H'; split; discriminate.
    + inversion H'; subst. unfold next_frequency in NF.
      repeat match type of NF with
      | Err _ = Err _ => inversion NF; subst; split; discriminate
      | context [match ?y with _ => _ end] => destruct y
      end; discriminate.
Qed.
Lemma loop_near e p tl wl positions : reads_line tl wl -> forall prev st w' r, StronglySorted Z.lt positions -> clean_loop e p tl wl positions prev st = (w', r) ->
  forall i j c, cell (cs_ws st) i j = VDate c -> exists x, cell w' i j = VDate x /\ (same_day c x \/ one_wrong c x).
Proof.
  intros RL. assert (SELF : forall w i j c, cell w i j = VDate c -> exists x, cell w i j = VDate x /\ (same_day c x \/ one_wrong c x)).
  { intros w i j c E. exists c. split; auto. left. unfold same_day. auto. }
  induction positions as [|pos rest IH]; intros prev st w' r SS H i j c E; cbn [clean_loop] in H.
  - destruct prev; inversion H; subst; auto.
  - apply StronglySorted_inv in SS as [SR F]. rewrite Forall_forall in F.
    destruct (do c <- _; _) as [[curr next]|x] eqn:RD; [|inversion H; subst; auto].
    apply bind_ok in RD as [v1 [R1 RD]]. apply bind_ok in RD as [v2 [R2 RD]]. apply bind_ok in RD as [v3 [R3 RD]]. inversion RD; subst v1 v2. clear RD.
    set (w1 := axis_touch _ wl pos _) in H.
    assert (C1 : cell w1 i j = VDate c) by (rewrite <- E; unfold w1, axis_touch; rewrite cell_touch, !cell_touch_time; auto).
    set (here := (i =? axis_row (sp_al p) wl pos) && (j =? axis_col (sp_al p) wl pos)).
    assert (WR : forall v, cell (axis_write (sp_al p) wl pos v w1) i j = if here then v else VDate c).
    { intros v. unfold axis_write, write. cbn [cell]. fold here. destruct here; auto. }
    assert (CU : here = true -> curr = VDate c).
    { intros HE. eapply time_value_date; eauto. unfold axis_val. rewrite <- E. unfold here in HE. f_equal; lia. }
    assert (NR : here = true -> forall q, In q rest -> (i, j) <> (axis_row (sp_al p) wl q, axis_col (sp_al p) wl q)).
    { intros HE q I Q. specialize (F q I). inversion Q. unfold here, axis_row, axis_col in *. destruct (sp_al p); lia. }
    destruct (must_be_time _ curr).
    + destruct (process_value _ _ _ _ _) as [sticky [[[d lasts] lf]|x]] eqn:PV.
      * destruct here eqn:HE.
        -- exists d. rewrite (loop_frame _ _ _ _ _ _ _ _ _ H i j (NR eq_refl)). cbn [cs_ws]. rewrite WR. split; auto.
           rewrite (CU eq_refl) in PV. eapply process_near; eauto.
        -- apply (IH _ _ _ _ SR H i j c). cbn [cs_ws]. rewrite WR. auto.
      * destruct (exn_eqb x EDay || exn_eqb x EMonth) eqn:X.
        -- destruct here eqn:HE.
           ++ rewrite (CU eq_refl) in PV. apply process_keeps in PV as [P1 P2]. destruct x; try discriminate X; congruence.
           ++ apply (IH _ _ _ _ SR H i j c). cbn [cs_ws]. rewrite WR. auto.
        -- destruct (_ && _); inversion H; subst; auto.
    + destruct (_ && _).
      * apply (IH _ _ _ _ SR H i j c). auto.
      * inversion H; subst. auto.
Qed.
Lemma c63_only e w p w' r : clean_time_index e w p = (w', r) ->
  forall i j c, cell w i j = VDate c -> exists x, cell w' i j = VDate x /\ (same_day c x \/ one_wrong c x).
Proof.
  intros H i j c E. destruct (clean_split _ _ _ _ _ H) as [[-> _]|(L & tl & wl & TL & WL & C)].
  - exists c. split; auto. left. unfold same_day. auto.
  - eapply loop_near; [eapply lines_agree; eauto| |exact C|exact E]. apply TimeProofs.zrange_sorted.
Qed.
