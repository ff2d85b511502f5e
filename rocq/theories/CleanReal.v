(** Cleaning keeps the dates of a sheet dates of the calendar. *)
From Verif Require Import Base BaseFacts Cal SpecCal CalFacts Coord Params ParseTime TimeIndex PeriodRange GetData DataFrame Scrape SpecTime TimeFacts TimeProofs SpecScrape ScrapeFacts.
Local Open Scope Z_scope.

Lemma loop_real e p tl wl : forall positions prev st w' r, clean_loop e p tl wl positions prev st = (w', r) -> real_sheet (cs_ws st) -> all_lasts st -> real_sheet w'.
Proof.
  induction positions as [|pos rest IH]; intros prev st w' r H RS AL; cbn [clean_loop] in H.
  - destruct prev; injection H as <- _; auto.
  - match type of H with match ?X with _ => _ end = _ => destruct X as [[curr next]|] eqn:X0; [|injection H as <- _; auto] end.
    assert (RC : forall x, curr = VDate x -> real_date x).
    { apply bind_ok in X0. destruct X0 as (c & TV & X0). apply bind_ok in X0. destruct X0 as (n & _ & X0). apply bind_ok in X0. destruct X0 as (a & _ & X0). injection X0 as -> _.
      intros x E. eapply time_value_real; eauto. }
    set (w1 := axis_touch (sp_al p) wl pos _) in *.
    assert (R1 : real_sheet w1) by (intros i j d; unfold w1; change (axis_touch (sp_al p) wl pos (touch_time (sp_al p) tl (pos + 1) (touch_time (sp_al p) tl pos (cs_ws st)))) with (touched p tl wl (cs_ws st) pos); rewrite cell_touched; apply RS).
    destruct (must_be_time _ curr).
    + destruct (process_value _ _ _ _ _) as [sticky [[[d lasts] lf]|x]] eqn:PV.
      * destruct (process_ok e p wl (mkcs w1 (cs_parser st) (cs_last st) (cs_count st) (cs_lasts st) (cs_lf st)) curr next sticky d lasts lf) as (Rd & Rl & _); auto.
        apply IH in H; auto; cbn [cs_ws]; [apply real_write; auto|]. split; cbn [cs_last cs_lasts]; auto. intros y E. injection E as <-. auto.
      * destruct (_ || _).
        -- apply IH in H; auto. cbn [cs_ws]. apply real_write_none; auto.
        -- destruct (_ && _); injection H as <- _; auto.
    + destruct (_ && _); [apply IH in H; auto|injection H as <- _; auto].
Qed.
Lemma clean_real e w p w' r : clean_time_index e w p = (w', r) -> real_dates w -> real_dates w'.
Proof.
  unfold clean_time_index. destruct (find _ combos) as [k|]; [|intros H; injection H as <- _; auto]. destruct (k_multitable k); [intros H; injection H as <- _; auto|].
  unfold clean_single_table. destruct (zrange _ _) as [|x xs]; [intros H; injection H as <- _; auto|]. destruct (time_lines _ _ _) as [tl|]; [|intros H; injection H as <- _; auto].
  destruct (write_line _ _) as [wl|]; [|intros H; injection H as <- _; auto]. intros H R. eapply loop_real; eauto. apply init_lasts.
Qed.
Lemma clean_many_real e : forall n i ends w p w' p' r, clean_many e n i ends w p = (w', p', r) -> real_dates w -> real_dates w'.
Proof.
  induction n as [|n IH]; intros i ends w p w' p' r H R; cbn [clean_many] in H; [injection H as <- _ _; auto|].
  match type of H with match ?X with _ => _ end = _ => destruct X as [t|]; [|injection H as <- _ _; auto] end.
  match type of H with (let '(w1, r) := ?X in _) = _ => destruct X as [w1 r1] eqn:E end.
  assert (R1 : real_dates w1).
  { destruct (find _ ends) as [kv|]; [injection E as <- _; auto|]. destruct (series_sp p i) as [s|]; [|injection E as <- _; auto].
    destruct (clean_time_index e w s) as [w2 r2] eqn:C. injection E as <- _. eapply clean_real; eauto. }
  destruct r1 as [z|]; [|injection H as <- _ _; auto]. destruct (py_index _ i) as [de|]; [|injection H as <- _ _; auto]. eapply IH; eauto.
Qed.
Lemma clean_data_real e w p w' p' r : clean_data e w p = (w', p', r) -> real_dates w -> real_dates w'.
Proof.
  unfold clean_data. intros H R. destruct (py_index _ 0) as [tm|]; [|injection H as <- _ _; auto]. destruct (truthy tm).
  - destruct (series_sp p 0) as [s|]; [|injection H as <- _ _; auto]. destruct (clean_time_index e w s) as [w1 r1] eqn:C. apply clean_real in C; auto.
    destruct r1 as [z|]; [|injection H as <- _ _; auto]. destruct (py_index _ 0) as [de|]; [|injection H as <- _ _; auto]. destruct (truthy de); [injection H as <- _ _; auto|].
    destruct (set_item p n_data_ends (VInt z)) as [p1 r2]. injection H as <- _ _; auto.
  - destruct (py_len _) as [n|]; [|injection H as <- _ _; auto]. eapply clean_many_real; eauto.
Qed.
Lemma alone_parts e w p dfs : alone e w p = Ok dfs -> exists w1 p1 w2, clean_data e w p = (w1, p1, Ok tt) /\ get_data_all e w1 p1 = (w2, Ok dfs).
Proof.
  rewrite alone_full. unfold attempt_full. destruct (clean_data e w p) as [[w1 p1] [u|]]; [|discriminate]. destruct u. destruct (get_data_all e w1 p1) as [w2 r2] eqn:G.
  cbn. intros ->. exists w1, p1, w2. auto.
Qed.
