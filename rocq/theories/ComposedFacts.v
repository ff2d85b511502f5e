(** Composed header ranges (property C03). *)
From Coq Require Import ZifyBool ZifyNat ZifyN Sorting.Sorted.
From Verif Require Import Base BaseFacts Coord XlMethods Params CoordFacts SpecCoord SpecCoordFacts HeaderFacts.
Local Open Scope Z_scope.

Lemma zipn_aux_nth fuel : forall ls i, ls <> [] ->
  nth_error (zipn_aux fuel ls) i =
    if Nat.ltb i fuel && forallb (fun l => Nat.ltb i (List.length l)) ls
    then Some (map (fun l => nth i l []) ls) else None.
Proof.
  induction fuel as [|k IH]; intros ls i N; cbn [zipn_aux].
  - destruct i; auto.
  - destruct (forallb (fun l => negb (Nat.eqb (List.length l) 0)) ls) eqn:E.
    + destruct i as [|j]; cbn [nth_error].
      * replace (forallb (fun l => Nat.ltb 0 (List.length l)) ls) with true.
        { cbn. f_equal. apply map_ext. intros [|]; auto. }
        symmetry. rewrite forallb_forall in *. intros x Hx. apply E in Hx. destruct x; auto.
      * rewrite IH by (destruct ls; [congruence|discriminate]).
        change (Nat.ltb (S j) (S k)) with (Nat.ltb j k).
        assert (F : forallb (fun l => Nat.ltb j (List.length l)) (map (@tl text) ls)
                    = forallb (fun l => Nat.ltb (S j) (List.length l)) ls).
        { clear. induction ls as [|l ls IH]; cbn [map forallb]; auto. rewrite IH. f_equal. destruct l; auto. }
        rewrite F, map_map. destruct (_ && _); auto. f_equal. apply map_ext. intros [|x l]; cbn; auto.
        destruct j; auto.
    + replace (forallb (fun l => Nat.ltb i (List.length l)) ls) with false.
      { rewrite andb_false_r. destruct i; auto. }
      symmetry. apply not_true_is_false. intros F. rewrite forallb_forall in F.
      enough (forallb (fun l : list text => negb (Nat.eqb (List.length l) 0)) ls = true) by congruence.
      apply forallb_forall. intros x Hx. apply F in Hx. destruct x; auto.
Qed.
Lemma zipn_nth ls i : ls <> [] ->
  nth_error (zipn ls) i =
    if forallb (fun l => Nat.ltb i (List.length l)) ls
    then Some (map (fun l => nth i l []) ls) else None.
Proof.
  intros N. unfold zipn. destruct ls as [|l ls]; [congruence|]. rewrite zipn_aux_nth by auto.
  cbn [forallb]. destruct (Nat.ltb i (List.length l)); auto.
Qed.

Lemma join_underscored ls : join (T "_") ls = underscored ls.
Proof.
  induction ls as [|t [|u ls] IH]; auto.
  change (join (T "_") (t :: u :: ls)) with (t ++ T "_" ++ join (T "_") (u :: ls)). rewrite IH. auto.
Qed.
Lemma split_underscored ls : ls <> [] -> Forall (fun t => ch_in "_" t = false) ls ->
  split_ch "_" (underscored ls) = ls.
Proof.
  induction ls as [|t [|u ls] IH]; intros N F; [congruence| |].
  - inversion F; subst. apply split_none; auto.
  - inversion F; subst. change (underscored (t :: u :: ls)) with (t ++ "_"%char :: underscored (u :: ls)).
    rewrite split_cons by auto. rewrite IH; auto. discriminate.
Qed.
Lemma underscored_chars (P : ascii -> Prop) ls : P "_"%char ->
  Forall (Forall P) ls -> Forall P (underscored ls).
Proof.
  intros Hu F. induction ls as [|t [|u ls] IH]; cbn; auto.
  - inversion F; auto.
  - inversion F; subst. apply Forall_app. split; auto.
Qed.
Lemma upper_underscored ls : upper (underscored ls) = underscored (map upper ls).
Proof.
  induction ls as [|t [|u ls] IH]; auto.
  change (underscored (t :: u :: ls)) with (t ++ "_"%char :: underscored (u :: ls)).
  rewrite upper_app. cbn [map upper]. change (map up_ch) with upper.
  change (upper ("_"%char :: underscored (u :: ls))) with ("_"%char :: upper (underscored (u :: ls))).
  rewrite IH. auto.
Qed.
Lemma underscored_has ls a b : ch_in "_" (underscored (a :: b :: ls)) = true.
Proof.
  change (underscored (a :: b :: ls)) with (a ++ "_"%char :: underscored (b :: ls)).
  rewrite ch_in_app. cbn. apply orb_true_r.
Qed.

Lemma remove_ch_none c t : ch_in c t = false -> remove_ch c t = t.
Proof.
  unfold remove_ch. induction t as [|x t IH]; cbn; auto. rewrite ch_eqb_sym.
  destruct (ch_eqb x c); cbn; [discriminate|]. intros H. rewrite IH; auto.
Qed.
Lemma remove_ch_app c a b : remove_ch c (a ++ b) = remove_ch c a ++ remove_ch c b.
Proof. apply filter_app. Qed.

(** every name of a cell: no separators *)
Definition sepfree (t : text) : Prop := forall c, plain_sep c = true -> ch_in c t = false.
Lemma coord_sepfree t rc : parse_coord t = Ok rc -> sepfree t.
Proof. intros H c. apply coord_no_sep with (rc := rc); auto. Qed.

Lemma underscored_no c ls : plain_sep c = true -> c <> "_"%char -> Forall sepfree ls ->
  ch_in c (underscored ls) = false.
Proof.
  intros P N F. induction ls as [|t [|u ls] IH]; auto.
  - inversion F; subst. apply H1; auto.
  - inversion F; subst. change (underscored (t :: u :: ls)) with (t ++ "_"%char :: underscored (u :: ls)).
    rewrite ch_in_app. rewrite (H1 c P). cbn [orb ch_in existsb].
    change (existsb (ch_eqb c) (underscored (u :: ls))) with (ch_in c (underscored (u :: ls))).
    rewrite IH by auto. rewrite (proj2 (ch_eqb_neq c "_")); auto.
Qed.

Lemma unpack_composed parens ks : (2 <= List.length ks)%nat -> Forall component_ok ks ->
  unpack_text (composed_range parens ks) =
    Ok (map underscored (zipn (map (fun k => map (fun p => coord_text (fst p) (snd p)) (cp_cells k)) ks))).
Proof.
  intros L F.
  assert (UX : Forall sepfree (map upper (map cp_x ks)) /\ Forall sepfree (map upper (map cp_y ks)) /\
               Forall sepfree (map cp_x ks) /\ Forall sepfree (map cp_y ks)).
  { repeat split; rewrite ?map_map; apply Forall_forall; intros t Ht; apply in_map_iff in Ht;
    destruct Ht as [k [<- Hk]]; rewrite Forall_forall in F; destruct (F k Hk) as [r1 [c1 [r2 [c2 [A [B _]]]]]];
    apply cell_named_iff in A, B; eapply coord_sepfree; try apply parse_upper; eauto. }
  destruct UX as [SX [SY [SX0 SY0]]].
  assert (R : mapM (fun p => xl_coordinates_range (fst p) (snd p))
      (combine (map upper (map cp_x ks)) (map upper (map cp_y ks))) =
      Ok (map (fun k => map (fun p => coord_text (fst p) (snd p)) (cp_cells k)) ks)).
  { clear L SX SY SX0 SY0. induction F as [|k ks Hk F IH]; cbn [map combine mapM fst snd]; auto.
    destruct Hk as [r1 [c1 [r2 [c2 [A [B C]]]]]]. apply cell_named_iff in A, B.
    rewrite (range_ok _ _ r1 c1 r2 c2) by (apply parse_upper; auto). cbn [bind].
    rewrite IH. cbn [bind]. rewrite (rectangle_unique _ _ _ _ _ C), <- rect_coords_cells. auto. }
  destruct ks as [|k1 [|k2 ks]]; cbn in L; try lia.
  set (KS := k1 :: k2 :: ks) in *.
  assert (NX : map upper (map cp_x KS) <> []) by (unfold KS; discriminate).
  assert (NY : map upper (map cp_y KS) <> []) by (unfold KS; discriminate).
  assert (F_ : forall l, Forall sepfree l -> Forall (fun t => ch_in "_" t = false) l).
  { intros l Hl. eapply Forall_impl; [|exact Hl]. intros t Ht. apply Ht. reflexivity. }
  assert (PX : forall c, plain_sep c = true -> c <> "_"%char -> ch_in c (underscored (map cp_x KS)) = false)
    by (intros; apply underscored_no; auto).
  assert (PY : forall c, plain_sep c = true -> c <> "_"%char -> ch_in c (underscored (map cp_y KS)) = false)
    by (intros; apply underscored_no; auto).
  assert (PXu : forall c, plain_sep c = true -> c <> "_"%char -> ch_in c (underscored (map upper (map cp_x KS))) = false)
    by (intros; apply underscored_no; auto).
  assert (PYu : forall c, plain_sep c = true -> c <> "_"%char -> ch_in c (underscored (map upper (map cp_y KS))) = false)
    by (intros; apply underscored_no; auto).
  set (ux := underscored (map upper (map cp_x KS))) in *.
  set (uy := underscored (map upper (map cp_y KS))) in *.
  assert (HUx : ch_in "_" ux = true) by apply underscored_has.
  assert (HUy : ch_in "_" uy = true) by apply underscored_has.
  assert (RPx : remove_parens ux = ux).
  { unfold remove_parens. rewrite !remove_ch_none; auto; apply PXu || rewrite remove_ch_none; try apply PXu; try reflexivity; discriminate. }
  assert (RPy : remove_parens uy = uy).
  { unfold remove_parens. rewrite !remove_ch_none; auto; apply PYu || rewrite remove_ch_none; try apply PYu; try reflexivity; discriminate. }
  assert (SplX : split_ch "_" ux = map upper (map cp_x KS)) by (apply split_underscored; auto).
  assert (SplY : split_ch "_" uy = map upper (map cp_y KS)) by (apply split_underscored; auto).
  assert (Fin : forall s e, split2 "-" (upper (composed_range parens KS)) = Ok (s, e) ->
     ch_in "_" s = true -> ch_in "_" e = true -> remove_parens s = ux -> remove_parens e = uy ->
     ch_in "-" (composed_range parens KS) = true ->
     unpack_text (composed_range parens KS) =
     Ok (map underscored (zipn (map (fun k => map (fun p => coord_text (fst p) (snd p)) (cp_cells k)) KS)))).
  { intros s e S1 S2 S3 S4 S5 S6. unfold unpack_text. rewrite S6. cbn [negb andb]. rewrite S1. cbn [bind].
    rewrite S2, S3. cbn [negb andb]. rewrite S4, S5, SplX, SplY. rewrite R. cbn [bind].
    f_equal. apply map_ext. intros; apply join_underscored. }
  assert (NegX : ch_in "-" ux = false) by (apply PXu; [reflexivity|discriminate]).
  assert (NegY : ch_in "-" uy = false) by (apply PYu; [reflexivity|discriminate]).
  unfold composed_range in *. destruct parens.
  - apply (Fin ("("%char :: ux ++ [")"%char]) ("("%char :: uy ++ [")"%char])).
    + assert (E : upper ("("%char :: underscored (map cp_x KS) ++ txt ")-(" ++ underscored (map cp_y KS) ++ [")"%char])
        = ("("%char :: ux ++ [")"%char]) ++ "-"%char :: ("("%char :: uy ++ [")"%char])).
      { change (upper ("("%char :: ?l)) with ("("%char :: upper l). rewrite !upper_app, !upper_underscored.
        fold ux uy. cbn [app]. f_equal. rewrite <- app_assoc. f_equal. }
      rewrite E. apply split2_ok.
      * cbn [ch_in existsb]. change (existsb (ch_eqb "-") ?l) with (ch_in "-" l). rewrite ch_in_app, NegX. auto.
      * cbn [ch_in existsb]. change (existsb (ch_eqb "-") ?l) with (ch_in "-" l). rewrite ch_in_app, NegY. auto.
    + cbn [ch_in existsb]. change (existsb (ch_eqb "_") ?l) with (ch_in "_" l). rewrite ch_in_app, HUx. auto.
    + cbn [ch_in existsb]. change (existsb (ch_eqb "_") ?l) with (ch_in "_" l). rewrite ch_in_app, HUy. auto.
    + unfold remove_parens in *. change ("("%char :: ux ++ [")"%char]) with (["("%char] ++ ux ++ [")"%char]).
      rewrite !remove_ch_app. cbn [remove_ch filter]. cbn. rewrite app_nil_r. exact RPx.
    + unfold remove_parens in *. change ("("%char :: uy ++ [")"%char]) with (["("%char] ++ uy ++ [")"%char]).
      rewrite !remove_ch_app. cbn [remove_ch filter]. cbn. rewrite app_nil_r. exact RPy.
    + apply ch_in_In. right. apply in_app_iff. right. cbn. auto.
  - apply (Fin ux uy); auto.
    + rewrite upper_app. change (upper ("-"%char :: ?l)) with ("-"%char :: upper l).
      rewrite !upper_underscored. apply split2_ok; auto.
    + apply ch_in_In. apply in_app_iff. right. left. auto.
Qed.

(** ** The series it declares *)
Lemma removelast_app1 {A} (l : list A) x : removelast (l ++ [x]) = l.
Proof. rewrite removelast_app by discriminate. cbn. apply app_nil_r. Qed.

Lemma separate_row row : (2 <= List.length row)%nat -> Forall sepfree row ->
  separate_one (VStr (underscored row)) = Ok (VList (map VStr (removelast row)), VStr (List.last row [])).
Proof.
  intros L F. unfold separate_one.
  destruct row as [|a [|b row]]; cbn in L; try lia. rewrite underscored_has.
  rewrite split_underscored; [auto|discriminate|].
  eapply Forall_impl; [|exact F]. intros t Ht. apply Ht. reflexivity.
Qed.

Lemma nth_coords i l d : (i < List.length l)%nat ->
  exists p, nth_error l i = Some p /\
  nth i (map (fun p => coord_text (fst p) (snd p)) l) d = coord_text (fst p) (snd p).
Proof.
  intros H. destruct (nth_error l i) as [p|] eqn:E.
  - exists p. split; auto. apply nth_error_nth. rewrite nth_error_map, E. auto.
  - apply nth_error_None in E. lia.
Qed.

Lemma component_cells_ok k p : component_ok k -> In p (cp_cells k) ->
  1 <= fst p /\ 1 <= snd p <= 18278.
Proof.
  intros [r1 [c1 [r2 [c2 [A [B C]]]]]] H. destruct p as [r c]. destruct C as [C _].
  apply C in H. apply cell_named_iff in A, B. apply parse_range in A, B. cbn. lia.
Qed.

Lemma composed_ok parens init lst : init <> [] -> Forall component_ok (init ++ [lst]) ->
  exists composed headers,
    process_headers_coord (VStr (composed_range parens (init ++ [lst]))) = Ok (composed, headers) /\
    List.length composed = List.length headers /\
    (forall i, (i < List.length headers)%nat <->
               Forall (fun k => (i < List.length (cp_cells k))%nat) (init ++ [lst])) /\
    (forall i, (i < List.length headers)%nat ->
       exists h cs, nth_error headers i = Some (VStr h) /\ comp_cell i h lst /\
         nth_error composed i = Some (VList (map VStr cs)) /\ Forall2 (comp_cell i) cs init).
Proof.
  intros N F. set (ks := init ++ [lst]) in *.
  assert (L : (2 <= List.length ks)%nat).
  { unfold ks. rewrite app_length. destruct init; [congruence|cbn; lia]. }
  pose proof (unpack_composed parens ks L F) as U.
  set (cols := map (fun k => map (fun p => coord_text (fst p) (snd p)) (cp_cells k)) ks) in *.
  set (rows := zipn cols) in *.
  assert (Ncols : cols <> []) by (unfold cols, ks; destruct init; discriminate).
  assert (Unp : unpack_header_ranges (VStr (composed_range parens ks)) = Ok (VList (map VStr (map underscored rows)))).
  { unfold unpack_header_ranges.
    assert (Ne : composed_range parens ks <> []).
    { unfold composed_range. destruct parens; [discriminate|]. intros E. apply app_eq_nil in E. destruct E; discriminate. }
    destruct (composed_range parens ks) as [|a t] eqn:E; [congruence|].
    cbn [truthy py_len List.length Nat.eqb negb bind].
    replace (text_eqb (lower (a :: t)) (T "none")) with false.
    { cbn [unpack_gen]. rewrite U. auto. }
    symmetry. apply text_eqb_neq. intros C.
    assert (In "-"%char (a :: t)).
    { rewrite <- E. unfold composed_range. destruct parens.
      - right. apply in_app_iff. right. cbn. auto.
      - apply in_app_iff. right. left. auto. }
    apply (in_map low_ch) in H. unfold lower in C. rewrite C in H. cbn in H.
    destruct H as [H|[H|[H|[H|[]]]]]; discriminate. }
  assert (RowOk : forall i row, nth_error rows i = Some row ->
     (2 <= List.length row)%nat /\ Forall sepfree row /\
     exists h cs, row = cs ++ [h] /\ comp_cell i h lst /\ Forall2 (comp_cell i) cs init).
  { intros i row H. unfold rows in H. rewrite zipn_nth in H by auto.
    destruct (forallb (fun l => Nat.ltb i (List.length l)) cols) eqn:E; [|discriminate].
    inversion H; subst row; clear H. rewrite forallb_forall in E.
    assert (Hc : forall k, In k ks -> exists p, nth_error (cp_cells k) i = Some p /\
        nth i (map (fun p => coord_text (fst p) (snd p)) (cp_cells k)) [] = coord_text (fst p) (snd p) /\
        1 <= fst p /\ 1 <= snd p <= 18278).
    { intros k Hk.
      assert (B : (i < List.length (cp_cells k))%nat).
      { assert (In (map (fun p => coord_text (fst p) (snd p)) (cp_cells k)) cols) by (unfold cols; apply in_map_iff; exists k; auto).
        apply E in H. rewrite map_length in H. apply Nat.ltb_lt in H. auto. }
      destruct (nth_coords i (cp_cells k) [] B) as [p [P1 P2]]. exists p. split; auto. split; auto.
      apply (component_cells_ok k); [rewrite Forall_forall in F; auto|]. eapply nth_error_In; eauto. }
    assert (CC : forall k, In k ks -> comp_cell i (nth i (map (fun p => coord_text (fst p) (snd p)) (cp_cells k)) []) k).
    { intros k Hk. destruct (Hc k Hk) as [p [P1 [P2 P3]]]. exists p. split; auto. rewrite P2.
      apply coord_text_canonical; tauto. }
    split; [|split].
    - rewrite map_length. unfold cols. rewrite map_length. auto.
    - apply Forall_forall. intros t Ht. apply in_map_iff in Ht. destruct Ht as [l [<- Hl]].
      unfold cols in Hl. apply in_map_iff in Hl. destruct Hl as [k [<- Hk]].
      destruct (Hc k Hk) as [p [P1 [P2 P3]]]. match goal with |- sepfree ?t => replace t with (coord_text (fst p) (snd p)) by (symmetry; exact P2) end. eapply coord_sepfree. apply parse_coord_text; tauto.
    - exists (nth i (map (fun p => coord_text (fst p) (snd p)) (cp_cells lst)) []).
      exists (map (fun k => nth i (map (fun p => coord_text (fst p) (snd p)) (cp_cells k)) []) init).
      split; [|split].
      + unfold cols, ks. rewrite !map_app, map_map. auto.
      + apply CC. unfold ks. apply in_app_iff. right. left. auto.
      + assert (G : forall l, (forall k, In k l -> In k ks) ->
          Forall2 (comp_cell i) (map (fun k => nth i (map (fun p => coord_text (fst p) (snd p)) (cp_cells k)) []) l) l).
        { induction l as [|k l IH]; intros Hl; cbn; constructor; [apply CC, Hl; left; auto|].
          apply IH. intros; apply Hl; right; auto. }
        apply G. intros k Hk. unfold ks. apply in_app_iff; auto. }
  assert (Sep : mapM separate_one (map VStr (map underscored rows)) =
     Ok (map (fun row => (VList (map VStr (removelast row)), VStr (List.last row []))) rows)).
  { rewrite map_map. apply mapM_ok.
    assert (G : forall l, (forall row, In row l -> (2 <= List.length row)%nat /\ Forall sepfree row) ->
      Forall2 (fun x y => separate_one x = Ok y) (map (fun x => VStr (underscored x)) l)
       (map (fun row => (VList (map VStr (removelast row)), VStr (List.last row []))) l)).
    { induction l as [|row l IH]; intros Hl; cbn; constructor.
      - destruct (Hl row (or_introl eq_refl)) as [A B]. apply separate_row; auto.
      - apply IH. intros; apply Hl; right; auto. }
    apply G. intros row Hr. apply In_nth_error in Hr. destruct Hr as [i Hi].
    destruct (RowOk i row Hi) as [A [B _]]. auto. }
  exists (map (fun row => VList (map VStr (removelast row))) rows), (map (fun row => VStr (List.last row [])) rows).
  split; [|split; [|split]].
  - unfold process_headers_coord. rewrite Unp. cbn [bind separate_composed_headers]. rewrite Sep. cbn [bind].
    rewrite !map_map. auto.
  - rewrite !map_length. auto.
  - intros i. rewrite map_length. split.
    + intros Hi. destruct (nth_error rows i) as [row|] eqn:E.
      * unfold rows in E. rewrite zipn_nth in E by auto.
        destruct (forallb (fun l => Nat.ltb i (List.length l)) cols) eqn:E2; [|discriminate].
        rewrite forallb_forall in E2. apply Forall_forall. intros k Hk.
        assert (In (map (fun p => coord_text (fst p) (snd p)) (cp_cells k)) cols) by (unfold cols; apply in_map_iff; exists k; auto).
        apply E2 in H. rewrite map_length in H. apply Nat.ltb_lt in H. auto.
      * apply nth_error_None in E. exfalso. exact (Nat.lt_irrefl _ (Nat.lt_le_trans _ _ _ Hi E)).
    + intros Hi. assert (nth_error rows i <> None).
      { unfold rows. rewrite zipn_nth by auto. replace (forallb (fun l => Nat.ltb i (List.length l)) cols) with true; [discriminate|].
        symmetry. apply forallb_forall. intros l Hl. unfold cols in Hl. apply in_map_iff in Hl.
        destruct Hl as [k [<- Hk]]. rewrite map_length. apply Nat.ltb_lt. rewrite Forall_forall in Hi. auto. }
      apply nth_error_Some in H. auto.
  - intros i Hi. rewrite map_length in Hi. destruct (nth_error rows i) as [row|] eqn:E; [|apply nth_error_None in E; exfalso; exact (Nat.lt_irrefl _ (Nat.lt_le_trans _ _ _ Hi E))].
    destruct (RowOk i row E) as [_ [_ [h [cs [-> [H1 H2]]]]]].
    exists h, cs. rewrite !nth_error_map, E. cbn [option_map].
    split; [|split; [auto|split; [|auto]]].
    + transitivity (option_map (fun row : list text => VStr (last row [])) (Some (cs ++ [h]))).
      * rewrite <- E. reflexivity.
      * cbn [option_map]. f_equal. f_equal. apply last_last.
    + f_equal. f_equal. f_equal. apply removelast_app1.
Qed.
