(** Proofs of the theorems of PropsCoord.v. *)
From Coq Require Import ZifyBool ZifyNat ZifyN Sorting.Sorted Sorting.Permutation.
From Verif Require Import Base BaseFacts Coord XlMethods Params CoordFacts
  SpecCoord SpecParams SpecCoordFacts HeaderFacts BuildFacts ComposedFacts ScopeFacts BuildInv.
Local Open Scope Z_scope.

Lemma c01_text t cells : entry_cells t cells ->
  exists names, unpack_header_ranges (VStr t) = Ok (VList (map VStr names)) /\ names_cells names cells.
Proof. intros H. apply value_unpack. constructor; auto. Qed.
Lemma c01_list es css : es <> [] -> Forall2 entry_cells es css ->
  exists names, unpack_header_ranges (VList (map VStr es)) = Ok (VList (map VStr names)) /\
    names_cells names (List.concat css).
Proof. intros N H. apply value_unpack. constructor; auto. Qed.

Lemma canonical_upper ts cells : names_cells ts cells -> Forall canonical_name ts -> map upper ts = ts.
Proof.
  intros N F. induction N as [|t [r c] ts cells Ht N IH]; auto. inversion F; subst. cbn [map]. f_equal; auto.
  cbn [fst snd] in Ht. rewrite (canonical_coord _ _ _ H1 Ht). apply cell_named_iff, parse_range in Ht.
  apply coord_text_upper; tauto.
Qed.

Lemma strs_valid k names vv : text_eqb k n_frequency = false -> text_eqb k n_context = false ->
  valid_values k = Ok vv -> (forall t, valid_param_value (VStr t) vv = true) ->
  validate_one k (VList (map VStr names)) = Ok tt.
Proof.
  intros F C V H. unfold validate_one. cbn [is_none]. rewrite F, C.
  apply (foldM_unit (fun v => do vv0 <- valid_values k; if valid_param_value v vv0 then Ok tt else Err EInvalid)).
  intros x Hx. apply in_map_iff in Hx. destruct Hx as [t [<- _]]. rewrite V. cbn [bind]. rewrite H. auto.
Qed.
Lemma str_valid k t vv : text_eqb k n_frequency = false -> text_eqb k n_context = false ->
  valid_values k = Ok vv -> (forall t, valid_param_value (VStr t) vv = true) ->
  validate_one k (VStr t) = Ok tt.
Proof. intros F C V H. unfold validate_one. cbn [is_none foldM]. rewrite F, C, V. cbn [bind]. rewrite H. auto. Qed.

Lemma c01_same x y sep r1 c1 r2 c2 cells names d :
  cell_named x r1 c1 -> cell_named y r2 c2 -> sep = "-"%char \/ sep = ":"%char ->
  rectangle r1 c1 r2 c2 cells -> cells <> [] ->
  names_cells names cells -> Forall canonical_name names ->
  build (dset n_headers_coord (VStr (x ++ sep :: y)) d)
    = build (dset n_headers_coord (VList (map VStr names)) d) /\
  build (dset n_time_header (VStr (x ++ sep :: y)) d)
    = build (dset n_time_header (VList (map VStr names)) d).
Proof.
  intros X Y S R NE N F.
  assert (EC : entry_cells (x ++ sep :: y) cells) by (econstructor; eauto).
  assert (U : unpack_header_ranges (VStr (x ++ sep :: y)) = unpack_header_ranges (VList (map VStr names))).
  { assert (UT : unpack_text (x ++ sep :: y) = Ok names).
    { rewrite (canonical_listing _ _ N F). rewrite (rectangle_unique _ _ _ _ _ R), <- rect_coords_cells.
      apply cell_named_iff in X, Y. apply unpack_range; auto. }
    rewrite (unpack_header_text _ _ _ EC UT).
    rewrite (unpack_header_list names (map (fun t => [upper t]) names)).
    - f_equal. f_equal. f_equal. rewrite <- (canonical_upper _ _ N F) at 1. clear.
      induction names as [|t l IH]; cbn [map List.concat app]; auto. f_equal; auto.
    - intros ->. inversion N; subst. congruence.
    - eapply unpack_again; eauto. }
  split.
  - apply build_headers_same; auto.
    + rewrite (str_valid _ _ [VType TyStr; VType TyStr]), (strs_valid _ _ [VType TyStr; VType TyStr]); auto.
    + unfold process_headers_coord. rewrite U. auto.
  - apply build_time_header_same; auto.
    rewrite (str_valid _ _ [VType TyStr; VType TyStr; VType TyList]), (strs_valid _ _ [VType TyStr; VType TyStr; VType TyList]); auto.
Qed.

Lemma cn t r c : parse_coord t = Ok (r, c) -> cell_named t r c.
Proof. apply cell_named_iff. Qed.
Lemma nc ts cells : mapM parse_coord ts = Ok cells -> names_cells ts cells.
Proof. apply names_cells_iff. Qed.
Lemma rc r1 c1 r2 c2 cells : rect_cells r1 c1 r2 c2 = cells -> rectangle r1 c1 r2 c2 cells.
Proof. intros <-. apply rect_cells_rectangle. Qed.

Lemma c01_example :
  entry_cells (txt "b2-C3") [(2, 2); (2, 3); (3, 2); (3, 3)] /\
  unpack_header_ranges (VStr (txt "b2-C3"))
    = Ok (VList (map VStr [txt "B2"; txt "C2"; txt "B3"; txt "C3"])) /\
  names_cells [txt "B2"; txt "C2"; txt "B3"; txt "C3"] [(2, 2); (2, 3); (3, 2); (3, 3)] /\
  Forall canonical_name [txt "B2"; txt "C2"; txt "B3"; txt "C3"].
Proof.
  split; [|split; [vm_compute; reflexivity|split; [apply nc; vm_compute; reflexivity|]]].
  - apply (entry_range (txt "b2") (txt "C3") "-"%char 2 2 3 3);
      [apply cn; vm_compute; reflexivity|apply cn; vm_compute; reflexivity|left; reflexivity|apply rc; vm_compute; reflexivity].
  - repeat (apply Forall_cons || apply Forall_nil);
    [exists (txt "B"), (txt "2")|exists (txt "C"), (txt "2")|exists (txt "B"), (txt "3")|exists (txt "C"), (txt "3")];
    (split; [reflexivity|split; [apply Forall_cons; [cbn; auto 10|apply Forall_nil]|split; [apply Forall_cons; [cbn; auto 10|apply Forall_nil]|discriminate]]]).
Qed.

Lemma c02_round r c : 1 <= r -> 1 <= c <= 18278 ->
  parse_coord (coord_text r c) = Ok (r, c) /\
  cell_named (coord_text r c) r c /\ canonical_name (coord_text r c).
Proof.
  intros R C. destruct (coord_text_canonical r c R C). split; auto. apply parse_coord_text; auto.
Qed.
Lemma c02_letters c : 1 <= c <= 18278 ->
  exists l, get_column_letter c = Ok l /\ column_number l c /\ column_index_from_string l = Ok c.
Proof.
  intros C. exists (col_letters c). unfold get_column_letter.
  replace ((1 <=? c) && (c <=? max_column)) with true by (unfold max_column; lia).
  assert (L : forallb is_letter (col_letters c) = true) by (apply col_letters_letters; auto).
  assert (Le : (1 <= List.length (col_letters c) <= 3)%nat).
  { destruct (col_letters_shape c C) as [[a [E _]]|[[a [b [E _]]]|[a [b [d [E _]]]]]]; rewrite E; cbn; lia. }
  split; auto. split.
  - apply column_number_iff. split; [|split; auto].
    + intros E. rewrite E in Le. cbn in Le. lia.
    + apply letters_val_col; auto.
  - unfold column_index_from_string. rewrite L. destruct Le as [A B].
    apply Nat.leb_le in A, B. cbv zeta. rewrite A, B. cbn [andb]. rewrite letters_val_col; auto.
Qed.
Lemma c02_reading t r c : parse_coord t = Ok (r, c) <-> cell_named t r c.
Proof. symmetry. apply cell_named_iff. Qed.

Lemma c03_built d composed headers v b : NoDup (map fst d) -> dget n_headers_coord d = Some v ->
  process_headers_coord v = Ok (composed, headers) ->
  existsb truthy composed = true -> (2 <= List.length headers)%nat ->
  build d = Ok b ->
  dgetN n_headers_coord b = VList headers /\ dgetN n_composed b = VList composed.
Proof.
  intros ND Hv Hp Ht Hl Hb.
  destruct (build_inv _ _ Hb) as [f [th [tmv [alv [ctxv [comps [hs [ns [d6 [d8 [d9 B]]]]]]]]]]].
  pose proof (bt_headers _ _ _ _ _ _ _ _ _ _ _ _ _ B) as Hh. rewrite (dgetN_some _ _ _ Hv), Hp in Hh.
  inversion Hh; subst comps hs; clear Hh.
  pose proof (bt_d6 _ _ _ _ _ _ _ _ _ _ _ _ _ B) as V6.
  pose proof (bt_d8 _ _ _ _ _ _ _ _ _ _ _ _ _ B) as V8.
  assert (A6 : dgetN n_headers_coord d6 = VList headers) by (rewrite V6; reflexivity).
  assert (B6 : dgetN n_composed d6 = VList composed) by (rewrite V6, Ht; reflexivity).
  assert (A8 : dgetN n_headers_coord d8 = VList headers) by (rewrite V8; exact A6).
  assert (B8 : dgetN n_composed d8 = VList composed) by (rewrite V8; exact B6).
  assert (I6 : In (n_headers_coord, VList headers) d6).
  { apply dget_In. unfold dgetN in A6. destruct (dget n_headers_coord d6); [congruence|discriminate]. }
  assert (J6 : In n_composed (map fst d6)).
  { unfold dgetN in B6. destruct (dget n_composed d6) eqn:E; [eapply dget_has; eauto|discriminate]. }
  destruct (num_series_max _ _ (bt_ns _ _ _ _ _ _ _ _ _ _ _ _ _ B)) as [M _].
  pose proof (M _ _ I6 ltac:(tneq)) as Hn.
  destruct ns as [|n]; [lia|].
  destruct (built_d9 _ _ _ _ _ _ _ _ _ _ _ _ _ B ND) as [D9 _].
  assert (LC : List.length composed = List.length headers).
  { unfold process_headers_coord in Hp. inv_bind Hp. destruct a; cbn in Hp; try discriminate.
    inv_bind Hp. inversion Hp; subst. rewrite !map_length. auto. }
  rewrite !(built_value _ _ _ _ _ _ _ _ _ _ _ _ _ B).
  change (text_in n_headers_coord OPTIONAL) with false. change (text_in n_composed OPTIONAL) with true. cbn beta iota.
  split.
  - destruct (D9 n_headers_coord) as [vv [V1 [V2 _]]].
    { apply (bt_keys8 _ _ _ _ _ _ _ _ _ _ _ _ _ B). left. apply in_map_iff. exists (n_headers_coord, VList headers); auto. }
    rewrite A8 in V2. change (Ok (apply_to_all_gen (VList headers) (Some (S n)) vv) = Ok (dgetN n_headers_coord d9)) in V2. unfold apply_to_all_gen in V2. cbn [is_none andb] in V2.
    destruct headers as [|h1 [|h2 hs]]; cbn in Hl; try lia. inversion V2. auto.
  - destruct (D9 n_composed) as [vv [V1 [V2 _]]].
    { apply (bt_keys8 _ _ _ _ _ _ _ _ _ _ _ _ _ B). left. auto. }
    rewrite B8 in V2. change (Ok (apply_to_all_gen (VList composed) (Some (S n)) vv) = Ok (dgetN n_composed d9)) in V2. unfold apply_to_all_gen in V2. cbn [is_none andb] in V2.
    destruct composed as [|h1 [|h2 hs]]; cbn in LC, Hl; try lia. inversion V2. auto.
Qed.

Lemma c03_example :
  process_headers_coord (VStr (txt "(A1_B2)-(C1_D2)"))
   = Ok ([VList [VStr (txt "A1")]; VList [VStr (txt "B1")]; VList [VStr (txt "C1")]],
         [VStr (txt "B2"); VStr (txt "C2"); VStr (txt "D2")]) /\
  Forall component_ok ([mkcomp (txt "A1") (txt "C1") [(1,1);(1,2);(1,3)]]
                       ++ [mkcomp (txt "B2") (txt "D2") [(2,2);(2,3);(2,4)]]) /\
  composed_range true ([mkcomp (txt "A1") (txt "C1") [(1,1);(1,2);(1,3)]]
                       ++ [mkcomp (txt "B2") (txt "D2") [(2,2);(2,3);(2,4)]]) = txt "(A1_B2)-(C1_D2)".
Proof.
  split; [vm_compute; reflexivity|]. split; [|reflexivity].
  cbn [app]; repeat (apply Forall_cons || apply Forall_nil);
  [exists 1, 1, 1, 3|exists 2, 2, 2, 4]; (split; [apply cn; vm_compute; reflexivity|]);
  (split; [apply cn; vm_compute; reflexivity|apply rc; vm_compute; reflexivity]).
Qed.

Lemma c04_horizontal (entries : list ctx_entry) hs headers :
  Forall (fun e => value_cells (snd (fst e)) (ce_cells e)) entries ->
  Forall (fun e => (2 <= List.length (ce_cells e))%nat /\ in_one_row (ce_cells e)) entries ->
  names_cells hs headers ->
  exists rows,
    process_context (VDict (map fst entries)) (map VStr hs) = Ok (VList (map VList rows)) /\
    Forall2 (attaches concerns_row entries) rows headers.
Proof.
  intros F G N. rewrite Forall_forall in G.
  destruct (process_context_gen concerns_row entries hs headers F N) as [rows [A B]].
  - intros e ts h p He Hts Hp Hh. destruct (G e He). apply scope_row; auto.
  - exists rows. split; auto.
Qed.

Lemma c04_mixed (entries : list ctx_entry) hs headers :
  Forall (fun e => value_cells (snd (fst e)) (ce_cells e)) entries ->
  Forall (fun e => (2 <= List.length (ce_cells e))%nat /\
                   (in_one_row (ce_cells e) \/
                    in_one_column (ce_cells e) /\
                    (forall p h, In p (ce_cells e) -> In h headers ->
                       letters_of_column (snd p) = letters_of_column (snd h)))) entries ->
  names_cells hs headers ->
  exists rows,
    process_context (VDict (map fst entries)) (map VStr hs) = Ok (VList (map VList rows)) /\
    Forall2 (attaches (fun cells r c => concerns_row cells r c \/
                         ~ in_one_row cells /\ concerns_column cells r c) entries) rows headers.
Proof.
  intros F G N. rewrite Forall_forall in G.
  destruct (process_context_gen (fun cells r c => concerns_row cells r c \/
                         ~ in_one_row cells /\ concerns_column cells r c) entries hs headers F N) as [rows [A B]].
  - intros e ts h p He Hts Hp Hh. destruct (G e He) as [L G'].
    change (snd e) with (ce_cells e) in *.
    assert (D : in_one_row (ce_cells e) \/ ~ in_one_row (ce_cells e)).
    { destruct (ce_cells e) as [|[r0 c0] cs]; [left; exists 0; intros p' []|].
      destruct (forallb (fun p => fst p =? r0) ((r0, c0) :: cs)) eqn:E.
      - left. exists r0. rewrite forallb_forall in E. intros q Hq. apply E in Hq. lia.
      - right. intros [row R]. apply forallb_false_ex in E. destruct E as [q [Q1 Q2]].
        pose proof (R q Q1). pose proof (R (r0, c0) (or_introl eq_refl)). cbn in H0. lia. }
    destruct D as [D|D].
    + destruct (scope_row h ts _ _ _ Hts L Hh D) as [b [S1 S2]]. exists b. split; auto. tauto.
    + destruct G' as [G'|[G1 G2]]; [contradiction|].
      destruct (scope_column h ts _ _ _ Hts L Hh D G1) as [b [S1 S2]].
      { intros q Hq. apply G2; auto. }
      exists b. split; auto. rewrite S2. split; auto. intros [H|H]; [|tauto]. exfalso. apply D, (concerns_row_one_row _ _ _ H).
  - exists rows. split; auto.
Qed.

Lemma c04_refuted :
  (exists e h, value_cells (snd (fst e)) (ce_cells e) /\ cell_named h 2 27 /\
     (2 <= List.length (ce_cells e))%nat /\ concerns_column (ce_cells e) 2 27 /\
     process_context (VDict [fst e]) [VStr h] = Ok (VList [VList []])) /\
  (exists e h, value_cells (snd (fst e)) (ce_cells e) /\ cell_named h 2 2 /\
     (2 <= List.length (ce_cells e))%nat /\ ~ concerns_column (ce_cells e) 2 2 /\
     process_context (VDict [fst e]) [VStr h] = Ok (VList [VList [VStr (ce_text e)]])).
Proof.
  split.
  - exists (txt "Total", VStr (txt "B1-B3"), [(1, 2); (2, 2); (3, 2)]), (txt "AA2").
    split; [|split; [apply cn; vm_compute; reflexivity|split; [cbn; lia|split; [|vm_compute; reflexivity]]]].
    + cbn [fst snd ce_cells]. constructor. apply (entry_range (txt "B1") (txt "B3") "-"%char 1 2 3 2);
       [apply cn; vm_compute; reflexivity|apply cn; vm_compute; reflexivity|auto|apply rc; vm_compute; reflexivity].
    + exists 2. split; [intros p [<-|[<-|[<-|[]]]]; auto|]. split; [lia|]. exists (2, 2). cbn; auto.
  - exists (txt "Total", VStr (txt "AA1-AA3"), [(1, 27); (2, 27); (3, 27)]), (txt "B2").
    split; [|split; [apply cn; vm_compute; reflexivity|split; [cbn; lia|split; [|vm_compute; reflexivity]]]].
    + cbn [fst snd ce_cells]. constructor. apply (entry_range (txt "AA1") (txt "AA3") "-"%char 1 27 3 27);
       [apply cn; vm_compute; reflexivity|apply cn; vm_compute; reflexivity|auto|apply rc; vm_compute; reflexivity].
    + intros [col [A [B _]]]. specialize (A (1, 27) (or_introl eq_refl)). cbn in A. lia.
Qed.

Lemma c04_example :
  process_context (VDict [(txt "Short", VStr (txt "C1-D1")); (txt "Long", VStr (txt "B1-E1"))])
     (map VStr [txt "B3"; txt "C3"; txt "G3"])
   = Ok (VList [VList [VStr (txt "Long")]; VList [VStr (txt "Long"); VStr (txt "Short")]; VList []]) /\
  value_cells (VStr (txt "C1-D1")) [(1, 3); (1, 4)] /\ in_one_row [(1, 3); (1, 4)] /\
  names_cells [txt "B3"; txt "C3"; txt "G3"] [(3, 2); (3, 3); (3, 7)].
Proof.
  split; [vm_compute; reflexivity|]. split; [|split].
  - constructor. apply (entry_range (txt "C1") (txt "D1") "-"%char 1 3 1 4);
       [apply cn; vm_compute; reflexivity|apply cn; vm_compute; reflexivity|auto|apply rc; vm_compute; reflexivity].
  - exists 1. intros p [<-|[<-|[]]]; auto.
  - apply nc; vm_compute; reflexivity.
Qed.

Lemma c05_iff ts cells : names_cells ts cells -> no_diagonal_start cells ->
  (consecutive_cells ts = Ok true <-> row_run cells \/ column_run cells).
Proof.
  intros N D. split; [apply consecutive_sound; auto|apply consecutive_complete; auto].
Qed.
Lemma c05_refuted : exists ts cells, names_cells ts cells /\
  consecutive_cells ts = Ok true /\ ~ row_run cells /\ ~ column_run cells.
Proof.
  exists [txt "A1"; txt "B2"; txt "C3"], [(1, 1); (2, 2); (3, 3)].
  split; [apply nc; vm_compute; reflexivity|]. split; [vm_compute; reflexivity|].
  split; intros [r [c [n E]]]; (destruct n as [|[|n]]; cbn [seq map] in E; try discriminate); inversion E; lia.
Qed.
Lemma c05_example :
  names_cells [txt "Y7"; txt "Z7"; txt "AA7"] [(7, 25); (7, 26); (7, 27)] /\
  row_run [(7, 25); (7, 26); (7, 27)] /\ consecutive_cells [txt "Y7"; txt "Z7"; txt "AA7"] = Ok true /\
  consecutive_cells [txt "Y7"; txt "AA7"] = Ok false.
Proof.
  split; [apply nc; vm_compute; reflexivity|]. split; [|split; vm_compute; reflexivity].
  exists 7, 25, 3%nat. reflexivity.
Qed.
