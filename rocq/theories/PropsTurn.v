(** Property C39: a sheet in rows and the same sheet in columns. *)
From Verif Require Import Base BaseFacts Cal CalFacts SpecCal Coord SpecCoord CoordFacts SpecCoordFacts XlMethods Params ParseTime TimeIndex GetData PeriodRange DataFrame Scrape Xlseries
  SpecParams ParamsProofs3 SpecAttempts SpecTime TimeFacts SpecData DataFacts DataProofs SpecFrames SpecScrape SpecEnd SpecTurn BuildAccept EndCall EndSimple TurnProofs3
  PropsParams PropsScrape PropsTime PropsEnd Demo.
Local Open Scope Z_scope.

(** ** C39 Turning the sheet and its parameters does not change the answer *)

(** What comes from rows comes from columns too, whatever is in the sheet. *)
Theorem C39_rows_to_columns e uni json st wb u q name i p st' wb' u' q' name' i' p' safe preserve out k :
  wb_ok st wb -> in_store st u -> resolves uni strip (names_of st wb) q name -> first_such (fun i => title (sheet st i) = name) wb i -> object_of json st u p ->
  wb_ok st' wb' -> in_store st' u' -> resolves uni strip (names_of st' wb') q' name' -> first_such (fun i => title (sheet st' i) = name') wb' i' -> object_of json st' u' p' ->
  turned (sheet st i) (sheet st' i') -> turned_params p p' -> single_letters p -> is_complete p = Ok true ->
  snd (get_data_frames e uni json st wb u q safe preserve) = Ok (out, name, k) ->
  exists k', snd (get_data_frames e uni json st' wb' u' q' safe preserve) = Ok (out, name', k').
Proof. exact (c39 e uni json st wb u q name i p st' wb' u' q' name' i' p' safe preserve out k). Qed.
Print Assumptions C39_rows_to_columns.

(** When both are read, the answers are the same. *)
Theorem C39_same_answer e uni json st wb u q name i p st' wb' u' q' name' i' p' safe preserve out k out' k' :
  wb_ok st wb -> in_store st u -> resolves uni strip (names_of st wb) q name -> first_such (fun i => title (sheet st i) = name) wb i -> object_of json st u p ->
  wb_ok st' wb' -> in_store st' u' -> resolves uni strip (names_of st' wb') q' name' -> first_such (fun i => title (sheet st' i) = name') wb' i' -> object_of json st' u' p' ->
  turned (sheet st i) (sheet st' i') -> turned_params p p' -> single_letters p -> is_complete p = Ok true ->
  snd (get_data_frames e uni json st wb u q safe preserve) = Ok (out, name, k) ->
  snd (get_data_frames e uni json st' wb' u' q' safe preserve) = Ok (out', name', k') -> out' = out.
Proof.
  intros H1 H2 H3 H4 H5 H6 H7 H8 H9 H10 H11 H12 H13 H14 R R'.
  destruct (c39 e uni json st wb u q name i p st' wb' u' q' name' i' p' safe preserve out k H1 H2 H3 H4 H5 H6 H7 H8 H9 H10 H11 H12 H13 H14 R) as (k2 & E).
  rewrite E in R'. inversion R'. reflexivity.
Qed.
Print Assumptions C39_same_answer.

(** A clean table gives the same answer in rows and in columns, from
    dictionaries that may leave the optional parameters out. *)
Theorem C39_clean_table e uni json st wb q name i d st' wb' q' name' i' d' preserve cells time starts ends f se names ds data :
  wb_ok st wb -> resolves uni strip (names_of st wb) q name -> first_such (fun i => title (sheet st i) = name) wb i ->
  wb_ok st' wb' -> resolves uni strip (names_of st' wb') q' name' -> first_such (fun i => title (sheet st' i) = name') wb' i' ->
  bounded (sheet st i) -> real_dates (sheet st i) -> periodic f -> (se_missings se = true -> ~ In (VStr (pname "Implicit")) (se_markers se)) ->
  se_align se = Horiz -> request d cells time starts ends f se -> clean_table d (sheet st i) cells time starts ends f se ds data -> table_names e d (sheet st i) cells names ->
  turned (sheet st i) (sheet st' i') -> request d' (map across cells) (across time) starts ends f (in_columns se) ->
  (given (pname "data_ends") d' <-> given (pname "data_ends") d) -> dget (pname "series_names") d' = dget (pname "series_names") d ->
  exists out k k', snd (get_data_frames e uni json st wb (UInput (PDict d)) q false preserve) = Ok (out, name, k) /\
    snd (get_data_frames e uni json st' wb' (UInput (PDict d')) q' false preserve) = Ok (out, name', k').
Proof. exact (c39_clean e uni json st wb q name i d st' wb' q' name' i' d' preserve cells time starts ends f se names ds data). Qed.
Print Assumptions C39_clean_table.

(** *** cases *)
Ltac letter := eexists; reflexivity.
Lemma named_turned t t' r c : 1 <= r <= 18278 -> 1 <= c <= 18278 -> t = coord_text r c -> t' = coord_text c r -> turned_name t t'.
Proof.
  intros R C -> ->. destruct (coord_text_canonical r c) as [A1 A2]; [lia|lia|]. destruct (coord_text_canonical c r) as [B1 B2]; [lia|lia|]. exists r, c. auto.
Qed.
Ltac name_ r c := apply (named_turned _ _ r c); [lia|lia|reflexivity|reflexivity].

(** the sheet of quarters in columns *)
Definition quarters_down : worksheet := sheet_of (T "Q")
  [[VStr (T "x"); VStr (T " GDP "); VStr (T "CPI")];
   [day 2000 10 1; VInt 10; VInt 11];
   [day 2001 1 1; VStr (T "NA"); VInt 12];
   [day 2001 4 1; VInt 30; VInt 13]].
Definition both (al h1 h2 : string) : dict :=
  [ (pname "alignment", VStr (pname al)); (pname "headers_coord", VList [VStr (pname h1); VStr (pname h2)]); (pname "time_header_coord", VStr (pname "A1"));
    (pname "data_starts", VInt 2); (pname "frequency", VStr (pname "Q")); (pname "continuity", VBool true); (pname "blank_rows", VBool false);
    (pname "missings", VBool true); (pname "missing_value", VStr (pname "NA")); (pname "time_composed", VBool false) ].
Definition object (d : dict) : dict := match make_params no_json (PDict d) with Ok p => p | Err _ => [] end.
Definition answer (w : worksheet) (d : dict) : res (dfs_t * text * nat) :=
  snd (get_data_frames demo_env (fun t => t) no_json (mkstore [w] []) [0%nat] (UInput (PDict d)) None false true).
Lemma turned_quarters : turned quarters quarters_down.
Proof.
  split; [reflexivity|]. split; [reflexivity|]. intros r c. unfold quarters, quarters_down, sheet_of. cbn [cell].
  rewrite andb_comm. destruct ((1 <=? r) && (1 <=? c)); [|reflexivity].
  destruct (Z.to_nat (r - 1)) as [|[|[|n]]], (Z.to_nat (c - 1)) as [|[|[|[|m]]]]; cbn; repeat match goal with |- context [match ?n with O => _ | S _ => _ end] => destruct n; cbn end; reflexivity.
Qed.
Example C39_case :
  let p := object (both "horizontal" "A2" "A3") in let p' := object (both "vertical" "B1" "C1") in
  make_params no_json (PDict (both "horizontal" "A2" "A3")) = Ok p /\ make_params no_json (PDict (both "vertical" "B1" "C1")) = Ok p' /\
  turned quarters quarters_down /\ turned_params p p' /\ single_letters p /\ is_complete p = Ok true /\
  match answer quarters (both "horizontal" "A2" "A3") with
  | Ok (DF d, name, _) => pr_dates (df_index d) = [mkdt 2000 10 1 0; mkdt 2001 1 1 0; mkdt 2001 4 1 0] /\ df_cols d = [T "GDP"; T "CPI"] /\
      df_data d = [[float_of_Z 10; S754_nan; float_of_Z 30]; map float_of_Z [11; 12; 13]]
  | _ => False
  end.
Proof.
  cbv zeta. split; [vm_compute; reflexivity|]. split; [vm_compute; reflexivity|]. split; [exact turned_quarters|]. split; [|split; [|split]].
  - assert (E : object (both "horizontal" "A2" "A3") = ltac:(let v := eval vm_compute in (object (both "horizontal" "A2" "A3")) in exact v)) by (vm_compute; reflexivity).
    assert (E' : object (both "vertical" "B1" "C1") = ltac:(let v := eval vm_compute in (object (both "vertical" "B1" "C1")) in exact v)) by (vm_compute; reflexivity).
    rewrite E, E'. unfold turned_params. repeat match goal with |- Forall2 _ (_ :: _) _ => apply Forall2_cons | |- Forall2 _ [] _ => apply Forall2_nil end;
      (split; [reflexivity|]); cbn [fst snd];
      first [apply (tp_layout _ 2); reflexivity
            |apply tp_same; [vm_compute; discriminate|vm_compute; intuition discriminate]
            |idtac].
    + apply tp_coords; [left; reflexivity|]. constructor; [apply te_name; name_ 2 1|constructor; [apply te_name; name_ 3 1|constructor]].
    + apply tp_coords; [right; left; reflexivity|]. repeat constructor.
    + apply tp_coords; [right; right; left; reflexivity|]. constructor; [apply te_name; name_ 1 1|constructor; [apply te_name; name_ 1 1|constructor]].
  - eexists. split; [vm_compute; reflexivity|]. repeat constructor; letter.
  - vm_compute. reflexivity.
  - vm_compute. repeat split.
Qed.

(** the dictionaries of C39_clean_table, with the layout seen from the headers *)
Definition down_params : dict :=
  [ (pname "headers_coord", VStr (pname "B1-C1")); (pname "time_header_coord", VStr (pname "A1"));
    (pname "data_starts", VInt 2); (pname "frequency", VStr (pname "Q"));
    (pname "missings", VBool true); (pname "missing_value", VStr (pname "NA")) ].
Example C39_clean_case :
  let se := mkset Horiz true false true [VStr (pname "NA")] false in
  request down_params (map across [(2, 1); (3, 1)]) (across (1, 1)) 2 4 "Q" (in_columns se) /\
  (given (pname "data_ends") down_params <-> given (pname "data_ends") quarters_params) /\
  dget (pname "series_names") down_params = dget (pname "series_names") quarters_params.
Proof.
  cbv zeta. assert (NG : forall k, dget k down_params = None -> ~ given k down_params) by (intros k E (v & E' & _); congruence).
  split; [|split; [|reflexivity]].
  - constructor; cbn [se_align se_continuity se_blanks se_missings se_markers se_composed in_columns map across fst snd].
    + repeat constructor; cbn; intuition discriminate.
    + intros k I. cbn in I. destruct I as [<-|[<-|[<-|[<-|[<-|[<-|[]]]]]]]; apply text_in_In; reflexivity.
    + exists (VStr (pname "B1-C1")). split; [reflexivity|]. split; [|discriminate].
      apply vc_text. apply (entry_range (pname "B1") (pname "C1") "-"%char 1 2 1 3);
        try (apply cell_named_iff; reflexivity); auto. apply rect_cells_rectangle.
    + exists (pname "A1"). split; [|apply cell_named_iff; reflexivity]. split; [intros [l L]; discriminate|left; reflexivity].
    + split; [intros [l L]; discriminate|left; reflexivity].
    + exists (pname "Q"). split; [|reflexivity]. split; [intros [l L]; discriminate|left; reflexivity].
    + left. apply NG. reflexivity.
    + apply ly_default; [apply NG; reflexivity|]. intros (_ & [k K] & _). specialize (K (1, 2) (or_introl eq_refl)) as K1. specialize (K (1, 3) (or_intror (or_introl eq_refl))) as K2. cbn in K1, K2. lia.
    + right. split; [apply NG; reflexivity|]. eexists. do 1 right. left. reflexivity.
    + right. split; [apply NG; reflexivity|]. eexists. do 2 right. left. reflexivity.
    + left. split; [intros [l L]; discriminate|left; reflexivity].
    + apply mk_one; [reflexivity|discriminate|intros [l L]; discriminate].
    + right. split; [apply NG; reflexivity|]. eexists. do 4 right. left. reflexivity.
    + right. split; [apply NG; reflexivity|]. eexists. do 6 right. left. reflexivity.
    + left. apply NG. reflexivity.
    + apply NG. reflexivity.
    + apply NG. reflexivity.
  - split; intros (v & E & _); discriminate E.
Qed.

(** What comes from columns need not come from rows: a note below the dates is
    left out, a note after them is an error. *)
Definition noted_down : worksheet := sheet_of (T "Q")
  [[VStr (T "x"); VStr (T "a"); VStr (T "b")];
   [day 2000 10 1; VInt 10; VInt 11];
   [day 2001 1 1; VInt 20; VInt 12];
   [VNone; VNone; VNone];
   [VStr (T "Source: the office"); VNone; VNone]].
Definition noted : worksheet := sheet_of (T "Q")
  [[VStr (T "x"); day 2000 10 1; day 2001 1 1; VNone; VStr (T "Source: the office")];
   [VStr (T "a"); VInt 10; VInt 20; VNone; VNone];
   [VStr (T "b"); VInt 11; VInt 12; VNone; VNone]].
Theorem C39_columns_to_rows_refuted : exists e uni json st wb u q name i p st' wb' u' q' name' i' p' out k,
  wb_ok st wb /\ in_store st u /\ resolves uni strip (names_of st wb) q name /\ first_such (fun i => title (sheet st i) = name) wb i /\ object_of json st u p /\
  wb_ok st' wb' /\ in_store st' u' /\ resolves uni strip (names_of st' wb') q' name' /\ first_such (fun i => title (sheet st' i) = name') wb' i' /\ object_of json st' u' p' /\
  turned (sheet st i) (sheet st' i') /\ turned_params p p' /\ single_letters p /\ is_complete p = Ok true /\
  snd (get_data_frames e uni json st' wb' u' q' false true) = Ok (out, name', k) /\
  snd (get_data_frames e uni json st wb u q false true) = Err EType.
Proof.
  set (p := object (both "horizontal" "A2" "A3")). set (p' := object (both "vertical" "B1" "C1")).
  pose (ans := snd (get_data_frames demo_env (fun t => t) no_json (mkstore [noted_down] [p']) [0%nat] (UObj 0) None false true)).
  exists demo_env, (fun t => t), no_json, (mkstore [noted] [p]), [0%nat], (UObj 0), None, (T "Q"), 0%nat, p.
  exists (mkstore [noted_down] [p']), [0%nat], (UObj 0), None, (T "Q"), 0%nat, p'.
  exists (match ans with Ok (out, _, _) => out | Err _ => DL [] end), 0%nat.
  destruct C39_case as (_ & _ & _ & TP & SL & CO & _).
  split; [repeat constructor|]. split; [cbn; lia|]. split; [apply res_none; reflexivity|]. split; [exists [], []; repeat split; constructor|]. split; [apply (object_given no_json (mkstore [noted] [p]) 0)|].
  split; [repeat constructor|]. split; [cbn; lia|]. split; [apply res_none; reflexivity|]. split; [exists [], []; repeat split; constructor|]. split; [apply (object_given no_json (mkstore [noted_down] [p']) 0)|].
  split; [|split; [exact TP|split; [exact SL|split; [exact CO|split; vm_compute; reflexivity]]]].
  split; [reflexivity|]. split; [reflexivity|]. intros r c. change (sheet (mkstore [noted] [p]) 0) with noted. change (sheet (mkstore [noted_down] [p']) 0) with noted_down.
  unfold noted, noted_down, sheet_of. cbn [cell].
  rewrite andb_comm. destruct ((1 <=? r) && (1 <=? c)); [|reflexivity].
  destruct (Z.to_nat (r - 1)) as [|[|[|n]]], (Z.to_nat (c - 1)) as [|[|[|[|[|m]]]]]; cbn; repeat match goal with |- context [match ?n with O => _ | S _ => _ end] => destruct n; cbn end; reflexivity.
Qed.
Print Assumptions C39_columns_to_rows_refuted.

(** When a parameter is left to be searched for, both may be read and the
    answers differ: in columns the dates stop at the blank row, in rows the
    search goes on until the blank is allowed. *)
Definition searched (al h1 h2 : string) : dict :=
  [ (pname "alignment", VStr (pname al)); (pname "headers_coord", VList [VStr (pname h1); VStr (pname h2)]); (pname "time_header_coord", VStr (pname "A1"));
    (pname "data_starts", VInt 2); (pname "frequency", VStr (pname "Q")); (pname "continuity", VBool true);
    (pname "missings", VBool true); (pname "missing_value", VStr (pname "NA")); (pname "time_composed", VBool false) ].
Definition blank_between : worksheet := sheet_of (T "Q")
  [[VStr (T "x"); day 2000 10 1; day 2001 1 1; VNone; day 2001 4 1; day 2001 7 1];
   [VStr (T "a"); VInt 10; VInt 20; VNone; VInt 7; VInt 6];
   [VStr (T "b"); VInt 11; VInt 12; VNone; VInt 8; VInt 9]].
Definition blank_between_down : worksheet := sheet_of (T "Q")
  [[VStr (T "x"); VStr (T "a"); VStr (T "b")];
   [day 2000 10 1; VInt 10; VInt 11];
   [day 2001 1 1; VInt 20; VInt 12];
   [VNone; VNone; VNone];
   [day 2001 4 1; VInt 7; VInt 8];
   [day 2001 7 1; VInt 6; VInt 9]].
Ltac turned_objects :=
  match goal with |- turned_params ?p ?p' =>
    let v := eval vm_compute in p in let v' := eval vm_compute in p' in
    let E := fresh in let E' := fresh in
    assert (E : p = v) by (vm_compute; reflexivity); assert (E' : p' = v') by (vm_compute; reflexivity); rewrite E, E'
  end;
  unfold turned_params; repeat match goal with |- Forall2 _ (_ :: _) _ => apply Forall2_cons | |- Forall2 _ [] _ => apply Forall2_nil end;
  (split; [reflexivity|]); cbn [fst snd];
  first [apply (tp_layout _ 2); reflexivity|apply (tp_layout _ 1); reflexivity|apply tp_same; [vm_compute; discriminate|vm_compute; intuition discriminate]|idtac].
Ltac turned_sheets :=
  split; [reflexivity|]; split; [reflexivity|]; intros r c;
  match goal with |- cell (sheet (mkstore [?a] _) _) _ _ = cell (sheet (mkstore [?b] _) _) _ _ =>
    change (cell a c r = cell b r c); unfold a, b end;
  unfold sheet_of; cbn [cell]; rewrite andb_comm; destruct ((1 <=? r) && (1 <=? c)); [|reflexivity];
  destruct (Z.to_nat (r - 1)) as [|[|[|n]]], (Z.to_nat (c - 1)) as [|[|[|[|[|[|[|[|m]]]]]]]]; cbn; repeat match goal with |- context [match ?n with O => _ | S _ => _ end] => destruct n; cbn end; reflexivity.

Theorem C39_incomplete_refuted : exists e uni json st wb u q name i p st' wb' u' q' name' i' p' out k out' k',
  wb_ok st wb /\ in_store st u /\ resolves uni strip (names_of st wb) q name /\ first_such (fun i => title (sheet st i) = name) wb i /\ object_of json st u p /\
  wb_ok st' wb' /\ in_store st' u' /\ resolves uni strip (names_of st' wb') q' name' /\ first_such (fun i => title (sheet st' i) = name') wb' i' /\ object_of json st' u' p' /\
  turned (sheet st i) (sheet st' i') /\ turned_params p p' /\ single_letters p /\ is_complete p = Ok false /\
  snd (get_data_frames e uni json st wb u q false true) = Ok (out, name, k) /\
  snd (get_data_frames e uni json st' wb' u' q' false true) = Ok (out', name', k') /\ out' <> out.
Proof.
  set (p := object (searched "horizontal" "A2" "A3")). set (p' := object (searched "vertical" "B1" "C1")).
  pose (ans := snd (get_data_frames demo_env (fun t => t) no_json (mkstore [blank_between] [p]) [0%nat] (UObj 0) None false true)).
  pose (ans' := snd (get_data_frames demo_env (fun t => t) no_json (mkstore [blank_between_down] [p']) [0%nat] (UObj 0) None false true)).
  exists demo_env, (fun t => t), no_json, (mkstore [blank_between] [p]), [0%nat], (UObj 0), None, (T "Q"), 0%nat, p.
  exists (mkstore [blank_between_down] [p']), [0%nat], (UObj 0), None, (T "Q"), 0%nat, p'.
  exists (match ans with Ok (out, _, _) => out | Err _ => DL [] end), (match ans with Ok (_, _, k) => k | Err _ => 0%nat end).
  exists (match ans' with Ok (out, _, _) => out | Err _ => DL [] end), (match ans' with Ok (_, _, k) => k | Err _ => 0%nat end).
  split; [repeat constructor|]. split; [cbn; lia|]. split; [apply res_none; reflexivity|]. split; [exists [], []; repeat split; constructor|]. split; [apply (object_given no_json (mkstore [blank_between] [p]) 0)|].
  split; [repeat constructor|]. split; [cbn; lia|]. split; [apply res_none; reflexivity|]. split; [exists [], []; repeat split; constructor|]. split; [apply (object_given no_json (mkstore [blank_between_down] [p']) 0)|].
  split; [turned_sheets|]. split.
  { unfold p, p'. turned_objects.
    - apply tp_coords; [left; reflexivity|]. constructor; [apply te_name; name_ 2 1|constructor; [apply te_name; name_ 3 1|constructor]].
    - apply tp_coords; [right; left; reflexivity|]. repeat constructor.
    - apply tp_coords; [right; right; left; reflexivity|]. constructor; [apply te_name; name_ 1 1|constructor; [apply te_name; name_ 1 1|constructor]]. }
  split; [eexists; split; [vm_compute; reflexivity|repeat constructor; letter]|]. split; [vm_compute; reflexivity|].
  split; [vm_compute; reflexivity|]. split; [vm_compute; reflexivity|]. intros X. vm_compute in X. discriminate X.
Qed.
Print Assumptions C39_incomplete_refuted.

(** A table of several frequencies that stops inside a cycle comes from rows,
    and not from columns. *)
Definition cycled (al h : string) : dict :=
  [ (pname "alignment", VStr (pname al)); (pname "headers_coord", VStr (pname h)); (pname "time_header_coord", VStr (pname "A1"));
    (pname "data_starts", VInt 2); (pname "frequency", VStr (pname "QQQQA")); (pname "continuity", VBool true); (pname "blank_rows", VBool false);
    (pname "missings", VBool false); (pname "time_composed", VBool false) ].
Definition cut : worksheet := sheet_of (T "Q")
  [[VStr (T "x"); day 2000 1 1; day 2000 4 1; day 2000 7 1; day 2000 10 1; day 2000 1 1; day 2001 1 1; day 2001 4 1];
   [VStr (T "a"); VInt 1; VInt 2; VInt 3; VInt 4; VInt 10; VInt 5; VInt 6]].
Definition cut_down : worksheet := sheet_of (T "Q")
  [[VStr (T "x"); VStr (T "a")];
   [day 2000 1 1; VInt 1]; [day 2000 4 1; VInt 2]; [day 2000 7 1; VInt 3]; [day 2000 10 1; VInt 4]; [day 2000 1 1; VInt 10];
   [day 2001 1 1; VInt 5]; [day 2001 4 1; VInt 6]].
Theorem C39_cycles_refuted : exists e uni json st wb u q name i p st' wb' u' q' name' i' p' out k,
  wb_ok st wb /\ in_store st u /\ resolves uni strip (names_of st wb) q name /\ first_such (fun i => title (sheet st i) = name) wb i /\ object_of json st u p /\
  wb_ok st' wb' /\ in_store st' u' /\ resolves uni strip (names_of st' wb') q' name' /\ first_such (fun i => title (sheet st' i) = name') wb' i' /\ object_of json st' u' p' /\
  turned (sheet st i) (sheet st' i') /\ turned_params p p' /\ is_complete p = Ok true /\
  snd (get_data_frames e uni json st wb u q false true) = Ok (out, name, k) /\
  snd (get_data_frames e uni json st' wb' u' q' false true) = Err EValue.
Proof.
  set (p := object (cycled "horizontal" "A2")). set (p' := object (cycled "vertical" "B1")).
  pose (ans := snd (get_data_frames demo_env (fun t => t) no_json (mkstore [cut] [p]) [0%nat] (UObj 0) None false true)).
  exists demo_env, (fun t => t), no_json, (mkstore [cut] [p]), [0%nat], (UObj 0), None, (T "Q"), 0%nat, p.
  exists (mkstore [cut_down] [p']), [0%nat], (UObj 0), None, (T "Q"), 0%nat, p'.
  exists (match ans with Ok (out, _, _) => out | Err _ => DL [] end), (match ans with Ok (_, _, k) => k | Err _ => 0%nat end).
  split; [repeat constructor|]. split; [cbn; lia|]. split; [apply res_none; reflexivity|]. split; [exists [], []; repeat split; constructor|]. split; [apply (object_given no_json (mkstore [cut] [p]) 0)|].
  split; [repeat constructor|]. split; [cbn; lia|]. split; [apply res_none; reflexivity|]. split; [exists [], []; repeat split; constructor|]. split; [apply (object_given no_json (mkstore [cut_down] [p']) 0)|].
  split; [turned_sheets|]. split.
  { unfold p, p'. turned_objects.
    - apply tp_coords; [left; reflexivity|]. constructor; [apply te_name; name_ 2 1|constructor].
    - apply tp_coords; [right; left; reflexivity|]. repeat constructor.
    - apply tp_coords; [right; right; left; reflexivity|]. constructor; [apply te_name; name_ 1 1|constructor]. }
  split; [vm_compute; reflexivity|]. split; vm_compute; reflexivity.
Qed.
Print Assumptions C39_cycles_refuted.
