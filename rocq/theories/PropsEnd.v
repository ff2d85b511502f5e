(** Properties C38 and C55: a whole call on a clean sheet, and the parameters
    that are accepted. *)
From Verif Require Import Base BaseFacts Cal CalFacts SpecCal Coord SpecCoord CoordFacts SpecCoordFacts XlMethods Params ParseTime TimeIndex GetData PeriodRange DataFrame Scrape Xlseries
  SpecParams ParamsProofs3 SpecAttempts SpecTime TimeFacts SpecData DataFacts DataProofs SpecFrames SpecScrape SpecEnd BuildAccept EndCall EndSimple PropsParams PropsScrape PropsTime Demo.
Local Open Scope Z_scope.

(** ** C55 The dictionaries accepted are the well formed ones with the data after the headers *)
Theorem C55_accepted json d headers starts : headers <> [] -> well_formed d headers starts ->
  ((exists p, make_params json (PDict d) = Ok p) <-> data_after_header d headers starts).
Proof.
  intros NE WF. split; [|apply c55; auto].
  intros [p H]. destruct (wf_headers _ _ _ WF) as (hv & HV & HC). destruct headers as [|[r0 c0] cells]; [congruence|].
  exact (c13 json d p hv r0 c0 cells starts H HV HC (wf_starts _ _ _ WF)).
Qed.
Print Assumptions C55_accepted.

(** ** C38 A clean sheet is scraped exactly *)

(** giving only the critical parameters, for series in columns *)
Theorem C38_clean_sheet e uni json st wb q preserve name i d cells time starts f names ds data :
  wb_ok st wb -> resolves uni strip (names_of st wb) q name -> first_such (fun i => title (sheet st i) = name) wb i ->
  bounded (sheet st i) -> real_dates (sheet st i) -> periodic f ->
  critical_request d cells time starts f -> clean_columns (sheet st i) cells time starts f ds data ->
  Forall2 (fun rc n => cell (sheet st i) (fst rc) (snd rc) = VStr n /\ stripped (VStr n) (VStr n)) cells names -> NoDup names ->
  exists n pid, pandas_name f n /\
    snd (get_data_frames e uni json st wb (UInput (PDict d)) q false preserve) = Ok (DF (mkdf (mkpr (T n) ds) names data), name, pid).
Proof. exact (c38_critical e uni json st wb q preserve name i d cells time starts f names ds data). Qed.
Print Assumptions C38_clean_sheet.

(** in columns or in rows, stated or seen from the headers, with names, with an
    end, with markers of missing values and with any other default stated *)
Theorem C38_clean_table e uni json st wb q preserve name i d cells time starts ends f se names ds data :
  wb_ok st wb -> resolves uni strip (names_of st wb) q name -> first_such (fun i => title (sheet st i) = name) wb i ->
  bounded (sheet st i) -> real_dates (sheet st i) ->
  request d cells time starts ends f se -> periodic f -> (se_missings se = true -> ~ In (VStr (pname "Implicit")) (se_markers se)) ->
  clean_table d (sheet st i) cells time starts ends f se ds data -> table_names e d (sheet st i) cells names ->
  exists n cols pid, pandas_name f n /\ column_names names cols /\
    snd (get_data_frames e uni json st wb (UInput (PDict d)) q false preserve) = Ok (DF (mkdf (mkpr (T n) ds) cols data), name, pid).
Proof. exact (c38 e uni json st wb q preserve name i d cells time starts ends f se names ds data). Qed.
Print Assumptions C38_clean_table.

(** the four critical parameters of a sheet of three monthly series *)
Example C55_case :
  well_formed sample [(1, 2); (1, 3); (1, 4)] 2 /\ data_after_header sample [(1, 2); (1, 3); (1, 4)] 2 /\
  well_formed (dset (pname "data_starts") (VInt 1) sample) [(1, 2); (1, 3); (1, 4)] 1 /\
  ~ data_after_header (dset (pname "data_starts") (VInt 1) sample) [(1, 2); (1, 3); (1, 4)] 1.
Proof.
  assert (WF : forall z, well_formed (dset (pname "data_starts") (VInt z) sample) [(1, 2); (1, 3); (1, 4)] z).
  { intros z. constructor.
    - repeat constructor; cbn; intuition discriminate.
    - intros k v I. cbn in I. destruct I as [I|[I|[I|[I|[]]]]]; inversion I; subst.
      + split; [apply text_in_In; reflexivity|]. apply acc_headers. eexists; reflexivity.
      + split; [apply text_in_In; reflexivity|]. apply acc_time_header. left. eexists; reflexivity.
      + split; [apply text_in_In; reflexivity|]. apply acc_data_starts. left. eexists; reflexivity.
      + split; [apply text_in_In; reflexivity|]. apply acc_frequency. eexists. split; [reflexivity|]. vm_compute. constructor; [tauto|constructor].
    - exists (VStr (pname "B1-D1")). split; [reflexivity|]. exact (proj1 C10_example).
    - exists (VStr (pname "A1")), [(1, 1)]. split; [reflexivity|]. split; [|discriminate]. apply vc_text, entry_cell, cell_named_iff. reflexivity.
    - exists (VInt z), (VInt z). split; [reflexivity|]. split; [auto|constructor].
    - exists (VStr (pname "m")). split; [reflexivity|discriminate].
    - intros m l H. vm_compute in H. discriminate.
    - left. intros (v & H & _). vm_compute in H. discriminate. }
  split; [exact (WF 2)|]. split.
  - split; [intros _; lia|]. intros [H|(_ & _ & H & _)]; [vm_compute in H; discriminate|]. destruct H as [k K].
    specialize (K (1, 2) (or_introl eq_refl)) as K1. specialize (K (1, 3) (or_intror (or_introl eq_refl))) as K2. cbn in K1, K2. lia.
  - split; [exact (WF 1)|]. intros [H _]. cbn [fst snd] in H.
    enough (1 < 1) by lia. apply H. right. split; [reflexivity|]. split; [discriminate|]. split.
    + exists 1. intros p [<-|[<-|[<-|[]]]]; reflexivity.
    + repeat constructor; cbn; intuition discriminate.
Qed.

Ltac pairwise := repeat match goal with |- Forall2 _ (_ :: _) _ => apply Forall2_cons | |- Forall2 _ [] _ => apply Forall2_nil end.
Ltac three := intros [|[|[|k]]] x H; [| | |destruct k; discriminate H]; cbn [nth_error] in H;
  match type of H with Some ?y = Some x => assert (E : y = x) by congruence; clear H; subst x end.
Ltac later := split; [reflexivity|]; split; [cbn; lia|]; split; [reflexivity|]; eexists; split; [apply dim_spec; [cbn; lia|vm_compute; reflexivity]|vm_compute; reflexivity].
(** three monthly series, with the four critical parameters *)
Definition demo_data : list (list spec_float) := map (map float_of_Z) [[1; 4; 7]; [2; 5; 8]; [3; 6; 9]].
Lemma cells_of_demo : value_cells (VStr (pname "B1-D1")) [(1, 2); (1, 3); (1, 4)].
Proof.
  apply vc_text. apply (entry_range (pname "B1") (pname "D1") "-"%char 1 2 1 4);
    try (apply cell_named_iff; reflexivity); auto. apply rect_cells_rectangle.
Qed.
Example C38_case :
  let st := mkstore [demo] [] in let cells := [(1, 2); (1, 3); (1, 4)] in
  let ds := [mkdt 2000 1 1 0; mkdt 2000 2 1 0; mkdt 2000 3 1 0] in
  (wb_ok st [0%nat] /\ resolves (fun t => t) strip (names_of st [0%nat]) (Some (T "Data")) (T "Data") /\
   first_such (fun i => title (sheet st i) = T "Data") [0%nat] 0%nat /\ bounded (sheet st 0) /\ real_dates (sheet st 0) /\ periodic "M") /\
  critical_request sample cells (1, 1) 2 "M" /\ clean_columns (sheet st 0) cells (1, 1) 2 "M" ds demo_data /\
  Forall2 (fun rc n => cell (sheet st 0) (fst rc) (snd rc) = VStr n /\ stripped (VStr n) (VStr n)) cells [T "a"; T "b"; T "c"] /\
  NoDup [T "a"; T "b"; T "c"].
Proof.
  cbv zeta. split; [|split; [|split; [|split]]].
  - split; [repeat constructor|]. split; [apply res_exact; [discriminate|left; reflexivity]|].
    split; [exists [], []; repeat split; constructor|]. split; [apply sheet_of_bounded|]. split; [real_|cbn; tauto].
  - constructor.
    + repeat constructor; cbn; intuition discriminate.
    + intros k I. cbn in I. destruct I as [<-|[<-|[<-|[<-|[]]]]]; apply text_in_In; reflexivity.
    + exists (VStr (pname "B1-D1")). split; [reflexivity|]. split; [|discriminate]. exact cells_of_demo.
    + exists (pname "A1"). split; [|apply cell_named_iff; reflexivity]. split; [intros [l L]; discriminate|left; reflexivity].
    + split; [intros [l L]; discriminate|left; reflexivity].
    + exists (pname "m"). split; [|reflexivity]. split; [intros [l L]; discriminate|left; reflexivity].
    + intros (_ & [k K] & _). specialize (K (1, 2) (or_introl eq_refl)) as K1. specialize (K (1, 3) (or_intror (or_introl eq_refl))) as K2. cbn in K1, K2. lia.
  - constructor.
    + cbn; lia.
    + split; [lia|]. intros rc H. inversion H. cbn. lia.
    + intros [|[|[|k]]] x H; inversion H; try (destruct k; discriminate); reflexivity.
    + repeat (apply con_more; [apply op_months with 1; [reflexivity|later]|]). constructor.
    + exists (mkdt 2000 1 1 0). split; reflexivity.
    + repeat constructor; cbn; lia.
    + split; [vm_compute; discriminate|]. intros H. vm_compute in H. discriminate.
    + unfold demo_data. cbn [map]. pairwise; (split; [reflexivity|]); three;
        match goal with |- cell_number ?c (float_of_Z ?z) => change c with (VInt z) end; apply cn_int; vm_compute; discriminate.
  - pairwise; (split; [reflexivity|apply stripped_iff; reflexivity]).
  - repeat constructor; cbn; intuition discriminate.
Qed.

(** two quarterly series in rows, one value missing, the layout seen from the
    headers and named by the user *)
Definition quarters : worksheet := sheet_of (T "Q")
  [[VStr (T "x"); day 2000 10 1; day 2001 1 1; day 2001 4 1];
   [VStr (T " GDP "); VInt 10; VStr (T "NA"); VInt 30];
   [VStr (T "CPI"); VInt 11; VInt 12; VInt 13]].
Definition quarters_params : dict :=
  [ (pname "headers_coord", VStr (pname "A2-A3")); (pname "time_header_coord", VStr (pname "A1"));
    (pname "data_starts", VInt 2); (pname "frequency", VStr (pname "Q"));
    (pname "missings", VBool true); (pname "missing_value", VStr (pname "NA")) ].
Example C38_rows_case :
  let cells := [(2, 1); (3, 1)] in
  let ds := [mkdt 2000 10 1 0; mkdt 2001 1 1 0; mkdt 2001 4 1 0] in
  let se := mkset Horiz true false true [VStr (pname "NA")] false in
  request quarters_params cells (1, 1) 2 4 "Q" se /\
  clean_table quarters_params quarters cells (1, 1) 2 4 "Q" se ds [[float_of_Z 10; S754_nan; float_of_Z 30]; map float_of_Z [11; 12; 13]] /\
  table_names demo_env quarters_params quarters cells [T "GDP"; T "CPI"] /\
  match snd (get_data_frames demo_env (fun t => t) no_json (mkstore [quarters] []) [0%nat] (UInput (PDict quarters_params)) None false true) with
  | Ok (DF d, name, _) => name = T "Q" /\ pr_dates (df_index d) = ds /\ df_cols d = [T "GDP"; T "CPI"] /\
      df_data d = [[float_of_Z 10; S754_nan; float_of_Z 30]; map float_of_Z [11; 12; 13]]
  | _ => False
  end.
Proof.
  cbv zeta. assert (NG : forall k, dget k quarters_params = None -> ~ given k quarters_params) by (intros k E (v & E' & _); congruence).
  split; [|split; [|split]].
  - constructor; cbn [se_align se_continuity se_blanks se_missings se_markers se_composed].
    + repeat constructor; cbn; intuition discriminate.
    + intros k I. cbn in I. destruct I as [<-|[<-|[<-|[<-|[<-|[<-|[]]]]]]]; apply text_in_In; reflexivity.
    + exists (VStr (pname "A2-A3")). split; [reflexivity|]. split; [|discriminate].
      apply vc_text. apply (entry_range (pname "A2") (pname "A3") "-"%char 2 1 3 1);
        try (apply cell_named_iff; reflexivity); auto. apply rect_cells_rectangle.
    + exists (pname "A1"). split; [|apply cell_named_iff; reflexivity]. split; [intros [l L]; discriminate|left; reflexivity].
    + split; [intros [l L]; discriminate|left; reflexivity].
    + exists (pname "Q"). split; [|reflexivity]. split; [intros [l L]; discriminate|left; reflexivity].
    + left. apply NG. reflexivity.
    + apply ly_column; [apply NG; reflexivity|cbn; lia|]. right. exists 2, 1, 2%nat. reflexivity.
    + right. split; [apply NG; reflexivity|]. eexists. do 1 right. left. reflexivity.
    + right. split; [apply NG; reflexivity|]. eexists. do 2 right. left. reflexivity.
    + left. split; [intros [l L]; discriminate|left; reflexivity].
    + apply mk_one; [reflexivity|discriminate|intros [l L]; discriminate].
    + right. split; [apply NG; reflexivity|]. eexists. do 4 right. left. reflexivity.
    + right. split; [apply NG; reflexivity|]. eexists. do 6 right. left. reflexivity.
    + left. apply NG. reflexivity.
    + apply NG. reflexivity.
    + apply NG. reflexivity.
  - constructor; cbn [se_align se_continuity se_blanks se_missings se_markers se_composed along line_of depth_of].
    + reflexivity.
    + reflexivity.
    + cbn; lia.
    + intros [|[|[|k]]] x H; inversion H; try (destruct k; discriminate); reflexivity.
    + repeat (apply con_more; [apply op_months with 3; [reflexivity|later]|]). constructor.
    + exists (mkdt 2000 10 1 0). split; [reflexivity|]. cbn. tauto.
    + repeat constructor; cbn; lia.
    + intros rc H. inversion H. cbn. lia.
    + split; lia.
    + exists 4. split; [|left; reflexivity]. apply (li_sheet quarters_params quarters Horiz). apply NG. reflexivity.
    + assert (N : forall z, float_of_Z z <> S754_infinity (z <? 0) -> stands_for true [VStr (pname "NA")] (VInt z) (float_of_Z z)).
      { intros z F. apply sf_number; [apply cn_int; auto|]. intros _ u k [<-|ST] [<-|[]]; [reflexivity|].
        apply stripped_iff in ST. subst u. reflexivity. }
      cbn [map]. pairwise; (split; [reflexivity|]); three;
        try (match goal with |- stands_for _ _ ?c (float_of_Z ?z) => change c with (VInt z) end; apply N; vm_compute; discriminate).
      apply (sf_marker true _ _ (VStr (pname "NA"))); try reflexivity; try discriminate; [apply stripped_iff; reflexivity|left; reflexivity].
  - apply tn_headers; [apply NG; reflexivity|]. pairwise; (eexists; split; [constructor|apply stripped_iff; reflexivity]).
  - vm_compute. repeat split.
Qed.
