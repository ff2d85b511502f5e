(** Properties C61 and C62: a whole call on a table with periods left out, or
    with blank rows between the dates. *)
From Verif Require Import Base BaseFacts Cal CalFacts SpecCal Coord SpecCoord CoordFacts SpecCoordFacts XlMethods Params ParseTime TimeIndex GetData PeriodRange DataFrame Scrape Xlseries
  SpecParams SpecAttempts SpecTime TimeFacts SpecData DataFacts DataProofs SpecFrames SpecScrape SpecParse SpecSimple SpecEnd EndCall SpecText SpecGaps GapCall
  PropsParams PropsScrape PropsTime PropsEnd Demo.
Local Open Scope Z_scope.

(** ** C61 Periods left out of the sheet get NaN and the others their value *)
Theorem C61_left_out e uni json st wb q preserve name i d cells time starts ends f se names xs ds data :
  wb_ok st wb -> resolves uni strip (names_of st wb) q name -> first_such (fun i => title (sheet st i) = name) wb i ->
  bounded (sheet st i) -> real_dates (sheet st i) ->
  request d cells time starts ends f se -> periodic f ->
  gap_table d (sheet st i) cells time starts ends f se xs ds data -> table_names e d (sheet st i) cells names ->
  exists n cols pid, pandas_name f n /\ column_names names cols /\
    snd (get_data_frames e uni json st wb (UInput (PDict d)) q false preserve) = Ok (DF (mkdf (mkpr (T n) ds) cols data), name, pid).
Proof. exact (c61 e uni json st wb q preserve name i d cells time starts ends f se names xs ds data). Qed.
Print Assumptions C61_left_out.

(** ** C62 Blank rows between the dates are passed over *)
Theorem C62_blank_rows e uni json st wb q preserve name i d cells time starts ends f se names rows ds data :
  wb_ok st wb -> resolves uni strip (names_of st wb) q name -> first_such (fun i => title (sheet st i) = name) wb i ->
  bounded (sheet st i) -> real_dates (sheet st i) ->
  request d cells time starts ends f se -> periodic f -> (se_missings se = true -> ~ In (VStr (pname "Implicit")) (se_markers se)) ->
  spaced_table d (sheet st i) cells time starts ends f se rows ds data -> table_names e d (sheet st i) cells names ->
  exists n cols pid, pandas_name f n /\ column_names names cols /\
    snd (get_data_frames e uni json st wb (UInput (PDict d)) q false preserve) = Ok (DF (mkdf (mkpr (T n) ds) cols data), name, pid).
Proof. exact (c62 e uni json st wb q preserve name i d cells time starts ends f se names rows ds data). Qed.
Print Assumptions C62_blank_rows.

(** two months left out, one value marked as missing, and a note below *)
Definition holes : worksheet := sheet_of (T "Holes")
  [[VStr (T "x"); VStr (T " a "); VStr (T "b")];
   [day 2001 1 1; VInt 10; VInt 11];
   [day 2001 2 1; VStr (T "Implicit"); VInt 12];
   [day 2001 5 1; VInt 30; VInt 13];
   [VStr (T " "); VNone; VNone];
   [VStr (T "Source: own"); VNone; VNone]].
Definition holes_params : dict :=
  [ (pname "headers_coord", VStr (pname "B1-C1")); (pname "time_header_coord", VStr (pname "A1"));
    (pname "data_starts", VInt 2); (pname "frequency", VStr (pname "M"));
    (pname "missings", VBool true); (pname "missing_value", VStr (pname "Implicit")) ].
Ltac number z := match goal with |- stands_for _ _ ?c _ => change c with (VInt z) end;
  apply sf_number; [apply cn_int; vm_compute; discriminate|]; intros _ u k [<-|ST] I;
  [destruct I as [<-|[]]; reflexivity|]; apply stripped_iff in ST; subst u; destruct I as [<-|[]]; reflexivity.
Example C61_case :
  let cells := [(1, 2); (1, 3)] in
  let xs := [mkdt 2001 1 1 0; mkdt 2001 2 1 0; mkdt 2001 5 1 0] in
  let ds := [mkdt 2001 1 1 0; mkdt 2001 2 1 0; mkdt 2001 3 1 0; mkdt 2001 4 1 0; mkdt 2001 5 1 0] in
  let se := mkset Vert true false true [VStr (pname "Implicit")] false in
  let data := [[float_of_Z 10; S754_nan; S754_nan; S754_nan; float_of_Z 30]; [float_of_Z 11; float_of_Z 12; S754_nan; S754_nan; float_of_Z 13]] in
  request holes_params cells (1, 1) 2 4 "M" se /\
  gap_table holes_params holes cells (1, 1) 2 4 "M" se xs ds data /\
  table_names demo_env holes_params holes cells [T "a"; T "b"] /\
  match snd (get_data_frames demo_env (fun t => t) no_json (mkstore [holes] []) [0%nat] (UInput (PDict holes_params)) None false true) with
  | Ok (DF d, name, _) => name = T "Holes" /\ pr_dates (df_index d) = ds /\ df_cols d = [T "a"; T "b"] /\ df_data d = data
  | _ => False
  end.
Proof.
  cbv zeta. assert (NG : forall k, dget k holes_params = None -> ~ given k holes_params) by (intros k E (v & E' & _); congruence).
  split; [|split; [|split]].
  - constructor; cbn [se_align se_continuity se_blanks se_missings se_markers se_composed].
    + repeat constructor; cbn; intuition discriminate.
    + intros k I. cbn in I. destruct I as [<-|[<-|[<-|[<-|[<-|[<-|[]]]]]]]; apply text_in_In; reflexivity.
    + exists (VStr (pname "B1-C1")). split; [reflexivity|]. split; [|discriminate].
      apply vc_text. apply (entry_range (pname "B1") (pname "C1") "-"%char 1 2 1 3);
        try (apply cell_named_iff; reflexivity); auto. apply rect_cells_rectangle.
    + exists (pname "A1"). split; [|apply cell_named_iff; reflexivity]. split; [intros [l L]; discriminate|left; reflexivity].
    + split; [intros [l L]; discriminate|left; reflexivity].
    + exists (pname "M"). split; [|reflexivity]. split; [intros [l L]; discriminate|left; reflexivity].
    + left. apply NG. reflexivity.
    + apply ly_default; [apply NG; reflexivity|]. intros (_ & [k K] & _). specialize (K (1, 2) (or_introl eq_refl)) as K1. specialize (K (1, 3) (or_intror (or_introl eq_refl))) as K2. cbn in K1, K2. lia.
    + right. split; [apply NG; reflexivity|]. eexists. do 1 right. left. reflexivity.
    + right. split; [apply NG; reflexivity|]. eexists. do 2 right. left. reflexivity.
    + left. split; [intros [l L]; discriminate|left; reflexivity].
    + apply mk_one; [reflexivity|discriminate|intros [l L]; discriminate].
    + right. split; [apply NG; reflexivity|]. eexists. do 4 right. left. reflexivity.
    + right. split; [apply NG; reflexivity|]. eexists. do 6 right. left. reflexivity.
    + left. apply NG. reflexivity.
    + apply NG. reflexivity.
    + apply NG. reflexivity.
  - constructor; cbn [se_align se_continuity se_blanks se_missings se_markers se_composed along line_of depth_of].
    + reflexivity.
    + reflexivity.
    + cbn; lia.
    + split; [reflexivity|left; reflexivity].
    + intros [|[|[|k]]] x H; inversion H; try (destruct k; discriminate); reflexivity.
    + repeat (apply con_more; [apply op_months with 1; [reflexivity|later]|]). constructor.
    + exists (mkdt 2001 1 1 0). split; [reflexivity|]. split; reflexivity.
    + repeat constructor; try (apply valid_real; reflexivity); cbn; lia.
    + intros rc H. inversion H. cbn. lia.
    + split; [lia|discriminate].
    + exists 6. split; [apply (li_sheet holes_params holes Vert); apply NG; reflexivity|]. right. split; [reflexivity|]. split; [lia|]. left. split; [reflexivity|]. split; [reflexivity|].
      right. exists (T " "). split; [reflexivity|]. repeat constructor; unfold white; cbn; tauto.
    + pairwise.
      * exists [float_of_Z 10; S754_nan; float_of_Z 30]. split; [repeat constructor|]. three; [number 10| |number 30].
        apply (sf_marker true _ _ (VStr (pname "Implicit"))); try reflexivity; try discriminate; [apply stripped_iff; reflexivity|left; reflexivity].
      * exists [float_of_Z 11; float_of_Z 12; float_of_Z 13]. split; [repeat constructor|]. three; [number 11|number 12|number 13].
  - apply tn_headers; [apply NG; reflexivity|]. pairwise; (eexists; split; [constructor|apply stripped_iff; reflexivity]).
  - vm_compute. repeat split.
Qed.

(** a blank row between two years, and a note beside it *)
Definition spaced : worksheet := sheet_of (T "Spaced")
  [[VStr (T "x"); VStr (T "a")];
   [day 2001 7 1; VInt 10];
   [day 2001 10 1; VInt 11];
   [VStr (T "  "); VNone];
   [VNone; VNone];
   [day 2002 1 1; VInt 12]].
Definition spaced_params : dict :=
  [ (pname "headers_coord", VList [VStr (pname "B1")]); (pname "time_header_coord", VStr (pname "A1"));
    (pname "data_starts", VInt 2); (pname "frequency", VStr (pname "Q")); (pname "alignment", VStr (pname "vertical"));
    (pname "blank_rows", VBool true) ].
Example C62_case :
  let cells := [(1, 2)] in
  let ds := [mkdt 2001 7 1 0; mkdt 2001 10 1 0; mkdt 2002 1 1 0] in
  let rows := [Some (mkdt 2001 7 1 0); Some (mkdt 2001 10 1 0); None; None; Some (mkdt 2002 1 1 0)] in
  exists mk, let se := mkset Vert true true false mk false in
  let data := [map float_of_Z [10; 11; 12]] in
  request spaced_params cells (1, 1) 2 6 "Q" se /\
  spaced_table spaced_params spaced cells (1, 1) 2 6 "Q" se rows ds data /\
  table_names demo_env spaced_params spaced cells [T "a"] /\
  match snd (get_data_frames demo_env (fun t => t) no_json (mkstore [spaced] []) [0%nat] (UInput (PDict spaced_params)) None false true) with
  | Ok (DF d, name, _) => name = T "Spaced" /\ pr_dates (df_index d) = ds /\ df_cols d = [T "a"] /\ df_data d = data
  | _ => False
  end.
Proof.
  cbv zeta. assert (NG : forall k, dget k spaced_params = None -> ~ given k spaced_params) by (intros k E (v & E' & _); congruence).
  eexists. split; [|split; [|split]].
  - constructor; cbn [se_align se_continuity se_blanks se_missings se_markers se_composed].
    + repeat constructor; cbn; intuition discriminate.
    + intros k I. cbn in I. destruct I as [<-|[<-|[<-|[<-|[<-|[<-|[]]]]]]]; apply text_in_In; reflexivity.
    + exists (VList [VStr (pname "B1")]). split; [reflexivity|]. split; [|discriminate].
      apply (vc_list [pname "B1"] [[(1, 2)]]); [discriminate|]. repeat constructor. apply cell_named_iff. reflexivity.
    + exists (pname "A1"). split; [|apply cell_named_iff; reflexivity]. split; [intros [l L]; discriminate|left; reflexivity].
    + split; [intros [l L]; discriminate|left; reflexivity].
    + exists (pname "Q"). split; [|reflexivity]. split; [intros [l L]; discriminate|left; reflexivity].
    + left. apply NG. reflexivity.
    + apply ly_vertical. split; [intros [l L]; discriminate|left; reflexivity].
    + right. split; [apply NG; reflexivity|]. eexists. do 1 right. left. reflexivity.
    + left. split; [intros [l L]; discriminate|left; reflexivity].
    + right. split; [apply NG; reflexivity|]. eexists. do 3 right. left. reflexivity.
    + apply mk_default. apply NG; reflexivity.
    + right. split; [apply NG; reflexivity|]. eexists. do 4 right. left. reflexivity.
    + right. split; [apply NG; reflexivity|]. eexists. do 6 right. left. reflexivity.
    + left. apply NG. reflexivity.
    + apply NG. reflexivity.
    + apply NG. reflexivity.
  - constructor; cbn [se_align se_continuity se_blanks se_missings se_markers se_composed along line_of depth_of].
    + reflexivity.
    + reflexivity.
    + right. reflexivity.
    + intros [|[|[|[|[|k]]]]] x H; inversion H; try (destruct k; discriminate); cbv zeta; try reflexivity.
      * right. exists (T "  "). split; [reflexivity|]. repeat constructor; unfold white; cbn; tauto.
      * left. reflexivity.
    + repeat constructor.
    + cbn; lia.
    + repeat (apply con_more; [apply op_months with 3; [reflexivity|later]|]). constructor.
    + exists (mkdt 2001 7 1 0). split; [reflexivity|]. split; [reflexivity|]. cbn. tauto.
    + eexists. reflexivity.
    + intros k H. cbn in H. lia.
    + repeat constructor; cbn; lia.
    + intros rc H. inversion H. cbn. lia.
    + split; [lia|discriminate].
    + exists 6. split; [apply (li_sheet spaced_params spaced Vert); apply NG; reflexivity|]. left. reflexivity.
    + pairwise. exists [VInt 10; VInt 11; VNone; VNone; VInt 12]. split.
      * intros [|[|[|[|[|k]]]]] x H; inversion H; try (destruct k; discriminate); reflexivity.
      * repeat (apply be_date || (apply be_blank; [reflexivity|]) || apply be_nil);
          (apply sf_number; [apply cn_int; vm_compute; discriminate|discriminate]).
  - apply tn_headers; [apply NG; reflexivity|]. pairwise; (eexists; split; [constructor|apply stripped_iff; reflexivity]).
  - vm_compute. repeat split.
Qed.
