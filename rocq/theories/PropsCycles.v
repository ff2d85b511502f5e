(** Property C67: a whole call on a table of several frequencies. *)
From Verif Require Import Base BaseFacts Cal CalFacts SpecCal Coord SpecCoord CoordFacts SpecCoordFacts XlMethods Params ParseTime TimeIndex GetData PeriodRange DataFrame Scrape Xlseries
  SpecParams SpecAttempts SpecTime TimeFacts SpecData DataFacts DataProofs SpecFrames SpecScrape SpecEnd SpecCycles CycleEnd PropsParams PropsScrape PropsTime PropsFrames PropsEnd Demo.
Local Open Scope Z_scope.

(** ** C67 A table of several frequencies gives one frame per frequency *)

(** one frame for each letter, in the order in which the letters appear, with the
    dates of that letter and the values beside them *)
Theorem C67_cycles e uni json st wb q preserve name i d cells time starts ends f se names ds data :
  wb_ok st wb -> resolves uni strip (names_of st wb) q name -> first_such (fun i => title (sheet st i) = name) wb i ->
  bounded (sheet st i) -> real_dates (sheet st i) ->
  request d cells time starts ends f se -> several_letters f -> (se_missings se = true -> ~ In (VStr (pname "Implicit")) (se_markers se)) ->
  cycle_table d (sheet st i) cells time starts ends f se ds data -> table_names e d (sheet st i) cells names ->
  exists cs frs out pid, letters_of (T f) (List.length (T f)) cs /\ Forall2 (letter_frame f names ds data) cs frs /\ handed frs out /\
    snd (get_data_frames e uni json st wb (UInput (PDict d)) q false preserve) = Ok (out, name, pid).
Proof. exact (c67 e uni json st wb q preserve name i d cells time starts ends f se names ds data). Qed.
Print Assumptions C67_cycles.

(** four quarters and the year, twice, in a column *)
Definition cycle_params : dict :=
  [ (pname "headers_coord", VStr (pname "B1")); (pname "time_header_coord", VStr (pname "A1"));
    (pname "data_starts", VInt 2); (pname "frequency", VStr (pname "QQQQA")) ].
Definition cycle_dates : list datetime :=
  [first 2000 1 1; first 2000 4 1; first 2000 7 1; first 2000 10 1; first 2000 1 1;
   first 2001 1 1; first 2001 4 1; first 2001 7 1; first 2001 10 1; first 2001 1 1].
Definition cycle_data : list spec_float := map float_of_Z [1; 2; 3; 4; 10; 5; 6; 7; 8; 26].
Ltac ten := intros [|[|[|[|[|[|[|[|[|[|k]]]]]]]]]] x H; [..|destruct k; discriminate H]; cbn [nth_error] in H;
  match type of H with Some ?y = Some x => assert (E : y = x) by congruence; clear H; subst x end.
Example C67_case :
  let st := mkstore [cycle_sheet] [] in let cells := [(1, 2)] in
  let se := mkset Vert true false false
    [VNone; VStr (pname "-"); VStr (pname "..."); VStr (pname "."); VStr (pname "/"); VStr (pname "///"); VStr (pname "");
     VStr (pname "s.d."); VStr (pname "s/d"); VStr (pname "n,d,"); VStr (pname "s.d"); VStr (pname " ")] false in
  (wb_ok st [0%nat] /\ resolves (fun t => t) strip (names_of st [0%nat]) (Some (T "s")) (T "s") /\
   first_such (fun i => title (sheet st i) = T "s") [0%nat] 0%nat /\ bounded (sheet st 0) /\ real_dates (sheet st 0) /\ several_letters "QQQQA") /\
  request cycle_params cells (1, 1) 2 11 "QQQQA" se /\
  cycle_table cycle_params (sheet st 0) cells (1, 1) 2 11 "QQQQA" se cycle_dates [cycle_data] /\
  table_names demo_env cycle_params (sheet st 0) cells [T "x"] /\
  letters_of (T "QQQQA") 5 ["Q"; "A"]%char /\
  match snd (get_data_frames demo_env (fun t => t) no_json st [0%nat] (UInput (PDict cycle_params)) (Some (T "s")) false true) with
  | Ok (DL [DF x; DF y], name, _) => name = T "s" /\ pr_freq (df_index x) = T "QS-JAN" /\ pr_freq (df_index y) = T "AS-JAN" /\
      pr_dates (df_index y) = [first 2000 1 1; first 2001 1 1] /\ df_data y = [map float_of_Z [10; 26]] /\
      List.length (pr_dates (df_index x)) = 8%nat /\ df_data x = [map float_of_Z [1; 2; 3; 4; 5; 6; 7; 8]]
  | _ => False
  end.
Proof.
  cbv zeta. assert (NG : forall k, dget k cycle_params = None -> ~ given k cycle_params) by (intros k E (v & E' & _); congruence).
  split; [|split; [|split; [|split; [|split]]]].
  - split; [repeat constructor|]. split; [apply res_exact; [discriminate|left; reflexivity]|].
    split; [exists [], []; repeat split; constructor|]. split; [apply sheet_of_bounded|]. split; [real_|]. split; [cbn; lia|].
    intros c [<-|[<-|[<-|[<-|[<-|[]]]]]]; cbn; tauto.
  - constructor; cbn [se_align se_continuity se_blanks se_missings se_markers se_composed].
    + repeat constructor; cbn; intuition discriminate.
    + intros k I. cbn in I. destruct I as [<-|[<-|[<-|[<-|[]]]]]; apply text_in_In; reflexivity.
    + exists (VStr (pname "B1")). split; [reflexivity|]. split; [|discriminate]. apply vc_text, entry_cell, cell_named_iff. reflexivity.
    + exists (pname "A1"). split; [|apply cell_named_iff; reflexivity]. split; [intros [l L]; discriminate|left; reflexivity].
    + split; [intros [l L]; discriminate|left; reflexivity].
    + exists (pname "QQQQA"). split; [|reflexivity]. split; [intros [l L]; discriminate|left; reflexivity].
    + left. apply NG. reflexivity.
    + apply ly_default; [apply NG; reflexivity|]. cbn. intros [L _]. lia.
    + right. split; [apply NG; reflexivity|]. eexists. do 1 right. left. reflexivity.
    + right. split; [apply NG; reflexivity|]. eexists. do 2 right. left. reflexivity.
    + right. split; [apply NG; reflexivity|]. eexists. do 3 right. left. reflexivity.
    + apply mk_default. apply NG. reflexivity.
    + right. split; [apply NG; reflexivity|]. eexists. do 4 right. left. reflexivity.
    + right. split; [apply NG; reflexivity|]. eexists. do 6 right. left. reflexivity.
    + left. apply NG. reflexivity.
    + apply NG. reflexivity.
    + apply NG. reflexivity.
  - constructor; cbn [se_align se_continuity se_blanks se_missings se_markers se_composed along line_of depth_of].
    + reflexivity.
    + reflexivity.
    + split; [cbn; lia|]. intros c [<-|[<-|[<-|[<-|[<-|[]]]]]]; [exists 5%nat|exists 5%nat|exists 5%nat|exists 5%nat|exists 9%nat]; cbn; repeat split; lia.
    + unfold cycle_dates. ten; reflexivity.
    + assert (Q : consecutive "Q" (share (T "QQQQA") "Q" 0 cycle_dates)).
      { change (consecutive "Q" [first 2000 1 1; first 2000 4 1; first 2000 7 1; first 2000 10 1; first 2001 1 1; first 2001 4 1; first 2001 7 1; first 2001 10 1]).
        repeat (apply con_more; [apply op_months with 3; [reflexivity|later]|]). constructor. }
      assert (A : consecutive "A" (share (T "QQQQA") "A" 0 cycle_dates)).
      { change (consecutive "A" [first 2000 1 1; first 2001 1 1]).
        repeat (apply con_more; [apply op_months with 12; [reflexivity|later]|]). constructor. }
      intros c [<-|[<-|[<-|[<-|[<-|[]]]]]]; assumption.
    + intros c [<-|[<-|[<-|[<-|[<-|[]]]]]]; (exists (first 2000 1 1); split; [reflexivity|cbn; tauto]).
    + repeat constructor; cbn; lia.
    + intros rc H. inversion H. cbn. lia.
    + split; lia.
    + exists 11. split; [|left; reflexivity]. apply (li_sheet cycle_params cycle_sheet Vert). apply NG. reflexivity.
    + apply Forall2_cons; [|apply Forall2_nil]. split; [reflexivity|]. unfold cycle_data. cbn [map]. ten;
        match goal with |- stands_for _ _ ?c (float_of_Z ?z) => change c with (VInt z) end; (apply sf_number; [apply cn_int; vm_compute; discriminate|discriminate]).
  - apply tn_headers; [apply NG; reflexivity|]. apply Forall2_cons; [|apply Forall2_nil]. eexists; split; [constructor|apply stripped_iff; reflexivity].
  - change ["Q"; "A"]%char with (["Q"%char] ++ ["A"%char]). apply lo_new; [|reflexivity|intros [H|[]]; discriminate].
    do 3 (apply lo_old with "Q"%char; [|reflexivity|left; reflexivity]). change ["Q"%char] with ([] ++ ["Q"%char]). apply lo_new; [constructor|reflexivity|intros []].
  - vm_compute. repeat split.
Qed.

(** years before their quarters, stopping after the second quarter: answered *)
Definition stopping_params : dict :=
  [ (pname "headers_coord", VStr (pname "B1")); (pname "time_header_coord", VStr (pname "A1"));
    (pname "data_starts", VInt 2); (pname "frequency", VStr (pname "AQQQQ")) ].
Example C67_stops_case :
  let st := mkstore [years_first_sheet] [] in
  stops_well Vert (T "AQQQQ") 8 /\ ~ stops_well Vert (T "QQQQA") 8 /\ stops_well Horiz (T "QQQQA") 8 /\
  match snd (get_data_frames demo_env (fun t => t) no_json st [0%nat] (UInput (PDict stopping_params)) (Some (T "s")) false true) with
  | Ok (DL [DF x; DF y], name, _) => name = T "s" /\
      pr_dates (df_index x) = [first 2000 1 1; first 2001 1 1] /\ df_data x = [map float_of_Z [10; 11]] /\
      List.length (pr_dates (df_index y)) = 6%nat /\ df_data y = [map float_of_Z [1; 2; 3; 4; 5; 6]]
  | _ => False
  end.
Proof.
  split; [|split; [|split]].
  - split; [lia|]. intros c [<-|[<-|[<-|[<-|[<-|[]]]]]]; [exists 5%nat|exists 6%nat|exists 6%nat|exists 6%nat|exists 6%nat]; cbn; repeat split; lia.
  - intros [_ H]. destruct (H "A"%char) as (k & K & D & C); [cbn; tauto|].
    do 8 (destruct k as [|k]; [cbn in D, C; discriminate|]). lia.
  - split; cbn; lia.
  - vm_compute. repeat split.
Qed.
