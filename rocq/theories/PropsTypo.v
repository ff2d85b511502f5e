(** Property C63: typing mistakes in the dates of an index. *)
From Verif Require Import Base BaseFacts Cal CalFacts SpecCal Coord SpecCoord CoordFacts SpecCoordFacts XlMethods Params ParseTime TimeIndex GetData PeriodRange DataFrame Scrape Xlseries
  SpecParams SpecAttempts SpecTime TimeFacts SpecData DataFacts DataProofs SpecFrames SpecScrape SpecParse SpecSimple SpecEnd EndCall SpecText SpecTypo TypoProofs
  PropsParams PropsScrape PropsTime PropsEnd Demo.
Local Open Scope Z_scope.

(** ** C63 Typing mistakes in dates are corrected, and nothing else *)

(** a table whose dates have the day, the month or the year wrong, one of them
    at a time, gives the frame of the table with the right dates *)
Theorem C63_corrected e uni json st wb q preserve name i d cells time starts ends f se names ds data :
  wb_ok st wb -> resolves uni strip (names_of st wb) q name -> first_such (fun i => title (sheet st i) = name) wb i ->
  bounded (sheet st i) ->
  request d cells time starts ends f se -> periodic f -> (se_missings se = true -> ~ In (VStr (pname "Implicit")) (se_markers se)) ->
  typo_table d (sheet st i) cells time starts ends f se ds data -> table_names e d (sheet st i) cells names ->
  exists n cols pid, pandas_name f n /\ column_names names cols /\
    snd (get_data_frames e uni json st wb (UInput (PDict d)) q false preserve) = Ok (DF (mkdf (mkpr (T n) ds) cols data), name, pid).
Proof. exact (c63 e uni json st wb q preserve name i d cells time starts ends f se names ds data). Qed.
Print Assumptions C63_corrected.

(** whatever the sheet and the parameters, and even if cleaning the index fails:
    a date of the sheet is still a date, and at most one of its day, month and
    year is another *)
Theorem C63_nothing_else : forall e w p w' r, clean_time_index e w p = (w', r) ->
  forall i j c, cell w i j = VDate c -> exists x, cell w' i j = VDate x /\ (same_day c x \/ one_wrong c x).
Proof. exact c63_only. Qed.
Print Assumptions C63_nothing_else.

(** 2001-02-01 typed with the century wrong and 2001-03-01 with another month *)
Definition typos : worksheet := sheet_of (T "Typos")
  [[VStr (T "x"); VStr (T "a")];
   [day 2001 1 1; VInt 10];
   [day 1901 2 1; VInt 11];
   [day 2001 8 1; VInt 12];
   [VNone; VNone]].
Definition typos_params : dict :=
  [ (pname "headers_coord", VList [VStr (pname "B1")]); (pname "time_header_coord", VStr (pname "A1"));
    (pname "data_starts", VInt 2); (pname "frequency", VStr (pname "M")); (pname "alignment", VStr (pname "vertical")) ].
Example C63_case :
  let cells := [(1, 2)] in
  let ds := [mkdt 2001 1 1 0; mkdt 2001 2 1 0; mkdt 2001 3 1 0] in
  exists mk, let se := mkset Vert true false false mk false in
  let data := [map float_of_Z [10; 11; 12]] in
  request typos_params cells (1, 1) 2 4 "M" se /\
  typo_table typos_params typos cells (1, 1) 2 4 "M" se ds data /\
  table_names demo_env typos_params typos cells [T "a"] /\
  match snd (get_data_frames demo_env (fun t => t) no_json (mkstore [typos] []) [0%nat] (UInput (PDict typos_params)) None false true) with
  | Ok (DF d, name, _) => name = T "Typos" /\ pr_dates (df_index d) = ds /\ df_cols d = [T "a"] /\ df_data d = data
  | _ => False
  end.
Proof.
  cbv zeta. assert (NG : forall k, dget k typos_params = None -> ~ given k typos_params) by (intros k E (v & E' & _); congruence).
  eexists. split; [|split; [|split]].
  - constructor; cbn [se_align se_continuity se_blanks se_missings se_markers se_composed].
    + repeat constructor; cbn; intuition discriminate.
    + intros k I. cbn in I. destruct I as [<-|[<-|[<-|[<-|[<-|[]]]]]]; apply text_in_In; reflexivity.
    + exists (VList [VStr (pname "B1")]). split; [reflexivity|]. split; [|discriminate].
      apply (vc_list [pname "B1"] [[(1, 2)]]); [discriminate|]. repeat constructor. apply cell_named_iff. reflexivity.
    + exists (pname "A1"). split; [|apply cell_named_iff; reflexivity]. split; [intros [l L]; discriminate|left; reflexivity].
    + split; [intros [l L]; discriminate|left; reflexivity].
    + exists (pname "M"). split; [|reflexivity]. split; [intros [l L]; discriminate|left; reflexivity].
    + left. apply NG. reflexivity.
    + apply ly_vertical. split; [intros [l L]; discriminate|left; reflexivity].
    + right. split; [apply NG; reflexivity|]. eexists. do 1 right. left. reflexivity.
    + right. split; [apply NG; reflexivity|]. eexists. do 2 right. left. reflexivity.
    + right. split; [apply NG; reflexivity|]. eexists. do 3 right. left. reflexivity.
    + apply mk_default. apply NG; reflexivity.
    + right. split; [apply NG; reflexivity|]. eexists. do 4 right. left. reflexivity.
    + right. split; [apply NG; reflexivity|]. eexists. do 6 right. left. reflexivity.
    + left. apply NG. reflexivity.
    + apply NG. reflexivity.
    + apply NG. reflexivity.
  - constructor; cbn [se_align se_continuity se_blanks se_missings se_markers se_composed along line_of depth_of].
    + reflexivity.
    + cbn; lia.
    + reflexivity.
    + intros [|[|[|k]]] x H; inversion H; try (destruct k; discriminate); (eexists; split; [reflexivity|]); cbn [date_before nth_error].
      * apply ty_right. reflexivity.
      * eapply ty_back; [reflexivity|apply ow_year; cbn; lia|left; cbn; lia].
      * eapply ty_forth; [reflexivity|apply ow_month; cbn; lia|reflexivity|right; cbn; lia].
    + repeat (apply con_more; [apply op_months with 1; [reflexivity|later]|]). constructor.
    + exists (mkdt 2001 1 1 0). split; [reflexivity|]. split; reflexivity.
    + repeat constructor; try (apply valid_real; reflexivity); cbn; lia.
    + intros rc H. inversion H. cbn. lia.
    + split; [lia|discriminate].
    + exists 5. split; [apply (li_sheet typos_params typos Vert); apply NG; reflexivity|]. right. split; [reflexivity|]. split; [lia|]. left. split; [reflexivity|]. split; [reflexivity|].
      left. reflexivity.
    + repeat constructor; cbn; lia.
    + pairwise. split; [reflexivity|]. intros [|[|[|k]]] x H; inversion H; try (destruct k; discriminate); (cbn [along line_of];  apply sf_number; [apply cn_int; vm_compute; discriminate|discriminate]).
  - apply tn_headers; [apply NG; reflexivity|]. pairwise; (eexists; split; [constructor|apply stripped_iff; reflexivity]).
  - vm_compute. repeat split.
Qed.
