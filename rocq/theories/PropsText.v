(** Property C59: a whole call on a table whose dates are texts. *)
From Verif Require Import Base BaseFacts Cal CalFacts SpecCal Coord SpecCoord CoordFacts SpecCoordFacts XlMethods Params ParseTime TimeIndex GetData PeriodRange DataFrame Scrape Xlseries
  SpecParams SpecAttempts SpecTime TimeFacts SpecData DataFacts DataProofs SpecFrames SpecScrape SpecParse SpecSimple SpecEnd EndCall SpecText EndText
  PropsParams PropsScrape PropsTime PropsParse PropsEnd Demo.
Local Open Scope Z_scope.

(** ** C59 A clean table whose dates are texts is scraped exactly *)

(** quarters, months or years in one of the styles of composed texts, or dates
    with day, month and year; in columns or in rows, with any other default
    stated *)
Theorem C59_text_table e uni json st wb q preserve name i d cells time starts ends f se names ds data :
  wb_ok st wb -> resolves uni strip (names_of st wb) q name -> first_such (fun i => title (sheet st i) = name) wb i ->
  bounded (sheet st i) ->
  request d cells time starts ends f se -> periodic f -> (se_missings se = true -> ~ In (VStr (pname "Implicit")) (se_markers se)) ->
  text_table e d (sheet st i) cells time starts ends f se ds data -> table_names e d (sheet st i) cells names ->
  exists n cols pid, pandas_name f n /\ column_names names cols /\
    snd (get_data_frames e uni json st wb (UInput (PDict d)) q false preserve) = Ok (DF (mkdf (mkpr (T n) ds) cols data), name, pid).
Proof. exact (c59 e uni json st wb q preserve name i d cells time starts ends f se names ds data). Qed.
Print Assumptions C59_text_table.

(** two quarterly series, with a note below *)
Definition trims : worksheet := sheet_of (T "Trims")
  [[VStr (T "x"); VStr (T " GDP "); VStr (T "CPI")];
   [says_ " 1986 3o trim."; VInt 10; VInt 11];
   [says_ "IV"; VStr (T "NA"); VInt 12];
   [says_ "1987 1o (1)"; VInt 30; VInt 13];
   [VNone; VNone; VNone];
   [says_ "Note: III and IV of 1987 to come"; VNone; VNone]].
Definition trims_params : dict :=
  [ (pname "headers_coord", VStr (pname "B1-C1")); (pname "time_header_coord", VStr (pname "A1"));
    (pname "data_starts", VInt 2); (pname "frequency", VStr (pname "Q")); (pname "time_composed", VBool true);
    (pname "missings", VBool true); (pname "missing_value", VStr (pname "NA")) ].
Example C59_case :
  let cells := [(1, 2); (1, 3)] in
  let ds := [mkdt 1986 7 1 0; mkdt 1986 10 1 0; mkdt 1987 1 1 0] in
  let se := mkset Vert true false true [VStr (pname "NA")] true in
  request trims_params cells (1, 1) 2 4 "Q" se /\
  text_table demo_env trims_params trims cells (1, 1) 2 4 "Q" se ds [[float_of_Z 10; S754_nan; float_of_Z 30]; map float_of_Z [11; 12; 13]] /\
  table_names demo_env trims_params trims cells [T "GDP"; T "CPI"] /\
  match snd (get_data_frames demo_env (fun t => t) no_json (mkstore [trims] []) [0%nat] (UInput (PDict trims_params)) None false true) with
  | Ok (DF d, name, _) => name = T "Trims" /\ pr_dates (df_index d) = ds /\ df_cols d = [T "GDP"; T "CPI"] /\
      df_data d = [[float_of_Z 10; S754_nan; float_of_Z 30]; map float_of_Z [11; 12; 13]]
  | _ => False
  end.
Proof.
  cbv zeta. assert (NG : forall k, dget k trims_params = None -> ~ given k trims_params) by (intros k E (v & E' & _); congruence).
  split; [|split; [|split]].
  - constructor; cbn [se_align se_continuity se_blanks se_missings se_markers se_composed].
    + repeat constructor; cbn; intuition discriminate.
    + intros k I. cbn in I. destruct I as [<-|[<-|[<-|[<-|[<-|[<-|[<-|[]]]]]]]]; apply text_in_In; reflexivity.
    + exists (VStr (pname "B1-C1")). split; [reflexivity|]. split; [|discriminate].
      apply vc_text. apply (entry_range (pname "B1") (pname "C1") "-"%char 1 2 1 3);
        try (apply cell_named_iff; reflexivity); auto. apply rect_cells_rectangle.
    + exists (pname "A1"). split; [|apply cell_named_iff; reflexivity]. split; [intros [l L]; discriminate|left; reflexivity].
    + split; [intros [l L]; discriminate|left; reflexivity].
    + exists (pname "Q"). split; [|reflexivity]. split; [intros [l L]; discriminate|left; reflexivity].
    + left. apply NG. reflexivity.
    + apply ly_default; [apply NG; reflexivity|]. intros (_ & [k K] & _). specialize (K (1, 2) (or_introl eq_refl)) as K1. specialize (K (1, 3) (or_intror (or_introl eq_refl))) as K2. cbn in K1, K2. lia.
    + right. split; [apply NG; reflexivity|]. eexists. do 1 right. left. reflexivity.
    + right. split; [apply NG; reflexivity|]. eexists. do 2 right. left. reflexivity.
    + left. split; [intros [l L]; discriminate|left; reflexivity].
    + apply mk_one; [reflexivity|discriminate|intros [l L]; discriminate].
    + left. split; [intros [l L]; discriminate|left; reflexivity].
    + right. split; [apply NG; reflexivity|]. eexists. do 6 right. left. reflexivity.
    + left. apply NG. reflexivity.
    + apply NG. reflexivity.
    + apply NG. reflexivity.
  - constructor; cbn [se_align se_continuity se_blanks se_missings se_markers se_composed along line_of depth_of].
    + reflexivity.
    + cbn; lia.
    + exists [says_ " 1986 3o trim."; says_ "IV"; says_ "1987 1o (1)"]. split.
      * intros [|[|[|k]]] x H; inversion H; try (destruct k; discriminate); reflexivity.
      * apply (wi_quarters _ _ _ _ _ _ QPlain); [reflexivity|reflexivity|]. split; [reflexivity|].
        intros [|[|[|k]]] v x V X; inversion V; inversion X; subst; cbn [date_before nth_error]; [| | |destruct k; discriminate].
        -- exists (T "1986 3o trim."), (Some 1986), 3, 7. split; [whole_cell|]. split; [|split; [reflexivity|constructor]].
           apply (qt_year [] (T "1986") (T " ") (T "3") (T "o trim.") 1986 3); [chars|constructor; [reflexivity|dec|lia]|chars|right; constructor|]. apply notes_0. chars.
        -- exists (T "IV"), None, 4, 10. split; [whole_cell|]. split; [|split; [reflexivity|]].
           ++ apply (qt_plain [] (T "IV") [] 4); [chars|left; constructor|]. apply notes_0. chars.
           ++ exact (mo_last 10 (mkdt 1986 7 1 0)).
        -- exists (T "1987 1o (1)"), (Some 1987), 1, 1. split; [whole_cell|]. split; [|split; [reflexivity|constructor]].
           apply (qt_year [] (T "1987") (T " ") (T "1") (T "o (1)") 1987 1); [chars|constructor; [reflexivity|dec|lia]|chars|right; constructor|].
           apply (notes_1 (T "o ") (T "(1)") []); [chars| |chars]. apply (note_of (T "1")); [cbn; lia|chars].
    + repeat (apply con_more; [apply op_months with 3; [reflexivity|later]|]). constructor.
    + exists (mkdt 1986 7 1 0). split; [reflexivity|]. cbn. tauto.
    + repeat constructor; try (apply valid_real; reflexivity); cbn; lia.
    + intros rc H. inversion H. cbn. lia.
    + split; [lia|discriminate].
    + exists 6. split; [apply (li_sheet trims_params trims Vert); apply NG; reflexivity|].
      right. split; [reflexivity|]. split; [lia|]. left. split; [reflexivity|]. split; [reflexivity|]. left. reflexivity.
    + repeat constructor; cbn; lia.
    + assert (N : forall z, float_of_Z z <> S754_infinity (z <? 0) -> stands_for true [VStr (pname "NA")] (VInt z) (float_of_Z z)).
      { intros z F. apply sf_number; [apply cn_int; auto|]. intros _ u k [<-|ST] [<-|[]]; [reflexivity|].
        apply stripped_iff in ST. subst u. reflexivity. }
      cbn [map]. pairwise; (split; [reflexivity|]); three;
        try (match goal with |- stands_for _ _ ?c (float_of_Z ?z) => change c with (VInt z) end; apply N; vm_compute; discriminate).
      apply (sf_marker true _ _ (VStr (pname "NA"))); try reflexivity; try discriminate; [apply stripped_iff; reflexivity|left; reflexivity].
  - apply tn_headers; [apply NG; reflexivity|]. pairwise; (eexists; split; [constructor|apply stripped_iff; reflexivity]).
  - vm_compute. repeat split.
Qed.
