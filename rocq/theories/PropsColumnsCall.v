(** Theorems about whole calls on tables with their index in several columns
    (C73). *)
From Coq Require Import ZifyBool ZifyNat.
From Verif Require Import Base BaseFacts Cal Coord XlMethods Params ParseTime TimeIndex PeriodRange DataFrame Attempts Scrape Xlseries
  SpecCal CalFacts SpecCoord SpecCoordFacts SpecParams CoordFacts HeaderFacts NumberFacts DataFacts
  SpecTime TimeProofs SpecData SpecFrames SpecScrape SpecAttempts SpecParse SpecSimple ParseFacts MonthProofs PoolProofs SpecColumns SpecEnd SpecText SpecColumnsCall ColumnsCall
  Demo PropsTime PropsScrape PropsParams PropsParse PropsEnd PropsText.
Local Open Scope Z_scope.

(** ** C73 A table whose time index is in several columns is scraped whole *)

(** The time header is a list (or a range) of cells, one per column of the index.
    Every row of the table says a date when its cells in those columns are put
    together; the data frame has these dates and, for each header, the name and
    the numbers of its column.  Missing: tables with fewer headers than columns of
    the index ([C73_one_header_refuted]). *)
Theorem C73_columns_table_partial e uni json st wb q preserve name i d cells times starts ends f se names ds data :
  wb_ok st wb -> resolves uni strip (names_of st wb) q name -> first_such (fun i => title (sheet st i) = name) wb i ->
  bounded (sheet st i) ->
  columns_request d cells times starts ends f se -> (List.length times <= List.length cells)%nat -> (se_missings se = true -> ~ In (VStr (pname "Implicit")) (se_markers se)) ->
  columns_table e d (sheet st i) cells times starts ends f se ds data -> table_names e d (sheet st i) cells names ->
  exists n cols pid, pandas_name f n /\ column_names names cols /\
    snd (get_data_frames e uni json st wb (UInput (PDict d)) q false preserve) = Ok (DF (mkdf (mkpr (T n) ds) cols data), name, pid).
Proof. exact (c73 e uni json st wb q preserve name i d cells times starts ends f se names ds data). Qed.
Print Assumptions C73_columns_table_partial.

(** years in A, quarters in B, two series, a note below *)
Definition split_trims : worksheet := sheet_of (T "Split")
  [[says_ "year"; says_ "quarter"; VStr (T " GDP "); VStr (T "CPI")];
   [says_ "1986 "; says_ "3o trim."; VInt 10; VInt 11];
   [VNone; says_ "IV"; VStr (T "NA"); VInt 12];
   [VInt 1987; says_ "1o (1)"; VInt 30; VInt 13];
   [VNone; says_ "  "; VNone; VNone];
   [says_ "Source: here"; VNone; VNone; VNone]].
Definition split_params : dict :=
  [ (pname "headers_coord", VStr (pname "C1-D1")); (pname "time_header_coord", VStr (pname "A1-B1"));
    (pname "data_starts", VInt 2); (pname "frequency", VStr (pname "Q")); (pname "time_composed", VBool true);
    (pname "missings", VBool true); (pname "missing_value", VStr (pname "NA")) ].
Ltac word_ c := split; [unfold white; cbn; intuition discriminate|cbn; intuition discriminate].
Definition split_dates := [mkdt 1986 7 1 0; mkdt 1986 10 1 0; mkdt 1987 1 1 0].
Definition split_set := mkset Vert true false true [VStr (pname "NA")] true.
Definition split_times := [(1, 1); (1, 2)].
Lemma split_table d cells data : ~ given (pname "data_ends") d ->
  (forall rc, hd_error cells = Some rc -> fst rc < 2) -> Forall (fun rc => snd rc <> 1) cells ->
  Forall2 (fun rc vs => List.length vs = 3%nat /\ forall k x, nth_error vs k = Some x ->
      stands_for true [VStr (pname "NA")] (cell split_trims (2 + Z.of_nat k) (snd rc)) x) cells data ->
  columns_table demo_env d split_trims cells split_times 2 4 "Q" split_set split_dates data.
Proof.
  intros NE AFT APART VALS.
  constructor; cbn [se_align se_continuity se_blanks se_missings se_markers se_composed].
  + reflexivity.
  + cbn; lia.
  + reflexivity.
  + exists (StQuarter QPlain). split; [reflexivity|].
    intros [|[|[|k]]] x X; inversion X; subst; cbn [date_before nth_error style_cell]; [| | |destruct k; discriminate].
    * exists (says_ "1986 3o trim."). split.
      -- exists [[T "1986"]; [T "3o trim."]]. split.
         ++ constructor; [apply (pc_digits [] (T " ") 1986 "1"%char (T "986")); [chars|chars|dec|discriminate]|constructor; [|constructor]].
            apply (pc_words (T "3o trim.") "o"%char); [cbn; tauto|word_ 0|discriminate].
         ++ apply (sd_text _ (T "1986 3o trim.") "1"%char); [apply (jn_more (T "1986") [T "3o trim."] (T "3o trim.")); [discriminate|constructor]|cbn; tauto|unfold white; cbn; intuition discriminate].
      -- exists (T "1986 3o trim."), (Some 1986), 3, 7. split; [whole_cell|]. split; [|split; [reflexivity|constructor]].
         apply (qt_year [] (T "1986") (T " ") (T "3") (T "o trim.") 1986 3); [chars|constructor; [reflexivity|dec|lia]|chars|right; constructor|]. apply notes_0. chars.
    * exists (says_ "IV"). split.
      -- exists [[]; [T "IV"]]. split.
         ++ constructor; [apply pc_none|constructor; [|constructor]].
            apply (pc_words (T "IV") "I"%char); [cbn; tauto|word_ 0|discriminate].
         ++ apply (sd_text _ (T "IV") "I"%char); [apply jn_one|cbn; tauto|unfold white; cbn; intuition discriminate].
      -- exists (T "IV"), None, 4, 10. split; [whole_cell|]. split; [|split; [reflexivity|]].
         ++ apply (qt_plain [] (T "IV") [] 4); [chars|left; constructor|]. apply notes_0. chars.
         ++ exact (mo_last 10 (mkdt 1986 7 1 0)).
    * exists (says_ "1987 1o (1)"). split.
      -- exists [[T "1987"]; [T "1o (1)"]]. split.
         ++ constructor; [apply (pc_number 1987 "1"%char (T "987")); [dec|discriminate]|constructor; [|constructor]].
            apply (pc_words (T "1o (1)") "o"%char); [cbn; tauto|word_ 0|discriminate].
         ++ apply (sd_text _ (T "1987 1o (1)") "1"%char); [apply (jn_more (T "1987") [T "1o (1)"] (T "1o (1)")); [discriminate|constructor]|cbn; tauto|unfold white; cbn; intuition discriminate].
      -- exists (T "1987 1o (1)"), (Some 1987), 1, 1. split; [whole_cell|]. split; [|split; [reflexivity|constructor]].
         apply (qt_year [] (T "1987") (T " ") (T "1") (T "o (1)") 1987 1); [chars|constructor; [reflexivity|dec|lia]|chars|right; constructor|].
         apply (notes_1 (T "o ") (T "(1)") []); [chars| |chars]. apply (note_of (T "1")); [cbn; lia|chars].
  + repeat (apply con_more; [apply op_months with 3; [reflexivity|later]|]). constructor.
  + exists (mkdt 1986 7 1 0). split; [reflexivity|]. cbn. tauto.
  + repeat constructor; try (apply valid_real; reflexivity); cbn; lia.
  + exact AFT.
  + split; [lia|discriminate].
  + exists 6. split; [apply (li_sheet d split_trims Vert); auto|].
    right. split; [reflexivity|]. split; [lia|]. left. split; [reflexivity|]. split; [reflexivity|]. split.
    * exists [[]; [T "  "]]. split.
      -- constructor; [apply pc_none|constructor; [apply (pc_white (T "  ")); [discriminate|chars]|constructor]].
      -- apply (sd_nothing _ (T "  ")); [apply jn_one|chars].
    * constructor; [apply (pl_text (T "Source: here"))|constructor; [apply pl_none|constructor]].
  + intros time H. inversion H. exact APART.
  + exact VALS.
Qed.
Example C73_case :
  let cells := [(1, 3); (1, 4)] in let times := [(1, 1); (1, 2)] in
  let ds := split_dates in let se := split_set in
  columns_request split_params cells times 2 4 "Q" se /\
  columns_table demo_env split_params split_trims cells times 2 4 "Q" se ds [[float_of_Z 10; S754_nan; float_of_Z 30]; map float_of_Z [11; 12; 13]] /\
  table_names demo_env split_params split_trims cells [T "GDP"; T "CPI"] /\
  match snd (get_data_frames demo_env (fun t => t) no_json (mkstore [split_trims] []) [0%nat] (UInput (PDict split_params)) None false true) with
  | Ok (DF d, name, _) => name = T "Split" /\ pr_dates (df_index d) = ds /\ df_cols d = [T "GDP"; T "CPI"] /\
      df_data d = [[float_of_Z 10; S754_nan; float_of_Z 30]; map float_of_Z [11; 12; 13]]
  | _ => False
  end.
Proof.
  cbv zeta. assert (NG : forall k, dget k split_params = None -> ~ given k split_params) by (intros k E (v & E' & _); congruence).
  split; [|split; [|split]].
  - constructor; cbn [se_align se_continuity se_blanks se_missings se_markers se_composed].
    + repeat constructor; cbn; intuition discriminate.
    + intros k I. cbn in I. destruct I as [<-|[<-|[<-|[<-|[<-|[<-|[<-|[]]]]]]]]; apply text_in_In; reflexivity.
    + exists (VStr (pname "C1-D1")). split; [reflexivity|]. split; [|discriminate].
      apply vc_text. apply (entry_range (pname "C1") (pname "D1") "-"%char 1 3 1 4);
        try (apply cell_named_iff; reflexivity); auto. apply rect_cells_rectangle.
    + exists (VStr (pname "A1-B1")). split; [reflexivity|].
      apply vc_text. apply (entry_range (pname "A1") (pname "B1") "-"%char 1 1 1 2);
        try (apply cell_named_iff; reflexivity); auto. apply rect_cells_rectangle.
    + split; [intros [l L]; discriminate|left; reflexivity].
    + exists (pname "Q"). split; [|reflexivity]. split; [intros [l L]; discriminate|left; reflexivity].
    + left. apply NG. reflexivity.
    + apply ly_default; [apply NG; reflexivity|]. intros (_ & [k K] & _). specialize (K (1, 3) (or_introl eq_refl)) as K1. specialize (K (1, 4) (or_intror (or_introl eq_refl))) as K2. cbn in K1, K2. lia.
    + right. split; [apply NG; reflexivity|]. eexists. do 1 right. left. reflexivity.
    + right. split; [apply NG; reflexivity|]. eexists. do 2 right. left. reflexivity.
    + left. split; [intros [l L]; discriminate|left; reflexivity].
    + apply mk_one; [reflexivity|discriminate|intros [l L]; discriminate].
    + left. split; [intros [l L]; discriminate|left; reflexivity].
    + right. split; [apply NG; reflexivity|]. eexists. do 6 right. left. reflexivity.
    + right. split; [left; apply NG; reflexivity|]. right. left. exists 1, 1, 2%nat. reflexivity.
    + apply NG. reflexivity.
    + apply NG. reflexivity.
    + split; [cbn; lia|]. repeat constructor; cbn; intuition discriminate.
  - apply split_table; [apply NG; reflexivity|intros rc H; inversion H; cbn; lia|repeat constructor; cbn; lia|].
    + assert (N : forall z, float_of_Z z <> S754_infinity (z <? 0) -> stands_for true [VStr (pname "NA")] (VInt z) (float_of_Z z)).
      { intros z F. apply sf_number; [apply cn_int; auto|]. intros _ u k [<-|ST] [<-|[]]; [reflexivity|].
        apply stripped_iff in ST. subst u. reflexivity. }
      cbn [map]. pairwise; (split; [reflexivity|]); three;
        try (match goal with |- stands_for _ _ ?c (float_of_Z ?z) => change c with (VInt z) end; apply N; vm_compute; discriminate).
      apply (sf_marker true _ _ (VStr (pname "NA"))); try reflexivity; try discriminate; [apply stripped_iff; reflexivity|left; reflexivity].
  - apply tn_headers; [apply NG; reflexivity|]. pairwise; (eexists; split; [constructor|apply stripped_iff; reflexivity]).
  - vm_compute. repeat split.
Qed.

(** A single series with its index in two columns comes out twice: the columns of
    the index are counted as series. *)
Definition single_params : dict := dset (pname "headers_coord") (VStr (pname "C1")) split_params.
Theorem C73_one_header_refuted : exists e st wb name i d cells times starts ends f se names ds data,
  wb_ok st wb /\ resolves (fun t => t) strip (names_of st wb) None name /\ first_such (fun i => title (sheet st i) = name) wb i /\ bounded (sheet st i) /\
  columns_request d cells times starts ends f se /\ (se_missings se = true -> ~ In (VStr (pname "Implicit")) (se_markers se)) /\
  columns_table e d (sheet st i) cells times starts ends f se ds data /\ table_names e d (sheet st i) cells names /\
  List.length cells = 1%nat /\
  exists fr pid, snd (get_data_frames e (fun t => t) no_json st wb (UInput (PDict d)) None false true) = Ok (DF fr, name, pid) /\
    df_cols fr = [T "GDP"; T "GDP.2"] /\ df_data fr = data ++ data.
Proof.
  assert (NG : forall k, dget k single_params = None -> ~ given k single_params) by (intros k E (v & E' & _); congruence).
  exists demo_env, (mkstore [split_trims] []), [0%nat], (T "Split"), 0%nat, single_params, [(1, 3)], split_times, 2, 4, "Q"%string, split_set,
    [T "GDP"], split_dates, [[float_of_Z 10; S754_nan; float_of_Z 30]].
  split; [|split; [|split; [|split; [|split; [|split; [|split; [|split; [|split]]]]]]]].
  - constructor; [cbn; lia|constructor].
  - apply res_none. reflexivity.
  - exists [], []. split; [reflexivity|]. split; [reflexivity|constructor].
  - apply sheet_of_bounded.
  - constructor; cbn [se_align se_continuity se_blanks se_missings se_markers se_composed].
    + repeat constructor; cbn; intuition discriminate.
    + intros k I. cbn in I. destruct I as [<-|[<-|[<-|[<-|[<-|[<-|[<-|[]]]]]]]]; apply text_in_In; reflexivity.
    + exists (VStr (pname "C1")). split; [reflexivity|]. split; [|discriminate].
      apply vc_text. constructor. apply cell_named_iff; reflexivity.
    + exists (VStr (pname "A1-B1")). split; [reflexivity|].
      apply vc_text. apply (entry_range (pname "A1") (pname "B1") "-"%char 1 1 1 2);
        try (apply cell_named_iff; reflexivity); auto. apply rect_cells_rectangle.
    + split; [intros [l L]; discriminate|left; reflexivity].
    + exists (pname "Q"). split; [|reflexivity]. split; [intros [l L]; discriminate|left; reflexivity].
    + left. apply NG. reflexivity.
    + apply ly_default; [apply NG; reflexivity|]. intros (K & _). cbn in K. lia.
    + right. split; [apply NG; reflexivity|]. eexists. do 1 right. left. reflexivity.
    + right. split; [apply NG; reflexivity|]. eexists. do 2 right. left. reflexivity.
    + left. split; [intros [l L]; discriminate|left; reflexivity].
    + apply mk_one; [reflexivity|discriminate|intros [l L]; discriminate].
    + left. split; [intros [l L]; discriminate|left; reflexivity].
    + right. split; [apply NG; reflexivity|]. eexists. do 6 right. left. reflexivity.
    + right. split; [left; apply NG; reflexivity|]. right. left. exists 1, 1, 2%nat. reflexivity.
    + apply NG. reflexivity.
    + apply NG. reflexivity.
    + split; [cbn; lia|]. repeat constructor; cbn; intuition discriminate.
  - intros _ [E|[]]. discriminate.
  - apply split_table; [apply NG; reflexivity|intros rc H; inversion H; cbn; lia|repeat constructor; cbn; lia|].
    + assert (N : forall z, float_of_Z z <> S754_infinity (z <? 0) -> stands_for true [VStr (pname "NA")] (VInt z) (float_of_Z z)).
      { intros z F. apply sf_number; [apply cn_int; auto|]. intros _ u k [<-|ST] [<-|[]]; [reflexivity|].
        apply stripped_iff in ST. subst u. reflexivity. }
      cbn [map]. pairwise; (split; [reflexivity|]); three;
        try (match goal with |- stands_for _ _ ?c (float_of_Z ?z) => change c with (VInt z) end; apply N; vm_compute; discriminate).
      apply (sf_marker true _ _ (VStr (pname "NA"))); try reflexivity; try discriminate; [apply stripped_iff; reflexivity|left; reflexivity].
  - apply tn_headers; [apply NG; reflexivity|]. pairwise; (eexists; split; [constructor|apply stripped_iff; reflexivity]).
  - reflexivity.
  - eexists _, _. split; [vm_compute; reflexivity|]. split; reflexivity.
Qed.
Print Assumptions C73_one_header_refuted.
