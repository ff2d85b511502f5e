(** Theorems about notes right below a time index (C65). *)
From Verif Require Import Base BaseFacts Cal CalFacts SpecCal Coord SpecCoord CoordFacts SpecCoordFacts XlMethods Params ParseTime TimeIndex GetData PeriodRange DataFrame Scrape Xlseries
  SpecParams SpecAttempts SpecTime TimeFacts NumberFacts SpecData DataFacts TimeProofs ParseFacts MonthProofs PoolProofs SpecFrames SpecScrape SpecParse SpecSimple SpecEnd EndCall SpecText
  SpecColumns SpecNotes NoteIndex SpecNoted EndNoted PropsParams PropsScrape PropsTime PropsParse PropsEnd PropsText PropsColumns Demo.
Local Open Scope Z_scope.

(** ** C65 A note right below the last date ends the index *)

(** The full claim: a text that is no date, right below the last date of an index
    in a column, ends it; it is not taken for a date, and no date is lost.  That
    is false (see below); it holds of the notes of [note_text] below composed
    texts: without digits and, below quarters and semesters, without "I", "V" or
    parentheses.  Quarters, months, years and semesters in any of their styles. *)
Theorem C65_composed_partial : forall e w p f R d m note, one_column p -> column_above p w f m -> composed_style e f R ->
  sp_composed p = true -> sequence p f d m ->
  (forall q, sp_starts p <= q <= m -> exists v, holds p w q v /\ ~ no_time p v /\ R v (previous p d q) (d q)) ->
  holds p w (m + 1) note -> note_cell e f note -> cleaned e w p d m.
Proof. exact composed_noted. Qed.
Print Assumptions C65_composed_partial.
Ltac above_ := split; [reflexivity|]; split; [reflexivity|]; split; [reflexivity|]; split; [vm_compute; intuition discriminate|]; split; vm_compute; reflexivity.
Ltac one_ := split; [reflexivity|]; exists (T "A1"), 1, 1; split; [reflexivity|apply cell_named_iff; reflexivity].
Ltac no_time_ := let N := fresh in intros N; inversion N as [|? W|]; inversion W as [|? ? W1]; inversion W1; cbn in *; intuition discriminate.
Example C65_composed_case :
  let w := column "date" [says_ "1986 3o trim."; says_ "IV"; says_ "  Fuente: Banco Central"; says_ "I"] in
  cleaned es_env w (composed "Q" false) (dates [(1986, 7); (1986, 10)]) 3.
Proof.
  cbv zeta. apply (C65_composed_partial es_env _ _ "Q" (quarter_cell QPlain) _ _ (says_ "  Fuente: Banco Central")).
  - one_.
  - above_.
  - constructor.
  - reflexivity.
  - split.
    + intros q I. cbn in I. assert (C : q = 2 \/ q = 3) by lia. destruct C as [->| ->]; (split; [apply valid_real; reflexivity|reflexivity]).
    + right. split; [reflexivity|]. intros q I. cbn in I. replace q with 3 by lia.
      apply (op_months "Q" _ _ 3); [reflexivity|]. split; [reflexivity|]. split; [vm_compute; intuition discriminate|]. split; [reflexivity|]. exists 31.
      split; [apply ml_31; cbn; auto 8|reflexivity].
  - intros q I. cbn in I. assert (C : q = 2 \/ q = 3) by lia. destruct C as [->| ->].
    + exists (says_ "1986 3o trim."). split; [apply text_here; reflexivity|]. split; [no_time_|].
      exists (T "1986 3o trim."), (Some 1986), 3, 7. split; [whole_cell|]. split; [|split; [reflexivity|constructor]].
      apply (qt_year [] (T "1986") (T " ") (T "3") (T "o trim.") 1986 3); [chars|constructor; [reflexivity|dec|lia]|chars|right; constructor|]. apply notes_0. chars.
    + exists (says_ "IV"). split; [apply text_here; reflexivity|]. split; [no_time_|]. exists (T "IV"), None, 4, 10. split; [whole_cell|]. split; [|split; [reflexivity|]].
      * apply (qt_plain [] (T "IV") [] 4); [chars|left; constructor|]. apply notes_0. chars.
      * exact (mo_last 10 (mkdt 1986 7 1 0)).
  - apply text_here; reflexivity.
  - exists (T "  Fuente: Banco Central"), (T "Fuente: Banco Central"). split; [reflexivity|]. split; [apply stripped_iff; reflexivity|]. constructor.
    + exists "F"%char, (T "uente: Banco Central"). split; [reflexivity|]. apply letter_iff. reflexivity.
    + chars.
Qed.
Example C65_month_notes : note_text es_env "M" (T "Notas: ver el anexo") /\ note_text es_env "M" (T "* provisorio") /\ note_text es_env "A" (T "(a) estimado").
Proof.
  split; [|split]; constructor; try discriminate; try chars.
  - apply (nm es_env (T "Notas") (T ": ver el anexo")).
    + repeat (apply Forall_cons; [apply letter_iff; reflexivity|]). apply Forall_nil.
    + cbn. lia.
    + intros (c & r & E & L). inversion E; subst. apply letter_iff in L. discriminate.
    + right. reflexivity.
  - apply (nm es_env [] (T "* provisorio")); [apply Forall_nil|cbn; lia| |left; cbn; lia].
    intros (c & r & E & L). inversion E; subst. apply letter_iff in L. discriminate.
Qed.

(** The same with the dates in several columns: the note is what the cells of
    its row say together. *)
Theorem C65_columns_partial : forall e w p f R d m note, many_columns p -> column_above p w f m -> composed_style e f R ->
  sp_composed p = true -> sequence p f d m ->
  (forall q, sp_starts p <= q <= m -> exists v, lines_say p w q v /\ ~ no_time p v /\ R v (previous p d q) (d q)) ->
  lines_say p w (m + 1) note -> note_cell e f note -> no_dates_at p w (m + 2) -> cleaned e w p d m.
Proof. exact columns_noted. Qed.
Print Assumptions C65_columns_partial.
Example C65_columns_case :
  let w := sheet_of (T "hoja") [[says_ "year"; says_ "quarter"; says_ "x"]; [VInt 1986; says_ "III"; VInt 10]; [VNone; says_ "IV"; VInt 11]; [says_ "Fuente:"; says_ "Banco Central"; VNone]] in
  cleaned es_env w two_columns (dates [(1986, 7); (1986, 10)]) 3.
Proof.
  cbv zeta. apply (C65_columns_partial es_env _ _ "Q" (quarter_cell QPlain) _ _ (says_ "Fuente: Banco Central")).
  - split; [reflexivity|]. exists (T "A1"), [T "B1"]; split; [reflexivity|].
    constructor; [exists 1, 1; apply cell_named_iff; reflexivity|constructor; [exists 1, 2; apply cell_named_iff; reflexivity|constructor]].
  - above_.
  - constructor.
  - reflexivity.
  - split.
    + intros q I. cbn in I. assert (C : q = 2 \/ q = 3) by lia. destruct C as [->| ->]; (split; [apply valid_real; reflexivity|reflexivity]).
    + right. split; [reflexivity|]. intros q I. cbn in I. replace q with 3 by lia.
      apply (op_months "Q" _ _ 3); [reflexivity|]. split; [reflexivity|]. split; [vm_compute; intuition discriminate|]. split; [reflexivity|]. exists 31.
      split; [apply ml_31; cbn; auto 8|reflexivity].
  - intros q I. cbn in I. assert (C : q = 2 \/ q = 3) by lia. destruct C as [->| ->].
    + exists (says_ "1986 III"). split; [|split; [no_time_|]].
      * cells_. split; [constructor; [apply (pc_number 1986 "1"%char (T "986")); [dec|discriminate]|constructor; [|constructor]]|].
        { apply (pc_words (T "III") "I"%char); [cbn; tauto|split; [unfold white; cbn; intuition discriminate|cbn; intuition discriminate]|discriminate]. }
        apply (sd_text _ (T "1986 III") "1"%char); [apply (jn_more (T "1986") [T "III"] (T "III")); [discriminate|constructor]|cbn; tauto|unfold white; cbn; intuition discriminate].
      * exists (T "1986 III"), (Some 1986), 3, 7. split; [whole_cell|]. split; [|split; [reflexivity|constructor]].
        apply (qt_year [] (T "1986") (T " ") (T "III") [] 1986 3); [chars|constructor; [reflexivity|dec|lia]|chars|left; constructor|]. apply notes_0. chars.
    + exists (says_ "IV"). split; [|split; [no_time_|]].
      * cells_. split; [constructor; [apply pc_none|constructor; [|constructor]]|].
        { apply (pc_words (T "IV") "I"%char); [cbn; tauto|split; [unfold white; cbn; intuition discriminate|cbn; intuition discriminate]|discriminate]. }
        apply (sd_text _ (T "IV") "I"%char); [apply jn_one|cbn; tauto|unfold white; cbn; intuition discriminate].
      * exists (T "IV"), None, 4, 10. split; [whole_cell|]. split; [|split; [reflexivity|]].
        -- apply (qt_plain [] (T "IV") [] 4); [chars|left; constructor|]. apply notes_0. chars.
        -- exact (mo_last 10 (mkdt 1986 7 1 0)).
  - cells_. split; [constructor; [|constructor; [|constructor]]|].
    + apply (pc_words (T "Fuente:") "F"%char); [cbn; tauto|split; [unfold white; cbn; intuition discriminate|cbn; intuition discriminate]|discriminate].
    + apply (pc_words (T "Banco Central") "B"%char); [cbn; tauto|split; [unfold white; cbn; intuition discriminate|cbn; intuition discriminate]|discriminate].
    + apply (sd_text _ (T "Fuente: Banco Central") "F"%char); [apply (jn_more (T "Fuente:") [T "Banco Central"] (T "Banco Central")); [discriminate|constructor]|cbn; tauto|unfold white; cbn; intuition discriminate].
  - exists (T "Fuente: Banco Central"), (T "Fuente: Banco Central"). split; [reflexivity|]. split; [apply stripped_iff; reflexivity|]. constructor.
    + exists "F"%char, (T "uente: Banco Central"). split; [reflexivity|]. apply letter_iff. reflexivity.
    + chars.
  - intros hs h v H I L. inversion H; subst hs. destruct I as [<-|[<-|[]]]; inversion L as [r c A CN|r c A CN]; try discriminate;
      apply cell_named_iff in CN; vm_compute in CN; inversion CN; subst; vm_compute; constructor.
Qed.

(** Below dates stored as such, when the last of them is the first day of a
    month: a text without digits that begins with a word that is no month. *)
Theorem C65_dates_partial : forall e w p f d m note, one_column p -> column_above p w f m -> frequency_letter f ->
  sp_composed p = false -> sequence p f d m ->
  (forall q, sp_starts p <= q <= m -> holds p w q (VDate (d q))) -> dt_d (d m) = 1 -> dt_s (d m) = 0 ->
  holds p w (m + 1) note -> note_below_dates e note -> cleaned e w p d m.
Proof. exact dates_noted. Qed.
Print Assumptions C65_dates_partial.
Example C65_dates_case :
  let w := column "date" [month 2010 4; month 2010 5; says_ "Fuente: INDEC, IPC"; month 2010 6] in
  cleaned es_env w (series Vert None true false 0 "M") (dates [(2010, 4); (2010, 5)]) 3.
Proof.
  cbv zeta. apply (C65_dates_partial es_env _ _ "M" _ _ (says_ "Fuente: INDEC, IPC")).
  - one_.
  - above_.
  - cbn. tauto.
  - reflexivity.
  - split.
    + intros q I. cbn in I. assert (C : q = 2 \/ q = 3) by lia. destruct C as [->| ->]; (split; [apply valid_real; reflexivity|reflexivity]).
    + right. split; [reflexivity|]. intros q I. cbn in I. replace q with 3 by lia.
      apply (op_months "M" _ _ 1); [reflexivity|]. split; [reflexivity|]. split; [vm_compute; intuition discriminate|]. split; [reflexivity|]. exists 31.
      split; [apply ml_31; cbn; auto 8|reflexivity].
  - intros q I. cbn in I. assert (C : q = 2 \/ q = 3) by lia. destruct C as [->| ->]; here.
  - reflexivity.
  - reflexivity.
  - here.
  - exists (T "Fuente: INDEC, IPC"), (T "Fuente: INDEC, IPC"). split; [reflexivity|]. split; [apply stripped_iff; reflexivity|]. split; [chars|]. split.
    + exists "F"%char, "u"%char, "e"%char, (T "nte: INDEC, IPC"). split; [reflexivity|]. repeat split; apply letter_iff; reflexivity.
    + apply (nm es_env (T "Fuente") (T ": INDEC, IPC")).
      * repeat (apply Forall_cons; [apply letter_iff; reflexivity|]). apply Forall_nil.
      * cbn. lia.
      * intros (c & r & E & L). inversion E; subst. apply letter_iff in L. discriminate.
      * right. reflexivity.
Qed.

(** And a whole call on a table with such a note right below it gives exactly its
    dates and numbers, as if the note were not there. *)
Theorem C65_call_partial e uni json st wb q preserve name i d cells time starts ends f se names ds data :
  wb_ok st wb -> resolves uni strip (names_of st wb) q name -> first_such (fun i => title (sheet st i) = name) wb i ->
  bounded (sheet st i) ->
  request d cells time starts ends f se -> periodic f -> (se_missings se = true -> ~ In (VStr (pname "Implicit")) (se_markers se)) ->
  noted_table e d (sheet st i) cells time starts ends f se ds data -> table_names e d (sheet st i) cells names ->
  exists n cols pid, pandas_name f n /\ column_names names cols /\
    snd (get_data_frames e uni json st wb (UInput (PDict d)) q false preserve) = Ok (DF (mkdf (mkpr (T n) ds) cols data), name, pid).
Proof. exact (c65 e uni json st wb q preserve name i d cells time starts ends f se names ds data). Qed.
Print Assumptions C65_call_partial.
Definition noted : worksheet := sheet_of (T "Trims")
  [[VStr (T "x"); VStr (T " GDP "); VStr (T "CPI")];
   [says_ " 1986 3o trim."; VInt 10; VInt 11];
   [says_ "IV"; VStr (T "NA"); VInt 12];
   [says_ "1987 1o (1)"; VInt 30; VInt 13];
   [says_ "Fuente: Banco Central"; VNone; VInt 2];
   [says_ "1987 2o"; VInt 31; VInt 14]].
Example C65_call_case :
  let cells := [(1, 2); (1, 3)] in
  let ds := [mkdt 1986 7 1 0; mkdt 1986 10 1 0; mkdt 1987 1 1 0] in
  let se := mkset Vert true false true [VStr (pname "NA")] true in
  request trims_params cells (1, 1) 2 4 "Q" se /\
  noted_table demo_env trims_params noted cells (1, 1) 2 4 "Q" se ds [[float_of_Z 10; S754_nan; float_of_Z 30]; map float_of_Z [11; 12; 13]] /\
  table_names demo_env trims_params noted cells [T "GDP"; T "CPI"] /\
  match snd (get_data_frames demo_env (fun t => t) no_json (mkstore [noted] []) [0%nat] (UInput (PDict trims_params)) None false true) with
  | Ok (DF d, name, _) => name = T "Trims" /\ pr_dates (df_index d) = ds /\ df_cols d = [T "GDP"; T "CPI"] /\
      df_data d = [[float_of_Z 10; S754_nan; float_of_Z 30]; map float_of_Z [11; 12; 13]]
  | _ => False
  end.
Proof.
  cbv zeta. assert (NG : forall k, dget k trims_params = None -> ~ given k trims_params) by (intros k E (v & E' & _); congruence).
  split; [exact (proj1 C59_case)|]. split; [|split].
  - constructor; cbn [se_align se_continuity se_blanks se_missings se_markers se_composed].
    + reflexivity.
    + apply NG. reflexivity.
    + reflexivity.
    + cbn; lia.
    + exists [says_ " 1986 3o trim."; says_ "IV"; says_ "1987 1o (1)"]. split.
      * intros [|[|[|k]]] x H; inversion H; try (destruct k; discriminate); reflexivity.
      * apply (nc_texts _ _ _ _ _ _ (quarter_cell QPlain)); [reflexivity|constructor| |].
        -- split; [reflexivity|].
           assert (NB : forall a t, ~ white a -> ~ blank_cell (VStr (a :: t)) /\ ~ blank_cell (VStr (" "%char :: a :: t))).
           { intros a t NW. split; intros [B|(u & B & W)]; inversion B; subst; inversion W as [|x y W1 W2]; subst; [auto|]. inversion W2; auto. }
           intros [|[|[|k]]] v x V X; inversion V; inversion X; subst; cbn [date_before nth_error]; [| | |destruct k; discriminate];
             (split; [apply NB; unfold white; cbn; intuition discriminate|]).
           ++ exists (T "1986 3o trim."), (Some 1986), 3, 7. split; [whole_cell|]. split; [|split; [reflexivity|constructor]].
              apply (qt_year [] (T "1986") (T " ") (T "3") (T "o trim.") 1986 3); [chars|constructor; [reflexivity|dec|lia]|chars|right; constructor|]. apply notes_0. chars.
           ++ exists (T "IV"), None, 4, 10. split; [whole_cell|]. split; [|split; [reflexivity|]].
              ** apply (qt_plain [] (T "IV") [] 4); [chars|left; constructor|]. apply notes_0. chars.
              ** exact (mo_last 10 (mkdt 1986 7 1 0)).
           ++ exists (T "1987 1o (1)"), (Some 1987), 1, 1. split; [whole_cell|]. split; [|split; [reflexivity|constructor]].
              apply (qt_year [] (T "1987") (T " ") (T "1") (T "o (1)") 1987 1); [chars|constructor; [reflexivity|dec|lia]|chars|right; constructor|].
              apply (notes_1 (T "o ") (T "(1)") []); [chars| |chars]. apply (note_of (T "1")); [cbn; lia|chars].
        -- exists (T "Fuente: Banco Central"), (T "Fuente: Banco Central"). split; [reflexivity|]. split; [apply stripped_iff; reflexivity|]. constructor.
           ++ exists "F"%char, (T "uente: Banco Central"). split; [reflexivity|]. apply letter_iff. reflexivity.
           ++ chars.
    + repeat (apply con_more; [apply op_months with 3; [reflexivity|later]|]). constructor.
    + exists (mkdt 1986 7 1 0). split; [reflexivity|]. cbn. tauto.
    + repeat constructor; try (apply valid_real; reflexivity); cbn; lia.
    + intros rc H. inversion H. cbn. lia.
    + split; [lia|reflexivity].
    + repeat constructor; cbn; lia.
    + assert (N : forall z, float_of_Z z <> S754_infinity (z <? 0) -> stands_for true [VStr (pname "NA")] (VInt z) (float_of_Z z)).
      { intros z F. apply sf_number; [apply cn_int; auto|]. intros _ u k [<-|ST] [<-|[]]; [reflexivity|].
        apply stripped_iff in ST. subst u. reflexivity. }
      cbn [map]. pairwise; (split; [reflexivity|]); three;
        try (match goal with |- stands_for _ _ ?c (float_of_Z ?z) => change c with (VInt z) end; apply N; vm_compute; discriminate).
      apply (sf_marker true _ _ (VStr (pname "NA"))); try reflexivity; try discriminate; [apply stripped_iff; reflexivity|left; reflexivity].
  - apply tn_headers; [apply NG; reflexivity|]. pairwise; (eexists; split; [constructor|apply stripped_iff; reflexivity]).
  - vm_compute. repeat split.
Qed.

(** *** Notes that are taken for dates, or lose one *)

(** "Fuente: INDEC" below quarters is the next quarter: its "I" is taken for the
    first, which is corrected as a typing mistake; *)
Theorem C65_quarter_note_refuted : exists w, cell w 4 1 = says_ "Fuente: INDEC" /\
  shown es_env w (composed "Q" false) 4 = (Ok 4, [month 1986 4; month 1986 7; month 1986 10]).
Proof. exists (column "date" [says_ "1986 II"; says_ "III"; says_ "Fuente: INDEC"]). split; [reflexivity|]. vm_compute. reflexivity. Qed.
Print Assumptions C65_quarter_note_refuted.
(** a year in a note below years is taken for the next one; *)
Theorem C65_year_note_refuted : exists w, cell w 4 1 = says_ "Censo de 1980" /\
  shown es_env w (composed "A" false) 4 = (Ok 4, [month 1986 1; month 1987 1; month 1988 1]).
Proof. exists (column "date" [says_ "1986"; says_ "1987"; says_ "Censo de 1980"]). split; [reflexivity|]. vm_compute. reflexivity. Qed.
Print Assumptions C65_year_note_refuted.
(** any word below days is the next day; *)
Theorem C65_day_note_refuted : exists w, cell w 4 1 = says_ "Fuente: INDEC" /\
  shown es_env w (series Vert None false false 0 "D") 4 = (Ok 4, [day 2010 5 16; day 2010 5 17; day 2010 5 18]).
Proof. exists (column "date" [day 2010 5 16; day 2010 5 17; says_ "Fuente: INDEC"]). split; [reflexivity|]. vm_compute. reflexivity. Qed.
Print Assumptions C65_day_note_refuted.
(** a year in a note below months stored as dates is one of them when missings
    are declared, and an error when they are not; *)
Theorem C65_month_note_refuted : exists w, cell w 4 1 = says_ "Censo 2015" /\
  shown es_env w (series Vert None false true 0 "M") 4 = (Ok 4, [month 2010 4; month 2010 5; month 2015 5]) /\
  fst (shown es_env w (series Vert None false false 0 "M") 4) = Err EForth.
Proof. exists (column "date" [month 2010 4; month 2010 5; says_ "Censo 2015"]). split; [reflexivity|]. split; vm_compute; reflexivity. Qed.
Print Assumptions C65_month_note_refuted.
(** and a note right below dates written as texts makes the last of them be
    lost. *)
Theorem C65_last_date_refuted : exists w, cell w 4 1 = says_ "01-06-2010" /\ cell w 5 1 = says_ "Fuente: INDEC" /\
  shown es_env w (series Vert None false false 0 "M") 5 = (Ok 3, [month 2010 4; month 2010 5; says_ "01-06-2010"; says_ "Fuente: INDEC"]).
Proof.
  exists (column "date" [says_ "01-04-2010"; says_ "01-05-2010"; says_ "01-06-2010"; says_ "Fuente: INDEC"]). split; [reflexivity|]. split; [reflexivity|]. vm_compute. reflexivity.
Qed.
Print Assumptions C65_last_date_refuted.
