(** Property C78: a whole call on a table of years and quarters whose time index
    is written. *)
From Verif Require Import Base BaseFacts Cal CalFacts SpecCal Coord SpecCoord CoordFacts SpecCoordFacts XlMethods Params ParseTime TimeIndex GetData PeriodRange DataFrame Scrape Xlseries
  SpecParams SpecAttempts SpecTime TimeFacts SpecData DataFacts DataProofs SpecParse SpecFrames SpecScrape SpecEnd SpecCycles SpecYears YearCall PropsParams PropsScrape PropsTime PropsFrames PropsEnd PropsParse Demo.
Local Open Scope Z_scope.

(** ** C78 A table of years and quarters with a written index *)

(** One frame for the years and one for the quarters, in the order in which they
    appear, with their dates and the values beside them.  Partial: the year is
    written once, in the first row of every five; see below for other ways of
    writing. *)
Theorem C78_frames_partial e uni json st wb q preserve name i d cells time starts ends f se names y0 ds data :
  wb_ok st wb -> resolves uni strip (names_of st wb) q name -> first_such (fun i => title (sheet st i) = name) wb i ->
  bounded (sheet st i) ->
  request d cells time starts ends f se -> (se_missings se = true -> ~ In (VStr (pname "Implicit")) (se_markers se)) ->
  year_table d (sheet st i) cells time starts ends f se y0 ds data -> table_names e d (sheet st i) cells names ->
  exists cs frs out pid, letters_of (T f) (List.length (T f)) cs /\ Forall2 (letter_frame f names ds data) cs frs /\ handed frs out /\
    snd (get_data_frames e uni json st wb (UInput (PDict d)) q false preserve) = Ok (out, name, pid).
Proof. exact (c78 e uni json st wb q preserve name i d cells time starts ends f se names y0 ds data). Qed.
Print Assumptions C78_frames_partial.

(** years before their quarters, stopping after the second quarter *)
Definition years_params (f : string) (missings : bool) : dict :=
  [ (pname "headers_coord", VStr (pname "B1")); (pname "time_header_coord", VStr (pname "A1"));
    (pname "data_starts", VInt 2); (pname "frequency", VStr (pname f)); (pname "time_composed", VBool true); (pname "missings", VBool missings) ].
Fixpoint rows_of (l : list string) (k : Z) : list (list pyval) :=
  match l with [] => [] | t :: l' => [says_ t; VInt k] :: rows_of l' (k + 1) end.
Definition years_sheet (l : list string) : worksheet := sheet_of (T "s") ([says_ "date"; says_ "x"] :: rows_of l 1).
Definition years_written : list string :=
  ["2008 Year *"; "Quarter I *"; "II * (2)"; "III *"; "IV *"; " 2009 Year"; "Quarter I"; "II"]%string.
Definition years_dates : list datetime :=
  [first 2008 1 1; first 2008 1 1; first 2008 4 1; first 2008 7 1; first 2008 10 1; first 2009 1 1; first 2009 1 1; first 2009 4 1].
Definition years_data : list spec_float := map float_of_Z [1; 2; 3; 4; 5; 6; 7; 8].
Ltac eight := intros [|[|[|[|[|[|[|[|k]]]]]]]] x H; [..|destruct k; discriminate H]; cbn [nth_error] in H;
  match type of H with Some ?y = Some x => assert (E : y = x) by congruence; clear H; subst x end.
Ltac quarter_ a k s q := apply (rt_quarter _ _ _ _ q); [cbn; lia|apply row_quarter_after; [reflexivity|cbn; lia]|];
  change (quarter_said (a ++ k ++ s) q); apply (qs_of a k s q); [chars|constructor|].
Example C78_case :
  let st := mkstore [years_sheet years_written] [] in let cells := [(1, 2)] in let d := years_params "AQQQQ" false in
  let se := mkset Vert true false false
    [VNone; VStr (pname "-"); VStr (pname "..."); VStr (pname "."); VStr (pname "/"); VStr (pname "///"); VStr (pname "");
     VStr (pname "s.d."); VStr (pname "s/d"); VStr (pname "n,d,"); VStr (pname "s.d"); VStr (pname " ")] true in
  (wb_ok st [0%nat] /\ resolves (fun t => t) strip (names_of st [0%nat]) (Some (T "s")) (T "s") /\
   first_such (fun i => title (sheet st i) = T "s") [0%nat] 0%nat /\ bounded (sheet st 0)) /\
  request d cells (1, 1) 2 9 "AQQQQ" se /\
  year_table d (sheet st 0) cells (1, 1) 2 9 "AQQQQ" se 2008 years_dates [years_data] /\
  table_names demo_env d (sheet st 0) cells [T "x"] /\
  match snd (get_data_frames demo_env (fun t => t) no_json st [0%nat] (UInput (PDict d)) (Some (T "s")) false true) with
  | Ok (DL [DF x; DF y], name, _) => name = T "s" /\ pr_freq (df_index x) = T "AS-JAN" /\ pr_freq (df_index y) = T "QS-JAN" /\
      pr_dates (df_index x) = [first 2008 1 1; first 2009 1 1] /\ df_data x = [map float_of_Z [1; 6]] /\
      pr_dates (df_index y) = [first 2008 1 1; first 2008 4 1; first 2008 7 1; first 2008 10 1; first 2009 1 1; first 2009 4 1] /\
      df_data y = [map float_of_Z [2; 3; 4; 5; 7; 8]]
  | _ => False
  end.
Proof.
  cbv zeta. assert (NG : forall k, dget k (years_params "AQQQQ" false) = None -> ~ given k (years_params "AQQQQ" false)) by (intros k E (v & E' & _); congruence).

  split; [|split; [|split; [|split]]].
  - split; [repeat constructor|]. split; [apply res_exact; [discriminate|left; reflexivity]|].
    split; [exists [], []; repeat split; constructor|]. apply sheet_of_bounded.
  - constructor; cbn [se_align se_continuity se_blanks se_missings se_markers se_composed].
    + repeat constructor; cbn; intuition discriminate.
    + intros k I. cbn in I. destruct I as [<-|[<-|[<-|[<-|[<-|[<-|[]]]]]]]; apply text_in_In; reflexivity.
    + exists (VStr (pname "B1")). split; [reflexivity|]. split; [|discriminate]. apply vc_text, entry_cell, cell_named_iff. reflexivity.
    + exists (pname "A1"). split; [|apply cell_named_iff; reflexivity]. split; [intros [l L]; discriminate|left; reflexivity].
    + split; [intros [l L]; discriminate|left; reflexivity].
    + exists (pname "AQQQQ"). split; [|reflexivity]. split; [intros [l L]; discriminate|left; reflexivity].
    + left. apply NG. reflexivity.
    + apply ly_default; [apply NG; reflexivity|]. cbn. intros [L _]. lia.
    + right. split; [apply NG; reflexivity|]. eexists. do 1 right. left. reflexivity.
    + right. split; [apply NG; reflexivity|]. eexists. do 2 right. left. reflexivity.
    + left. split; [intros [l L]; discriminate|left; reflexivity].
    + apply mk_default. apply NG. reflexivity.
    + left. split; [intros [l L]; discriminate|left; reflexivity].
    + right. split; [apply NG; reflexivity|]. eexists. do 6 right. left. reflexivity.
    + left. apply NG. reflexivity.
    + apply NG. reflexivity.
    + apply NG. reflexivity.
  - constructor; cbn [se_align se_continuity se_blanks se_missings se_markers se_composed along line_of depth_of].
    + reflexivity.
    + reflexivity.
    + left. auto.
    + split; [cbn; lia|]. intros c [<-|[<-|[<-|[<-|[<-|[]]]]]]; [exists 5%nat|exists 6%nat|exists 6%nat|exists 6%nat|exists 6%nat]; cbn; repeat split; lia.
    + intros k K. cbn in K.
      assert (Y : forall j s y b, trimmed (T s) (T y ++ T b) -> (j mod 5 = 0)%nat -> year4 (T y) (row_year 2008 j) -> no_digit (T b) ->
        exists u, SpecParse.says (VStr (T s)) u /\ row_text "AQQQQ" 2008 j u).
      { intros j s y b TR J Y B. exists (T y ++ T b). split; [constructor; auto|]. apply rt_first; auto. apply (ys_of [] (T y) (T b)); [constructor|auto|auto]. }
      assert (TT : forall s t, strip (T s) = t -> trimmed (T s) t) by (intros s t <-; apply stripped_iff; reflexivity).
      destruct k as [|[|[|[|[|[|[|[|k]]]]]]]]; [..|lia].
      * apply (Y 0%nat "2008 Year *" "2008" " Year *")%string; try reflexivity; [apply TT; reflexivity|constructor; [reflexivity|dec|vm_compute; discriminate]|chars].
      * exists (T "Quarter I *"). split; [constructor; apply TT; reflexivity|]. quarter_ (T "Quarter ") (T "I") (T " *") 1. apply notes_0. chars.
      * exists (T "II * (2)"). split; [constructor; apply TT; reflexivity|]. quarter_ (@nil ascii) (T "II") (T " * (2)") 2.
        apply (notes_1 (T " * ") (T "(2)") []); [chars| |chars]. apply (note_of (T "2")); [cbn; lia|chars].
      * exists (T "III *"). split; [constructor; apply TT; reflexivity|]. quarter_ (@nil ascii) (T "III") (T " *") 3. apply notes_0. chars.
      * exists (T "IV *"). split; [constructor; apply TT; reflexivity|]. quarter_ (@nil ascii) (T "IV") (T " *") 4. apply notes_0. chars.
      * apply (Y 5%nat " 2009 Year" "2009" " Year")%string; try reflexivity; [apply TT; reflexivity|constructor; [reflexivity|dec|vm_compute; discriminate]|chars].
      * exists (T "Quarter I"). split; [constructor; apply TT; reflexivity|]. quarter_ (T "Quarter ") (T "I") (@nil ascii) 1. apply notes_0. chars.
      * exists (T "II"). split; [constructor; apply TT; reflexivity|]. quarter_ (@nil ascii) (T "II") (@nil ascii) 2. apply notes_0. chars.
    + unfold row_dates, years_dates. eight;
        first [exists None; split; [apply row_year_first; reflexivity|apply fd_year]
              |eexists (Some _); split; [apply row_quarter_after; [reflexivity|cbn; lia]|apply fd_quarter; constructor]].
    + split; vm_compute; discriminate.
    + intros rc H. inversion H. cbn. lia.
    + split; lia.
    + exists 9. split; [|left; reflexivity]. apply (li_sheet (years_params "AQQQQ" false) (years_sheet years_written) Vert). apply NG. reflexivity.
    + constructor; [cbn; lia|constructor].
    + apply Forall2_cons; [|apply Forall2_nil]. split; [reflexivity|]. unfold years_data. cbn [map]. eight;
        match goal with |- stands_for _ _ ?c (float_of_Z ?z) => change c with (VInt z) end; (apply sf_number; [apply cn_int; vm_compute; discriminate|discriminate]).
  - apply tn_headers; [apply NG; reflexivity|]. apply Forall2_cons; [|apply Forall2_nil]. eexists; split; [constructor|apply stripped_iff; reflexivity].
  - vm_compute. repeat split.
Qed.
(** quarters before their year *)
Example C78_after_case :
  let st := mkstore [years_sheet ["2003 I"; "II"; "III"; "IV"; "Total (1)"; "2004 I (p)"; "II"; "III"; "IV"; "Total"]%string] [] in
  match snd (get_data_frames demo_env (fun t => t) no_json st [0%nat] (UInput (PDict (years_params "QQQQA" true))) (Some (T "s")) false true) with
  | Ok (DL [DF x; DF y], name, _) => name = T "s" /\ pr_freq (df_index x) = T "QS-JAN" /\ pr_freq (df_index y) = T "AS-JAN" /\
      pr_dates (df_index y) = [first 2003 1 1; first 2004 1 1] /\ df_data y = [map float_of_Z [5; 10]] /\
      List.length (pr_dates (df_index x)) = 8%nat /\ df_data x = [map float_of_Z [1; 2; 3; 4; 6; 7; 8; 9]]
  | _ => False
  end.
Proof. vm_compute. repeat split. Qed.

(** Other ways of writing are misread: with the number of the year beside its
    total, the total is dated in October and the call fails; *)
Theorem C78_total_refuted : exists st,
  st = mkstore [years_sheet ["2003 I"; "II"; "III"; "IV"; "2003"; "2004 I"; "II"; "III"; "IV"; "2004"]%string] [] /\
  cell (fst (clean_time_index demo_env (sheet st 0) (composed "QQQQA" false))) 6 1 = VDate (first 2003 10 1) /\
  snd (get_data_frames demo_env (fun t => t) no_json st [0%nat] (UInput (PDict (years_params "QQQQA" false))) (Some (T "s")) false true) = Err EOther.
Proof. eexists. split; [reflexivity|]. split; vm_compute; reflexivity. Qed.
Print Assumptions C78_total_refuted.
(** with the year in the text of every quarter, all of them are taken for the
    first one, and the call fails; *)
Theorem C78_every_year_refuted : exists st,
  st = mkstore [years_sheet ["2003"; "2003 I"; "2003 II"; "2003 III"; "2003 IV"; "2004"; "2004 I"; "2004 II"; "2004 III"; "2004 IV"]%string] [] /\
  cell (fst (clean_time_index demo_env (sheet st 0) (composed "AQQQQ" false))) 4 1 = VDate (first 2003 1 1) /\
  cell (fst (clean_time_index demo_env (sheet st 0) (composed "AQQQQ" false))) 5 1 = VDate (first 2003 1 1) /\
  snd (get_data_frames demo_env (fun t => t) no_json st [0%nat] (UInput (PDict (years_params "AQQQQ" false))) (Some (T "s")) false true) = Err EOther.
Proof. eexists. split; [reflexivity|]. split; [|split]; vm_compute; reflexivity. Qed.
Print Assumptions C78_every_year_refuted.
(** and with missing periods allowed the second of two years before their
    quarters is dated in October. *)
Theorem C78_missings_refuted : exists w, w = years_sheet ["2008"; "I"; "II"; "III"; "IV"; "2009"; "I"; "II"; "III"; "IV"]%string /\
  cell (fst (clean_time_index demo_env w (composed "AQQQQ" true))) 7 1 = VDate (first 2009 10 1) /\
  cell (fst (clean_time_index demo_env w (composed "AQQQQ" false))) 7 1 = VDate (first 2009 1 1).
Proof. eexists. split; [reflexivity|]. split; vm_compute; reflexivity. Qed.
Print Assumptions C78_missings_refuted.
