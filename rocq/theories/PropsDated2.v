(** More theorems about the dates of the numbers of an answer (C66): several
    frequencies, and implicit missings. *)
From Verif Require Import Base BaseFacts Cal SpecCal CalFacts SpecCoord SpecCoordFacts Coord Params ParseTime TimeIndex PeriodRange GetData DataFrame Scrape Xlseries SpecTime TimeProofs
  SpecParams SpecScrape SpecData DataFacts SpecFrames RangeProofs SpecEnd SpecDated SpecCycles SpecDated2 DatedProofs2 Demo PropsParams PropsTime PropsFrames PropsData PropsEnd PropsDated.
From Coq Require Import Sorted.
Local Open Scope Z_scope.

(** a series of several frequencies with a date in every row, those of each
    frequency without gaps: the frame of each frequency has the dates of its own
    rows, and beside each the number of that row *)
Theorem C66_several_partial : forall e w p dfs w1 p1 i m s en ds nvs cs k c n vs, real_stamps e -> real_dates w -> alone e w p = Ok dfs -> clean_data e w p = (w1, p1, Ok tt) ->
  py_len (dgetN n_headers_coord p1) = Ok m -> (i < m)%nat -> series_sp p1 i = Ok s ->
  (2 <= List.length (sp_freq s))%nat -> (forall c, In c (sp_freq s) -> periodic (letter c)) -> marker_list s ->
  sp_cont s = true -> sp_blank s = false -> 1 <= sp_starts s -> sp_ends s = Some en -> en <= axis_max (sp_al s) w1 -> cycle_rows s w1 en ds ->
  letters_of (sp_freq s) (List.length ds) cs -> nth_error cs k = Some c -> get_data e w1 s = Ok nvs -> nth_error nvs k = Some (n, vs) ->
  exists d, In d dfs /\ in_frame d n vs /\ pr_dates (df_index d) = share (sp_freq s) c 0 ds /\ dated_by_cycle s w1 en c (share (sp_freq s) c 0 ds) vs.
Proof. exact c66_several. Qed.
Print Assumptions C66_several_partial.
(** years and their quarters, stopping within the second year *)
Definition years_params : dict := full 2 ["B1"%string] ["A1"%string] ["AQQQQ"%string] false.
Definition years_dates : list datetime :=
  [first 2000 1 1; first 2000 1 1; first 2000 4 1; first 2000 7 1; first 2000 10 1; first 2001 1 1; first 2001 1 1; first 2001 4 1].
Example C66_several_case :
  let w1 := cleaned_sheet years_first_sheet years_params in let s := cleaned_series years_first_sheet years_params in
  real_dates years_first_sheet /\ snd (clean_data demo_env years_first_sheet years_params) = Ok tt /\
  series_sp (snd (fst (clean_data demo_env years_first_sheet years_params))) 0 = Ok s /\
  sp_freq s = T "AQQQQ" /\ marker_list s /\ sp_cont s = true /\ sp_blank s = false /\ sp_starts s = 2 /\ sp_ends s = Some 9 /\ sp_al s = Vert /\ axis_max Vert w1 = 10 /\
  cycle_rows s w1 9 years_dates /\ letters_of (T "AQQQQ") 8 (T "AQ") /\
  share (T "AQQQQ") "Q" 0 years_dates = [first 2000 1 1; first 2000 4 1; first 2000 7 1; first 2000 10 1; first 2001 1 1; first 2001 4 1] /\
  get_data demo_env w1 s = Ok [(T "x", map float_of_Z [10; 11]); (T "x", map float_of_Z [1; 2; 3; 4; 5; 6])] /\
  is_ok (alone demo_env years_first_sheet years_params) = true.
Proof.
  cbv zeta. split; [real_|]. do 3 (split; [vm_compute; reflexivity|]). split; [intros M; vm_compute in M; discriminate|]. do 6 (split; [vm_compute; reflexivity|]).
  split; [|split; [|split; [reflexivity|split; vm_compute; reflexivity]]].
  - split; [vm_compute; reflexivity|]. change (sp_starts (cleaned_series years_first_sheet years_params)) with 2. split.
    + intros [|[|[|[|[|[|[|[|k]]]]]]]] d D; cbn [nth_error years_dates] in D; [injection D as <-; apply (holds_iff _ 1); vm_compute; reflexivity..|destruct k; discriminate].
    + change (sp_freq (cleaned_series years_first_sheet years_params)) with (T "AQQQQ").
      assert (Q : consecutive "Q" [first 2000 1 1; first 2000 4 1; first 2000 7 1; first 2000 10 1; first 2001 1 1; first 2001 4 1]) by (repeat (apply con_more; [apply op_months with 3; [reflexivity|later]|]); constructor).
      assert (A : consecutive "A" [first 2000 1 1; first 2001 1 1]) by (repeat (apply con_more; [apply op_months with 12; [reflexivity|later]|]); constructor).
      intros c [<-|[<-|[<-|[<-|[<-|[]]]]]]; assumption.
  - apply lo_old with "Q"%char; [|reflexivity|right; left; reflexivity]. apply lo_old with "Q"%char; [|reflexivity|right; left; reflexivity].
    apply lo_old with "A"%char; [|reflexivity|left; reflexivity]. do 3 (apply lo_old with "Q"%char; [|reflexivity|right; left; reflexivity]).
    apply (lo_new (T "AQQQQ") 1 (T "A") "Q"%char); [|reflexivity|intros [H|[]]; discriminate]. apply (lo_new (T "AQQQQ") 0 [] "A"%char); [constructor|reflexivity|intros []].
Qed.

(** implicit missings: the periods without a row are filled in, and every number
    is still beside the date of its row *)
Theorem C66_implicit_partial : forall e w p dfs w1 p1 i m s f en ms grid ks n vs, real_stamps e -> real_dates w -> alone e w p = Ok dfs -> clean_data e w p = (w1, p1, Ok tt) ->
  py_len (dgetN n_headers_coord p1) = Ok m -> (i < m)%nat -> series_sp p1 i = Ok s -> sp_freq s = T f -> periodic f ->
  sp_missings s = true -> sp_mv s = VList ms -> In (VStr (T "Implicit")) ms -> sp_cont s = true -> sp_blank s = false -> sp_ta s = 0 ->
  sp_ends s = Some en -> rows_with_gaps s f w1 en grid ks -> get_data e w1 s = Ok [(n, vs)] ->
  exists d, In d dfs /\ in_frame d n vs /\ pr_dates (df_index d) = grid /\ dated_with_gaps s w1 en grid vs.
Proof. exact c66_gaps. Qed.
Print Assumptions C66_implicit_partial.
(** January, February and May *)
Definition gap_sheet : worksheet := sheet_of (T "s")
  [[VStr (T "date"); VStr (T "x")]; [day 2000 1 1; VInt 1]; [day 2000 2 1; VInt 2]; [day 2000 5 1; VInt 5]].
Definition gap_params : dict :=
  match make_params no_json (PDict
    [ (pname "headers_coord", VList [VStr (T "B1")]); (pname "time_header_coord", VList [VStr (T "A1")]);
      (pname "alignment", VStr (T "vertical")); (pname "data_starts", VInt 2); (pname "frequency", VList [VStr (T "M")]);
      (pname "continuity", VBool true); (pname "blank_rows", VBool false); (pname "missings", VBool true);
      (pname "missing_value", VList [VStr (T "Implicit")]); (pname "time_composed", VBool false) ]) with Ok p => p | Err _ => [] end.
Example C66_implicit_case :
  let w1 := cleaned_sheet gap_sheet gap_params in let s := cleaned_series gap_sheet gap_params in
  real_dates gap_sheet /\ snd (clean_data demo_env gap_sheet gap_params) = Ok tt /\
  series_sp (snd (fst (clean_data demo_env gap_sheet gap_params))) 0 = Ok s /\
  sp_freq s = T "M" /\ sp_missings s = true /\ sp_mv s = VList [VStr (T "Implicit")] /\ sp_cont s = true /\ sp_blank s = false /\ sp_ta s = 0 /\ sp_ends s = Some 4 /\
  rows_with_gaps s "M" w1 4 [first 2000 1 1; first 2000 2 1; first 2000 3 1; first 2000 4 1; first 2000 5 1] [0; 1; 4]%nat /\
  get_data demo_env w1 s = Ok [(T "x", [float_of_Z 1; float_of_Z 2; S754_nan; S754_nan; float_of_Z 5])] /\
  match alone demo_env gap_sheet gap_params with
  | Ok [d] => pr_dates (df_index d) = [first 2000 1 1; first 2000 2 1; first 2000 3 1; first 2000 4 1; first 2000 5 1]
  | _ => False end.
Proof.
  cbv zeta. split; [real_|]. do 9 (split; [vm_compute; reflexivity|]). split; [|split; vm_compute; reflexivity].
  split; [repeat (apply con_more; [apply op_months with 1; [reflexivity|later]|]); constructor|].
  split; [repeat constructor; apply valid_real; reflexivity|]. split; [repeat constructor|]. split; [vm_compute; reflexivity|]. split; [reflexivity|]. split; [reflexivity|].
  change (sp_starts (cleaned_series gap_sheet gap_params)) with 2.
  intros [|[|[|k]]] j J; cbn [nth_error] in J; [injection J as <-; eexists; (split; [reflexivity|]); apply (holds_iff _ 1); vm_compute; reflexivity..|destruct k; discriminate].
Qed.
