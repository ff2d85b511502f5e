(** Theorems about the dates of the numbers of an answer (C66). *)
From Verif Require Import Base BaseFacts Cal SpecCal CalFacts SpecCoord SpecCoordFacts Coord Params ParseTime TimeIndex PeriodRange GetData DataFrame Scrape Xlseries SpecTime TimeProofs
  SpecParams SpecScrape SpecData DataFacts SpecFrames RangeProofs SpecDated DatedProofs DatedClean Demo PropsParams PropsTime PropsFrames PropsData.
From Coq Require Import Sorted.
Local Open Scope Z_scope.

(** ** C66 Every number is dated with the date in its row *)

(** whatever the cleaning made of the time index, and whatever is missing: if
    its dates are first dates of periods (working days, for daily data) every
    number that is handed back has the date in its own row *)
Theorem C66_dated_partial : forall e w p dfs w1 p1 i m s f en a b n vs, real_stamps e -> real_dates w -> alone e w p = Ok dfs -> clean_data e w p = (w1, p1, Ok tt) ->
  py_len (dgetN n_headers_coord p1) = Ok m -> (i < m)%nat -> series_sp p1 i = Ok s -> sp_freq s = T f -> periodic f -> not_implicit s ->
  sp_ends s = Some en -> holds s w1 (sp_starts s + sp_ta s) (VDate a) -> holds s w1 (en + sp_ta s) (VDate b) ->
  index_in_order s w1 en -> index_of_starts s f w1 en -> rows_dated s w1 en -> get_data e w1 s = Ok [(n, vs)] ->
  exists d, In d dfs /\ in_frame d n vs /\ dated_by_row s w1 en (pr_dates (df_index d)) vs.
Proof. exact c66_dated. Qed.
Print Assumptions C66_dated_partial.

(** a date in every row and no gaps between them: no other condition, not even
    that the dates are those of period starts *)
Theorem C66_every_row_partial : forall e w p dfs w1 p1 i m s f en ds n vs, real_stamps e -> real_dates w -> alone e w p = Ok dfs -> clean_data e w p = (w1, p1, Ok tt) ->
  py_len (dgetN n_headers_coord p1) = Ok m -> (i < m)%nat -> series_sp p1 i = Ok s -> sp_freq s = T f -> periodic f -> not_implicit s ->
  sp_cont s = true -> sp_blank s = false -> sp_ends s = Some en -> ds <> [] -> row_by_row s f w1 en ds ->
  get_data e w1 s = Ok [(n, vs)] ->
  exists d, In d dfs /\ in_frame d n vs /\ pr_dates (df_index d) = ds /\ dated_by_row s w1 en ds vs.
Proof. exact c66_every_row. Qed.
Print Assumptions C66_every_row_partial.

(** Friday, Monday and Tuesday, the number of Monday missing *)
Definition week_sheet : worksheet := sheet_of (T "s")
  [[VStr (T "date"); VStr (T "x")]; [day 2000 1 7; VInt 1]; [day 2000 1 10; VStr (T "NA")]; [day 2000 1 11; VInt 3]].
Definition week_params : dict := full 2 ["B1"%string] ["A1"%string] ["D"%string] true.
Definition cleaned_sheet (w : worksheet) (p : dict) : worksheet := fst (fst (clean_data demo_env w p)).
Definition cleaned_series (w : worksheet) (p : dict) : sp := match series_sp (snd (fst (clean_data demo_env w p))) 0 with Ok s => s | Err _ => data_series 0 true false false [] "M" end.
Ltac index_at H := apply (holds_iff _ 1) in H; [|vm_compute; reflexivity]; vm_compute in H.
Ltac row_ q := assert (q = 2 \/ q = 3 \/ q = 4) as [-> | [-> | ->]] by lia.
Example C66_dated_case :
  let w1 := cleaned_sheet week_sheet week_params in let s := cleaned_series week_sheet week_params in
  real_dates week_sheet /\ snd (clean_data demo_env week_sheet week_params) = Ok tt /\
  series_sp (snd (fst (clean_data demo_env week_sheet week_params))) 0 = Ok s /\
  sp_freq s = T "D" /\ not_implicit s /\ sp_starts s = 2 /\ sp_ends s = Some 4 /\ index_in_order s w1 4 /\ index_of_starts s "D" w1 4 /\ rows_dated s w1 4 /\
  get_data demo_env w1 s = Ok [(T "x", [float_of_Z 1; S754_nan; float_of_Z 3])] /\
  match alone demo_env week_sheet week_params with
  | Ok [d] => pr_dates (df_index d) = [first 2000 1 7; first 2000 1 10; first 2000 1 11] /\ df_data d = [[float_of_Z 1; S754_nan; float_of_Z 3]]
  | _ => False end.
Proof.
  cbv zeta. split; [real_|]. do 3 (split; [vm_compute; reflexivity|]).
  split; [intros _; exists [VStr (T "NA")]; split; [vm_compute; reflexivity|intros [E|[]]; discriminate]|].
  split; [vm_compute; reflexivity|]. split; [vm_compute; reflexivity|].
  change (sp_ta (cleaned_series week_sheet week_params)) with 0.
  split; [|split; [|split; [|split; [vm_compute; reflexivity|vm_compute; split; reflexivity]]]].
  - intros i j x y I J K X Y. change (2 <= i) in I. row_ i; row_ j; try lia; index_at X; index_at Y; injection X as <-; injection Y as <-; unfold earlier; cbn; lia.
  - exists 0. intros i x I X. change (2 <= i <= 4) in I.
    assert (W : forall d, 7 <= d <= 11 -> d <> 8 -> d <> 9 -> working_day (mkdt 2000 1 d 0)).
    { intros d D N1 N2. apply working_iff; [split; [cbn; lia|]; cbn; lia|]. unfold weekday, dt_ord. cbn [dt_y dt_m dt_d]. assert (d = 7 \/ d = 10 \/ d = 11) as [-> | [-> | ->]] by lia; vm_compute; reflexivity. }
    row_ i; index_at X; injection X as <-; (split; [exact Logic.I|]; split; [reflexivity|]; intros _; split; [apply W; lia|reflexivity]).
  - intros _ i I _. change (2 <= i <= 4) in I. row_ i; eexists; apply (holds_iff _ 1); vm_compute; reflexivity.
Qed.
(** three quarters *)
Definition quarter_sheet : worksheet := sheet_of (T "s")
  [[VStr (T "date"); VStr (T "x")]; [day 2000 4 1; VInt 1]; [day 2000 7 1; VInt 2]; [day 2000 10 1; VInt 3]].
Definition quarter_params : dict := full 2 ["B1"%string] ["A1"%string] ["Q"%string] false.
Example C66_every_row_case :
  let w1 := cleaned_sheet quarter_sheet quarter_params in let s := cleaned_series quarter_sheet quarter_params in
  real_dates quarter_sheet /\ snd (clean_data demo_env quarter_sheet quarter_params) = Ok tt /\
  series_sp (snd (fst (clean_data demo_env quarter_sheet quarter_params))) 0 = Ok s /\
  sp_freq s = T "Q" /\ not_implicit s /\ sp_cont s = true /\ sp_blank s = false /\ sp_ends s = Some 4 /\
  row_by_row s "Q" w1 4 [first 2000 4 1; first 2000 7 1; first 2000 10 1] /\
  get_data demo_env w1 s = Ok [(T "x", map float_of_Z [1; 2; 3])] /\
  match alone demo_env quarter_sheet quarter_params with
  | Ok [d] => pr_dates (df_index d) = [first 2000 4 1; first 2000 7 1; first 2000 10 1] /\ df_data d = [map float_of_Z [1; 2; 3]]
  | _ => False end.
Proof.
  cbv zeta. split; [real_|]. do 3 (split; [vm_compute; reflexivity|]). split; [intros M; vm_compute in M; discriminate|]. do 3 (split; [vm_compute; reflexivity|]).
  split; [|split; vm_compute; repeat split].
  split; [vm_compute; reflexivity|]. change (sp_starts (cleaned_series quarter_sheet quarter_params)) with 2. change (sp_ta (cleaned_series quarter_sheet quarter_params)) with 0. split.
  - intros [|[|[|k]]] d D; cbn in D; try (destruct k; discriminate); injection D as <-; apply (holds_iff _ 1); vm_compute; reflexivity.
  - assert (O : forall y m m', m' = m + 3 -> 1 <= m <= 9 -> one_period "Q" (first y m 1) (first y m' 1)).
    { intros y m m' -> M. apply (op_months "Q" _ _ 3); [reflexivity|]. split; [cbn; lia|]. split; [cbn; lia|]. split; [reflexivity|].
      exists (days_in_month y (m + 3)). split; [apply dim_spec; cbn; lia|]. cbn. pose proof (dim_range y (m + 3)). lia. }
    intros [|[|[|k]]] a b A B; cbn in A, B; try discriminate; injection A as <-; injection B as <-; apply O; lia.
Qed.

(** without missings nothing is asked of the sheet: whatever cleaning makes of a
    time index in one column (or row), an attempt that succeeds has dated every
    number with the date in its row, and the rows have no gaps *)
Theorem C66_no_gaps_partial : forall e w p dfs n t s0 i s f, real_stamps e -> real_dates w -> alone e w p = Ok dfs -> one_index p n t ->
  series_sp p 0 = Ok s0 -> sp_freq s0 = T f -> periodic f -> sp_missings s0 = false -> explicit_marker s0 -> one_line s0 -> ~ tolerates_blanks s0 -> 0 <= sp_ta s0 ->
  (i < n)%nat -> series_sp p i = Ok s -> same_rows s0 s -> ~ tolerates_blanks s -> not_implicit s ->
  exists w1 p1 s1 z ds nm vs d, clean_data e w p = (w1, p1, Ok tt) /\ series_sp p1 i = Ok s1 /\ same_rows s s1 /\ sp_ends s1 = Some z /\ get_data e w1 s1 = Ok [(nm, vs)] /\
    In d dfs /\ in_frame d nm vs /\ pr_dates (df_index d) = ds /\ ds <> [] /\ row_by_row s1 f w1 z ds /\ dated_by_row s1 w1 z ds vs.
Proof. exact c66_no_gaps. Qed.
Print Assumptions C66_no_gaps_partial.
(** a typing mistake (2010 for 2000) and a gap closed by the cleaning *)
Definition typo_sheet : worksheet := sheet_of (T "s")
  [[VStr (T "date"); VStr (T "x"); VStr (T "y")]; [day 2000 1 1; VInt 1; VInt 4]; [day 2010 2 1; VInt 2; VInt 5]; [day 2000 4 1; VInt 3; VInt 6]; [VNone; VStr (T "note"); VNone]].
Definition typo_params : dict := full 2 ["B1"; "C1"]%string ["A1"; "A1"]%string ["M"; "M"]%string false.
Example C66_no_gaps_case :
  real_dates typo_sheet /\ one_index typo_params 2 (T "A1") /\
  match series_sp typo_params 0, series_sp typo_params 1 with
  | Ok s0, Ok s => sp_freq s0 = T "M" /\ sp_missings s0 = false /\ explicit_marker s0 /\ one_line s0 /\ ~ tolerates_blanks s0 /\ sp_ta s0 = 0 /\ same_rows s0 s /\ ~ tolerates_blanks s /\ not_implicit s
  | _, _ => False end /\
  match alone demo_env typo_sheet typo_params with
  | Ok [d] => pr_dates (df_index d) = [first 2000 1 1; first 2000 2 1; first 2000 3 1] /\ df_data d = [map float_of_Z [1; 2; 3]; map float_of_Z [4; 5; 6]]
  | _ => False end.
Proof.
  split; [real_|]. split.
  - split; [auto|]. split; [intros k K; cbn in K; repeat (destruct K as [<-|K]; [eexists; split; vm_compute; reflexivity|]); destruct K|].
    split; [|eexists; split; vm_compute; reflexivity]. intros [|[|j]] J; [| |lia]; (split; eexists; split; vm_compute; reflexivity).
  - split; [|vm_compute; repeat split]. vm_compute. split; [reflexivity|]. split; [reflexivity|]. split; [discriminate|]. split; [reflexivity|]. split; [intros [M|M]; discriminate|]. split; [reflexivity|]. split; [repeat split|].
    split; [intros [M|M]; discriminate|]. discriminate.
Qed.

(** where the claim fails.  Daily dates with a Saturday among them, as many as
    there are working days: its number is dated the next Monday *)
Definition request_of (f : string) (cont missings : bool) : dict :=
  [ (pname "headers_coord", VList [VStr (T "B1")]); (pname "time_header_coord", VStr (T "A1")); (pname "alignment", VStr (T "vertical"));
    (pname "data_starts", VInt 2); (pname "frequency", VStr (T f)); (pname "continuity", VBool cont); (pname "blank_rows", VBool false);
    (pname "missings", VBool missings); (pname "missing_value", VList [VStr (T "NA")]); (pname "time_composed", VBool false) ].
Definition column_of (rows : list (pyval * pyval)) : store :=
  mkstore [sheet_of (T "s") ([VStr (T "date"); VStr (T "x")] :: map (fun r => [fst r; snd r]) rows)] [].
Theorem C66_saturday_refuted : exists e st d fr pid,
  cell (sheet st 0) 3 1 = day 2000 1 8 /\ cell (sheet st 0) 3 2 = VInt 2 /\
  snd (get_data_frames e (fun t => t) no_json st [0%nat] (UInput (PDict d)) None false true) = Ok (DF fr, T "s", pid) /\
  pr_dates (df_index fr) = [first 2000 1 7; first 2000 1 10; first 2000 1 11] /\ df_data fr = [map float_of_Z [1; 2; 3]].
Proof.
  exists demo_env, (column_of [(day 2000 1 7, VInt 1); (day 2000 1 8, VInt 2); (day 2000 1 11, VInt 3)]), (request_of "D" true true). eexists _, _.
  split; [reflexivity|]. split; [reflexivity|]. split; [vm_compute; reflexivity|]. vm_compute. split; reflexivity.
Qed.
Print Assumptions C66_saturday_refuted.
(** a date in the middle of a month: its number is dated the month after *)
Theorem C66_mid_month_refuted : exists e st d fr pid,
  cell (sheet st 0) 3 1 = day 2000 1 15 /\ cell (sheet st 0) 3 2 = VInt 2 /\
  snd (get_data_frames e (fun t => t) no_json st [0%nat] (UInput (PDict d)) None false true) = Ok (DF fr, T "s", pid) /\
  pr_dates (df_index fr) = [first 2000 1 1; first 2000 2 1; first 2000 3 1] /\ df_data fr = [map float_of_Z [1; 2; 3]].
Proof.
  exists demo_env, (column_of [(day 2000 1 1, VInt 1); (day 2000 1 15, VInt 2); (day 2000 3 1, VInt 3)]), (request_of "M" true true). eexists _, _.
  split; [reflexivity|]. split; [reflexivity|]. split; [vm_compute; reflexivity|]. vm_compute. split; reflexivity.
Qed.
Print Assumptions C66_mid_month_refuted.
(** a number left out of a non continuous series moves the one before it *)
Theorem C66_left_out_refuted : exists e st d fr pid,
  cell (sheet st 0) 2 1 = day 2000 1 31 /\ cell (sheet st 0) 2 2 = VInt 1 /\
  snd (get_data_frames e (fun t => t) no_json st [0%nat] (UInput (PDict d)) None false true) = Ok (DF fr, T "s", pid) /\
  pr_dates (df_index fr) = [first 2000 2 1; first 2000 3 1] /\ df_data fr = [map float_of_Z [1; 3]].
Proof.
  exists demo_env, (column_of [(day 2000 1 31, VInt 1); (day 2000 2 29, VStr (T "..")); (day 2000 3 29, VInt 3)]), (request_of "M" false false). eexists _, _.
  split; [reflexivity|]. split; [reflexivity|]. split; [vm_compute; reflexivity|]. vm_compute. split; reflexivity.
Qed.
Print Assumptions C66_left_out_refuted.
