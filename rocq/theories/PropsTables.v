(** Theorems about sheets with several tables (C72). *)
From Verif Require Import Base BaseFacts Cal SpecCal CalFacts SpecCoord SpecCoordFacts Coord XlMethods Params ParseTime TimeIndex PeriodRange GetData DataFrame Scrape Xlseries SpecTime TimeProofs
  SpecParams SpecScrape SpecData DataFacts DataProofs SpecFrames SpecEnd SpecGaps Demo PropsParams PropsTime PropsScrape PropsEnd PropsTurn SpecTables TablesProofs TablesCall.
From Coq Require Import Sorted.
Local Open Scope Z_scope.

(** ** C72 Several tables on one sheet *)

(** every series has its own time header, rows, frequency, layout and marks, and
    its dates are beside its values or [time_alignment] rows away: when each of
    them is in order the call answers with one column per series, those with
    the same dates in the same frame *)
Theorem C72_tables : forall e uni json st wb u q name i p ss tbs safe preserve,
  wb_ok st wb -> in_store st u -> resolves uni strip (names_of st wb) q name -> first_such (fun i => title (sheet st i) = name) wb i -> object_of json st u p ->
  bounded (sheet st i) -> real_dates (sheet st i) -> is_complete p = Ok true ->
  for_series p ss -> Forall2 (in_table e (sheet st i)) ss tbs -> end_together ss tbs ->
  exists frs out k, collected tbs frs /\ handed frs out /\ snd (get_data_frames e uni json st wb u q safe preserve) = Ok (out, name, k).
Proof. exact c72. Qed.
Print Assumptions C72_tables.

(** in particular every series is a column of a frame with its dates *)
Theorem C72_every_series : forall e uni json st wb u q name i p ss tbs safe preserve tb,
  wb_ok st wb -> in_store st u -> resolves uni strip (names_of st wb) q name -> first_such (fun i => title (sheet st i) = name) wb i -> object_of json st u p ->
  bounded (sheet st i) -> real_dates (sheet st i) -> is_complete p = Ok true ->
  for_series p ss -> Forall2 (in_table e (sheet st i)) ss tbs -> end_together ss tbs -> In tb tbs ->
  exists frs out k d c m, snd (get_data_frames e uni json st wb u q safe preserve) = Ok (out, name, k) /\ handed frs out /\ In d frs /\
    pr_dates (df_index d) = tb_dates tb /\ nth_error (df_data d) c = Some (tb_values tb) /\ nth_error (df_cols d) c = Some (numbered (tb_name tb) m).
Proof. exact c72_each. Qed.
Print Assumptions C72_every_series.

(** two quarterly tables, one below the other, and a monthly series with every
    date above its value *)
Definition three_sheet : worksheet := sheet_of (T "Q")
  [[VStr (T "Quarter"); VStr (T "exports"); VNone; VStr (T "rate")];
   [day 2000 1 1; VInt 1; VNone; day 2000 1 1];
   [day 2000 4 1; VStr (T "NA"); VNone; VFloat (float_of_Z 7)];
   [day 2000 7 1; VInt 3; VNone; day 2000 2 1];
   [VNone; VNone; VNone; VFloat (float_of_Z 8)];
   [VStr (T "Quarter"); VStr (T "imports"); VNone; VNone];
   [day 2000 1 1; VInt 4; VNone; VNone];
   [day 2000 4 1; VInt 5; VNone; VNone];
   [day 2000 7 1; VInt 6; VNone; VNone]].
Definition three_params : dict :=
  [ (pname "alignment", VStr (pname "vertical")); (pname "headers_coord", VList [VStr (pname "B1"); VStr (pname "D1"); VStr (pname "B6")]);
    (pname "time_header_coord", VList [VStr (pname "A1"); VStr (pname "D1"); VStr (pname "A6")]);
    (pname "data_starts", VList [VInt 2; VInt 3; VInt 7]); (pname "data_ends", VList [VNone; VInt 5; VNone]);
    (pname "frequency", VList [VStr (pname "Q"); VStr (pname "M"); VStr (pname "Q")]);
    (pname "continuity", VList [VBool true; VBool false; VBool true]); (pname "blank_rows", VList [VBool false; VBool true; VBool false]);
    (pname "missings", VBool true); (pname "missing_value", VStr (pname "NA")); (pname "time_composed", VBool false);
    (pname "time_alignment", VList [VInt 0; VInt (-1); VInt 0]) ].
Definition three_series : list sp :=
  [ mksp Vert VNone (T "B1") VNone VNone 2 None true false true (VList [VStr (T "NA")]) 0 false (ThStr (T "A1")) false (T "Q");
    mksp Vert VNone (T "D1") VNone VNone 3 (Some 5) false true true (VList [VStr (T "NA")]) (-1) false (ThStr (T "D1")) false (T "M");
    mksp Vert VNone (T "B6") VNone VNone 7 None true false true (VList [VStr (T "NA")]) 0 false (ThStr (T "A6")) false (T "Q") ].
Definition three_quarters := [mkdt 2000 1 1 0; mkdt 2000 4 1 0; mkdt 2000 7 1 0].
Definition three_tables : list table :=
  [ mktable (T "exports") "Q" three_quarters [float_of_Z 1; S754_nan; float_of_Z 3] 4;
    mktable (T "rate") "M" [mkdt 2000 1 1 0; mkdt 2000 2 1 0] [float_of_Z 7; float_of_Z 8] 5;
    mktable (T "imports") "Q" three_quarters [float_of_Z 4; float_of_Z 5; float_of_Z 6] 9 ].
Lemma three_in_store : wb_ok (mkstore [three_sheet] []) [0%nat] /\ in_store (mkstore [three_sheet] []) (UInput (PDict three_params)).
Proof. split; [repeat constructor|exact I]. Qed.
Ltac cell_ line := apply (holds_iff _ line); [reflexivity|vm_compute; reflexivity].
Ltac at_ line H := apply (holds_iff _ line) in H; [|reflexivity]; vm_compute in H; try discriminate H; try (injection H as <-).
Ltac named_ r c := exists r, c; split; [apply cell_named_iff; reflexivity|].
Ltac steps := repeat match goal with |- context [nth_error _ ?k] => destruct k as [|k]; cbn [nth_error] end.
Ltac number_ := apply sf_number; [apply cn_int; vm_compute; discriminate|intros _ u k [<-|U] [<-|[]]; [reflexivity|]; apply stripped_iff in U; subst u; reflexivity].
Ltac float_ := apply sf_number; [apply cn_float|intros _ u k [<-|U] [<-|[]]; [reflexivity|]; apply stripped_iff in U; subst u; reflexivity].
Example C72_case :
  let st := mkstore [three_sheet] [] in
  wb_ok st [0%nat] /\ resolves (fun t => t) strip (names_of st [0%nat]) None (T "Q") /\ first_such (fun i => title (sheet st i) = T "Q") [0%nat] 0%nat /\
  object_of no_json st (UInput (PDict three_params)) (object three_params) /\ bounded three_sheet /\ real_dates three_sheet /\
  is_complete (object three_params) = Ok true /\ for_series (object three_params) three_series /\
  Forall2 (in_table demo_env three_sheet) three_series three_tables /\ end_together three_series three_tables /\
  match answer three_sheet three_params with
  | Ok (DL [DF a; DF b], _, _) => pr_dates (df_index a) = three_quarters /\ df_cols a = [T "exports"; T "imports"] /\
      df_data a = [[float_of_Z 1; S754_nan; float_of_Z 3]; map float_of_Z [4; 5; 6]] /\
      pr_dates (df_index b) = [mkdt 2000 1 1 0; mkdt 2000 2 1 0] /\ df_cols b = [T "rate"] /\ df_data b = [map float_of_Z [7; 8]]
  | _ => False
  end.
Proof.
  cbv zeta. split; [repeat constructor|]. split; [apply res_none; reflexivity|]. split; [exists [], []; repeat constructor|].
  split; [apply object_built; vm_compute; reflexivity|]. split; [apply sheet_of_bounded|]. split; [real_|]. split; [vm_compute; reflexivity|].
  split; [|split; [|split]].
  - split; [discriminate|]. split.
    + intros k K. assert (G : exists l, dgetN k (object three_params) = VList l /\ Nat.eqb (List.length l) 3 = true); [|destruct G as (l & L1 & L2); exists l; split; auto; apply Nat.eqb_eq; auto].
      vm_compute in K. repeat (destruct K as [<-|K]; [eexists; vm_compute; split; reflexivity|]). destruct K.
    + intros i s H. unfold three_series in H. destruct i as [|[|[|i]]]; cbn [nth_error] in H; try (inversion H; subst s; vm_compute; reflexivity). destruct i; discriminate.
  - assert (QS : consecutive "Q" three_quarters) by (repeat (apply con_more; [apply op_months with 3; [reflexivity|later]|]); constructor).
    assert (YS : Forall (fun x => real_date x /\ 1678 <= dt_y x <= 2261) three_quarters) by (repeat (apply Forall_cons; [split; [apply valid_real; reflexivity|cbn; lia]|]); apply Forall_nil).
    repeat apply Forall2_cons; [| | |apply Forall2_nil].
    + constructor; cbn [tb_freq tb_dates tb_values tb_reach tb_name].
      * split; [cbn; tauto|reflexivity].
      * exists 4. split; [|reflexivity]. constructor.
        -- split; [reflexivity|]. exists (T "A1"), 1, 1. split; [reflexivity|apply cell_named_iff; reflexivity].
        -- reflexivity.
        -- split; [cbn; lia|exact I].
        -- eexists. cell_ 1.
        -- right. intros q H. cbn in H. assert (q = 2 \/ q = 3 \/ q = 4) as [-> | [-> | ->]] by lia; eexists; cell_ 1.
        -- split; [intros q H; cbn in H; right; assert (q = 2 \/ q = 3 \/ q = 4) as [-> | [-> | ->]] by lia; eexists; cell_ 1|].
           intros a b x y A B C X Y. cbn in A. assert (a = 2 \/ a = 3 \/ a = 4) as [-> | [-> | ->]] by lia; assert (b = 3 \/ b = 4) as [-> | ->] by lia; try lia; at_ 1 X; at_ 1 Y; unfold earlier; cbn; lia.
        -- left. split; [reflexivity|discriminate].
        -- intros q x H X. cbn in H. assert (q = 2 \/ q = 3 \/ q = 4) as [-> | [-> | ->]] by lia; at_ 1 X; cbn; lia.
        -- cbn. lia.
        -- apply se_blank; [reflexivity|reflexivity|cbn; lia| |intros [E|E]; discriminate]. exists VNone. split; [cell_ 1|constructor].
      * exact QS.
      * eexists. split; [reflexivity|]. cbn. tauto.
      * exact YS.
      * cbn. split; [lia|]. split; [lia|discriminate].
      * apply name_iff. vm_compute. reflexivity.
      * apply (vo_rows _ _ _ _ (map Some three_quarters) [VInt 1; VStr (T "NA"); VInt 3] [VStr (T "NA")]); [reflexivity|reflexivity|intros _ [E|[]]; discriminate| | | | | | |].
        -- repeat constructor.
        -- eexists; eexists; split; reflexivity.
        -- intros k x K. destruct k as [|[|[|k]]]; cbn in K; [| | |destruct k; discriminate]; injection K as <-; cell_ 1.
        -- intros k K. destruct k as [|[|[|k]]]; cbn in K; try discriminate. destruct k; discriminate.
        -- intros _ N. cbn in N. intuition discriminate.
        -- named_ 1 2. intros k v K. destruct k as [|[|[|k]]]; cbn in K; [| | |destruct k; discriminate]; injection K as <-; reflexivity.
        -- unfold three_quarters; cbn [map]. apply be_date; [number_|]. apply be_date; [apply (sf_marker _ _ _ (VStr (T "NA"))); try reflexivity; try discriminate; [apply stripped_iff; reflexivity|left; reflexivity]|]. apply be_date; [number_|constructor].
    + constructor; cbn [tb_freq tb_dates tb_values tb_reach tb_name].
      * split; [cbn; tauto|reflexivity].
      * exists 4. split; [|reflexivity]. constructor.
        -- split; [reflexivity|]. exists (T "D1"), 1, 4. split; [reflexivity|apply cell_named_iff; reflexivity].
        -- reflexivity.
        -- split; [cbn; lia|exact I].
        -- eexists. cell_ 4.
        -- left. split; [left; reflexivity|]. intros q H1 H2. cbn in H1. lia.
        -- split; [intros q H; cbn in H; assert (q = 3 \/ q = 4) as [-> | ->] by lia; [left; exists (VFloat (float_of_Z 7)); split; [cell_ 4|apply nt_float; discriminate]|right; eexists; cell_ 4]|].
           intros a b x y A B C X Y. cbn in A. assert (a = 3 /\ b = 4) as [-> ->] by lia; at_ 4 X; at_ 4 Y; unfold earlier; cbn; lia.
        -- left. split; [reflexivity|discriminate].
        -- intros q x H X. cbn in H. assert (q = 3 \/ q = 4) as [-> | ->] by lia; at_ 4 X; cbn; lia.
        -- cbn. lia.
        -- apply (se_given _ _ _ 5); [reflexivity|right]. split; [reflexivity|]. split; [lia|]. intros q H. assert (q = 5) as -> by lia. exists (VFloat (float_of_Z 8)). split; [cell_ 4|apply nt_float; discriminate].
      * apply con_more; [apply op_months with 1; [reflexivity|later]|constructor].
      * eexists. split; [reflexivity|]. reflexivity.
      * repeat (apply Forall_cons; [split; [apply valid_real; reflexivity|cbn; lia]|]); apply Forall_nil.
      * cbn. split; [lia|]. split; [lia|discriminate].
      * apply name_iff. vm_compute. reflexivity.
      * apply (vo_rows _ _ _ _ [Some (mkdt 2000 1 1 0); None; Some (mkdt 2000 2 1 0)] [VFloat (float_of_Z 7); day 2000 2 1; VFloat (float_of_Z 8)] [VStr (T "NA")]); [reflexivity|reflexivity|intros _ [E|[]]; discriminate| | | | | | |].
        -- repeat constructor.
        -- eexists; eexists; split; reflexivity.
        -- intros k x K. destruct k as [|[|[|k]]]; cbn in K; try discriminate; [| |destruct k; discriminate]; injection K as <-; cell_ 4.
        -- intros k K. destruct k as [|[|[|k]]]; cbn in K; try discriminate; [|destruct k; discriminate]. exists (VFloat (float_of_Z 7)). split; [cell_ 4|apply nt_float; discriminate].
        -- discriminate.
        -- named_ 1 4. intros k v K. destruct k as [|[|[|k]]]; cbn in K; [| | |destruct k; discriminate]; injection K as <-; reflexivity.
        -- unfold three_quarters; cbn [map]. apply be_date; [float_|]. apply be_blank; [discriminate|]. apply be_date; [float_|constructor].
    + constructor; cbn [tb_freq tb_dates tb_values tb_reach tb_name].
      * split; [cbn; tauto|reflexivity].
      * exists 9. split; [|reflexivity]. constructor.
        -- split; [reflexivity|]. exists (T "A6"), 6, 1. split; [reflexivity|apply cell_named_iff; reflexivity].
        -- reflexivity.
        -- split; [cbn; lia|exact I].
        -- eexists. cell_ 1.
        -- right. intros q H. cbn in H. assert (q = 7 \/ q = 8 \/ q = 9) as [-> | [-> | ->]] by lia; eexists; cell_ 1.
        -- split; [intros q H; cbn in H; right; assert (q = 7 \/ q = 8 \/ q = 9) as [-> | [-> | ->]] by lia; eexists; cell_ 1|].
           intros a b x y A B C X Y. cbn in A. assert (a = 7 \/ a = 8 \/ a = 9) as [-> | [-> | ->]] by lia; assert (b = 8 \/ b = 9) as [-> | ->] by lia; try lia; at_ 1 X; at_ 1 Y; unfold earlier; cbn; lia.
        -- left. split; [reflexivity|discriminate].
        -- intros q x H X. cbn in H. assert (q = 7 \/ q = 8 \/ q = 9) as [-> | [-> | ->]] by lia; at_ 1 X; cbn; lia.
        -- cbn. lia.
        -- apply se_blank; [reflexivity|reflexivity|cbn; lia| |intros [E|E]; discriminate]. exists VNone. split; [cell_ 1|constructor].
      * exact QS.
      * eexists. split; [reflexivity|]. cbn. tauto.
      * exact YS.
      * cbn. split; [lia|]. split; [lia|discriminate].
      * apply name_iff. vm_compute. reflexivity.
      * apply (vo_rows _ _ _ _ (map Some three_quarters) [VInt 4; VInt 5; VInt 6] [VStr (T "NA")]); [reflexivity|reflexivity|intros _ [E|[]]; discriminate| | | | | | |].
        -- repeat constructor.
        -- eexists; eexists; split; reflexivity.
        -- intros k x K. destruct k as [|[|[|k]]]; cbn in K; [| | |destruct k; discriminate]; injection K as <-; cell_ 1.
        -- intros k K. destruct k as [|[|[|k]]]; cbn in K; try discriminate. destruct k; discriminate.
        -- intros _ N. cbn in N. intuition discriminate.
        -- named_ 6 2. intros k v K. destruct k as [|[|[|k]]]; cbn in K; [| | |destruct k; discriminate]; injection K as <-; reflexivity.
        -- unfold three_quarters; cbn [map]. apply be_date; [number_|]. apply be_date; [number_|]. apply be_date; [number_|constructor].
  - intros i j s s' tb tb' A B C D E F. unfold three_series, three_tables in *. 
    destruct i as [|[|[|i]]]; cbn [nth_error] in A, B; try (destruct i; discriminate); inversion A; inversion B; subst;
    destruct j as [|[|[|j]]]; cbn [nth_error] in C, D; try (destruct j; discriminate); inversion C; inversion D; subst; try reflexivity; discriminate.
  - vm_compute. repeat split.
Qed.

(** In rows the ends are to be given: cleaning the dates of the first table
    looks at the column after the last one, and the second table then goes up
    to it. Each request is answered by itself, both together are not. *)
Definition two_rows : worksheet := sheet_of (T "Q")
  [[VStr (T "Quarter"); day 2000 1 1; day 2000 4 1; day 2000 7 1];
   [VStr (T "exports"); VInt 1; VInt 2; VInt 3];
   [VStr (T "Quarter"); day 2001 1 1; day 2001 4 1; day 2001 7 1];
   [VStr (T "imports"); VInt 4; VInt 5; VInt 6]].
Definition rows_params (headers times : list string) (ends : pyval) : dict :=
  [ (pname "alignment", VStr (pname "horizontal")); (pname "headers_coord", VList (map (fun h => VStr (pname h)) headers));
    (pname "time_header_coord", VList (map (fun h => VStr (pname h)) times)); (pname "data_starts", VInt 2); (pname "data_ends", ends);
    (pname "frequency", VStr (pname "Q")); (pname "continuity", VBool true); (pname "blank_rows", VBool false);
    (pname "missings", VBool true); (pname "missing_value", VStr (pname "NA")); (pname "time_composed", VBool false); (pname "time_alignment", VInt 0) ].
Theorem C72_rows_refuted : exists w d1 d2 d s1 s2,
  for_series (object d1) [s1] /\ for_series (object d2) [s2] /\ for_series (object d) [s1; s2] /\
  is_complete (object d1) = Ok true /\ is_complete (object d2) = Ok true /\ is_complete (object d) = Ok true /\
  (exists a name k, answer w d1 = Ok (DF a, name, k)) /\ (exists a name k, answer w d2 = Ok (DF a, name, k)) /\
  answer w d = Err EType.
Proof.
  exists two_rows, (rows_params ["A2"] ["A1"] VNone)%string, (rows_params ["A4"] ["A3"] VNone)%string, (rows_params ["A2"; "A4"] ["A1"; "A3"] VNone)%string.
  exists (mksp Horiz VNone (T "A2") VNone VNone 2 None true false true (VList [VStr (T "NA")]) 0 false (ThStr (T "A1")) false (T "Q")).
  exists (mksp Horiz VNone (T "A4") VNone VNone 2 None true false true (VList [VStr (T "NA")]) 0 false (ThStr (T "A3")) false (T "Q")).
  assert (L : forall d n, (forall k, In k PARAM_NAMES -> match dgetN k d with VList l => Nat.eqb (List.length l) n | _ => false end = true) ->
    forall k, In k PARAM_NAMES -> exists l, dgetN k d = VList l /\ List.length l = n).
  { intros d n H k K. specialize (H k K). destruct (dgetN k d); try discriminate. eexists. split; [reflexivity|]. apply Nat.eqb_eq. exact H. }
  assert (A : forall d n, forallb (fun k => match dgetN k d with VList l => Nat.eqb (List.length l) n | _ => false end) PARAM_NAMES = true ->
    forall k, In k PARAM_NAMES -> exists l, dgetN k d = VList l /\ List.length l = n).
  { intros d n H. apply L. apply forallb_forall. exact H. }
  split; [|split; [|split]].
  1,2: split; [discriminate|split; [apply A; vm_compute; reflexivity|]]; intros [|[|i]] s H; cbn in H; try discriminate; inversion H; subst; vm_compute; reflexivity.
  1: split; [discriminate|split; [apply A; vm_compute; reflexivity|]]; intros [|[|[|i]]] s H; cbn in H; try discriminate; inversion H; subst; vm_compute; reflexivity.
  do 3 (split; [vm_compute; reflexivity|]). split; [|split]; [do 3 eexists; vm_compute; reflexivity|do 3 eexists; vm_compute; reflexivity|vm_compute; reflexivity].
Qed.
Print Assumptions C72_rows_refuted.
(** with the ends both are answered *)
Example C72_rows_case : match answer two_rows (rows_params ["A2"; "A4"] ["A1"; "A3"] (VInt 4))%string with
  | Ok (DL [DF a; DF b], _, _) => df_cols a = [T "exports"] /\ df_data a = [map float_of_Z [1; 2; 3]] /\ df_cols b = [T "imports"] /\ df_data b = [map float_of_Z [4; 5; 6]]
  | _ => False
  end.
Proof. vm_compute. repeat split. Qed.
