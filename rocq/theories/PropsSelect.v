(** Property C83: asking for some of the series of a table. *)
From Verif Require Import Base BaseFacts Cal CalFacts SpecCal Coord SpecCoord CoordFacts XlMethods Params ParseTime TimeIndex GetData PeriodRange DataFrame Scrape Xlseries
  SpecParams ParamsProofs3 SpecAttempts SpecTime TimeFacts SpecData DataFacts DataProofs SpecFrames SpecScrape SpecEnd SpecReach SpecSelect SelectProofs4
  PropsParams PropsScrape PropsTime PropsEnd PropsTurn Demo.
Local Open Scope Z_scope.

(** ** C83 Leaving series out, or asking for them in another order, changes nothing in the others *)

(** A call for series that share a time index succeeds: then a call for any of
    them, in any order, succeeds too.  The index is the same, each column is
    the one it had, and the names are made of the same ones. *)
Theorem C83_pick e uni json st wb q safe preserve name i n p u x js u' p' :
  wb_ok st wb -> resolves uni strip (names_of st wb) q name -> first_such (fun i => title (sheet st i) = name) wb i ->
  (0 < n)%nat -> sixteen p -> one_index n p -> in_store st u -> object_of json st u p ->
  js <> [] -> sixteen p' -> series_at js p p' -> in_store st u' -> object_of json st u' p' ->
  answered (snd (get_data_frames e uni json st wb u q safe preserve)) = Ok x ->
  exists d d' names names', x = DF d /\ answered (snd (get_data_frames e uni json st wb u' q safe preserve)) = Ok (DF d') /\
    df_index d' = df_index d /\ List.length (df_data d) = n /\ picked js (df_data d) (df_data d') /\
    column_names names (df_cols d) /\ picked js names names' /\ column_names names' (df_cols d').
Proof.
  intros WB RES FS N X1 X2 IS OB NE X3 SA IS' OB' H.
  exact (c83_pick e uni json st wb q safe preserve name i WB RES FS n p N X1 X2 u IS OB x js u' p' H NE X3 SA IS' OB').
Qed.
Print Assumptions C83_pick.

(** Conversely, when the call for all of them raises an exception, the call for
    one of them alone raises it, or two of them alone have different indexes
    (the days, and the working days, of daily data). *)
Theorem C83_raises e uni json st wb q safe preserve name i n p u x us ps :
  wb_ok st wb -> resolves uni strip (names_of st wb) q name -> first_such (fun i => title (sheet st i) = name) wb i ->
  (0 < n)%nat -> sixteen p -> one_index n p -> in_store st u -> object_of json st u p ->
  (forall j, (j < n)%nat -> sixteen (ps j) /\ series_at [j] p (ps j) /\ in_store st (us j) /\ object_of json st (us j) (ps j)) ->
  answered (snd (get_data_frames e uni json st wb u q safe preserve)) = Err x ->
  (exists j, (j < n)%nat /\ answered (snd (get_data_frames e uni json st wb (us j) q safe preserve)) = Err x) \/
  (exists j k d d', (j < n)%nat /\ (k < n)%nat /\ answered (snd (get_data_frames e uni json st wb (us j) q safe preserve)) = Ok (DF d) /\
    answered (snd (get_data_frames e uni json st wb (us k) q safe preserve)) = Ok (DF d') /\ df_index d <> df_index d').
Proof.
  intros WB RES FS N X1 X2 IS OB A H.
  exact (c83_raises e uni json st wb q safe preserve name i WB RES FS n p N X1 X2 u IS OB x us ps H A).
Qed.
Print Assumptions C83_raises.

(** *** cases *)
Ltac picks_ := intros k K; cbn in K;
  repeat (destruct K as [<-|K]; [eexists _, _; split; [vm_compute; reflexivity|]; split; [vm_compute; reflexivity|]; repeat (apply Forall2_cons; [reflexivity|]); apply Forall2_nil|]); destruct K.
Ltac names_ := split; [vm_compute; nodup|]; let k := fresh in intros k; vm_compute; tauto.
Ltac shared_ := split; [intros k K; cbn in K; repeat (destruct K as [<-|K]; [eexists; vm_compute; reflexivity|]); destruct K|];
  split; [intros k K; cbn in K; repeat (destruct K as [<-|K]; [eexists; split; [vm_compute; reflexivity|reflexivity]|]); destruct K|];
  split; [let L := fresh in intros l L; vm_compute in L; injection L as <-; repeat (apply Forall_cons; [eexists; reflexivity|]); apply Forall_nil|eexists; vm_compute; reflexivity].

(** the two series of a table, in the other order and the second one alone *)
Definition second : dict := map (fun kv => if text_eqb (fst kv) (pname "headers_coord") then (fst kv, VStr (pname "C1")) else kv) (both "vertical" "B1" "C1").
Example C83_case :
  let p := object (both "vertical" "B1" "C1") in
  sixteen p /\ one_index 2 p /\
  sixteen (object (both "vertical" "C1" "B1")) /\ series_at [1; 0]%nat p (object (both "vertical" "C1" "B1")) /\
  sixteen (object second) /\ series_at [1]%nat p (object second) /\
  match answer quarters_down (both "vertical" "B1" "C1"), answer quarters_down (both "vertical" "C1" "B1"), answer quarters_down second with
  | Ok (DF a, _, _), Ok (DF b, _, _), Ok (DF c, _, _) =>
      df_cols a = [T "GDP"; T "CPI"] /\ df_data a = [[float_of_Z 10; S754_nan; float_of_Z 30]; map float_of_Z [11; 12; 13]] /\
      df_cols b = [T "CPI"; T "GDP"] /\ df_data b = [map float_of_Z [11; 12; 13]; [float_of_Z 10; S754_nan; float_of_Z 30]] /\
      df_cols c = [T "CPI"] /\ df_data c = [map float_of_Z [11; 12; 13]] /\ df_index b = df_index a /\ df_index c = df_index a
  | _, _, _ => False
  end.
Proof.
  cbv zeta. split; [names_|]. split; [shared_|]. split; [names_|]. split; [picks_|]. split; [names_|]. split; [picks_|]. vm_compute. repeat split.
Qed.
(** a value that is not a number: the call for both raises what the call for it alone does *)
Definition unnamed : worksheet := sheet_of (T "S")
  [[VStr (T "x"); VStr (T "GDP"); VStr (T "CPI")]; [day 2000 10 1; VInt 10; VStr (T "pending")]; [day 2001 1 1; VInt 20; VInt 12]; [day 2001 4 1; VInt 30; VInt 13]].
Example C83_raises_case : exists x y, answered (answer unnamed (both "vertical" "B1" "C1")) = Err x /\ answered (answer unnamed second) = Err x /\
  answered (answer unnamed (map (fun kv => if text_eqb (fst kv) (pname "headers_coord") then (fst kv, VStr (pname "B1")) else kv) second)) = Ok y.
Proof. eexists _, _. split; [vm_compute; reflexivity|]. split; vm_compute; reflexivity. Qed.

(** The time index has to be the same in everything.  It is cleaned once for
    each time header, with the parameters of the first series that has it:
    when another series says of it that its dates are not composed, it fails
    when asked for alone or first, and not when asked for second. *)
Definition annual : worksheet := sheet_of (T "S") [[VNone; VStr (T "a"); VStr (T "b")]; [VInt 2000; VInt 1; VInt 3]; [VInt 2001; VInt 2; VInt 4]; [VInt 2002; VInt 2; VInt 4]].
Definition yearly (l : list (string * bool)) : dict :=
  [ (pname "alignment", VStr (pname "vertical")); (pname "headers_coord", VList (map (fun x => VStr (pname (fst x))) l)); (pname "time_header_coord", VStr (pname "A1"));
    (pname "data_starts", VInt 2); (pname "frequency", VStr (pname "A")); (pname "continuity", VBool true); (pname "blank_rows", VBool false);
    (pname "missings", VBool false); (pname "time_composed", VList (map (fun x => VBool (snd x)) l)) ]%string.
Theorem C83_own_parameters_refuted : exists w d d1 d2 x y z,
  sixteen (object d) /\ sixteen (object d1) /\ sixteen (object d2) /\ series_at [1]%nat (object d) (object d1) /\ series_at [1; 0]%nat (object d) (object d2) /\
  answered (answer w d) = Ok x /\ answered (answer w d1) = Err y /\ answered (answer w d2) = Err z.
Proof.
  exists annual, (yearly [("B1", true); ("C1", false)]%string), (yearly [("C1", false)]%string), (yearly [("C1", false); ("B1", true)]%string). eexists _, _, _.
  split; [names_|]. split; [names_|]. split; [names_|]. split; [picks_|]. split; [picks_|]. split; [vm_compute; reflexivity|]. split; vm_compute; reflexivity.
Qed.
Print Assumptions C83_own_parameters_refuted.
