(** Property C87: one number of the sheet. *)
From Verif Require Import Base BaseFacts Cal CalFacts SpecCal Coord SpecCoord SpecCoordFacts CoordFacts XlMethods Params ParseTime TimeIndex GetData PeriodRange DataFrame Scrape Xlseries
  SpecParams ParamsProofs3 SpecAttempts SpecTime TimeFacts SpecData DataFacts DataProofs SpecFrames SpecScrape SpecEnd SpecReach SpecSelect SpecNaming SpecValue ValueProofs2
  PropsParams PropsScrape PropsTime PropsEnd PropsTurn PropsSelect PropsNaming Demo.
Local Open Scope Z_scope.

(** ** C87 Another number in a cell of the values changes that value, and nothing else *)

(** Two sheets that differ in one number, which is no header and not in the row
    or column of a time index: both calls raise the same exception, or both
    succeed, with the same dates and the same columns but for one value in the
    columns of the series the cell is on. *)
Theorem C87_one_value e uni json st wb u q name i st' wb' u' q' name' i' n p safe preserve r c x x' on :
  wb_ok st wb -> in_store st u -> resolves uni strip (names_of st wb) q name -> first_such (fun i => title (sheet st i) = name) wb i -> object_of json st u p ->
  wb_ok st' wb' -> in_store st' u' -> resolves uni strip (names_of st' wb') q' name' -> first_such (fun i => title (sheet st' i) = name') wb' i' -> object_of json st' u' p ->
  (0 < n)%nat -> filled n p -> just_a_value p r c -> (forall j, on_series p j r c -> In j on) -> in_sheet (sheet st i) r c -> differ_at r c (sheet st i) (sheet st' i') ->
  number (cell (sheet st i) r c) x -> number (cell (sheet st' i') r c) x' ->
  match answered (snd (get_data_frames e uni json st wb u q safe preserve)), answered (snd (get_data_frames e uni json st' wb' u' q' safe preserve)) with
  | Ok f, Ok f' => same_but x x' (List.length on) f f'
  | Err z, Err z' => z' = z
  | _, _ => False
  end.
Proof.
  intros WB IS RES FS OB WB' IS' RES' FS' OB' N F JV HOT I D NU NU'.
  pose proof (c87 e uni json st wb u q name i st' wb' u' q' name' i' n p safe preserve r c x x' on WB IS RES FS OB WB' IS' RES' FS' OB' N F JV HOT I D NU NU') as H.
  destruct (answered _), (answered _); cbn in H; auto.
Qed.
Print Assumptions C87_one_value.

(** When the cell is on no series the frames are the same. *)
Theorem C87_no_series e uni json st wb u q name i st' wb' u' q' name' i' n p safe preserve r c x x' :
  wb_ok st wb -> in_store st u -> resolves uni strip (names_of st wb) q name -> first_such (fun i => title (sheet st i) = name) wb i -> object_of json st u p ->
  wb_ok st' wb' -> in_store st' u' -> resolves uni strip (names_of st' wb') q' name' -> first_such (fun i => title (sheet st' i) = name') wb' i' -> object_of json st' u' p ->
  (0 < n)%nat -> filled n p -> just_a_value p r c -> (forall j, ~ on_series p j r c) -> in_sheet (sheet st i) r c -> differ_at r c (sheet st i) (sheet st' i') ->
  number (cell (sheet st i) r c) x -> number (cell (sheet st' i') r c) x' ->
  match answered (snd (get_data_frames e uni json st wb u q safe preserve)), answered (snd (get_data_frames e uni json st' wb' u' q' safe preserve)) with
  | Ok f, Ok f' => f' = f
  | Err z, Err z' => z' = z
  | _, _ => False
  end.
Proof.
  intros WB IS RES FS OB WB' IS' RES' FS' OB' N F JV HOT I D NU NU'.
  pose proof (C87_one_value e uni json st wb u q name i st' wb' u' q' name' i' n p safe preserve r c x x' [] WB IS RES FS OB WB' IS' RES' FS' OB' N F JV HOT I D NU NU') as H.
  destruct (answered _), (answered _); auto. apply (same_none _ _ _ _ H).
Qed.
Print Assumptions C87_no_series.

(** *** cases *)
Definition revised : worksheet := sheet_of (T "Q")
  [[VStr (T "x"); VStr (T " GDP "); VStr (T "CPI")];
   [day 2000 10 1; VInt 10; VInt 11];
   [day 2001 1 1; VStr (T "NA"); VFloat (float_of_Z 99)];
   [day 2001 4 1; VInt 30; VInt 13]].
Ltac says H := let l := fresh in let E := fresh in let N := fresh "N" in destruct H as (l & E & N); vm_compute in E; injection E as <-.
Example C87_case : let p := object (both "vertical" "B1" "C1") in
  filled 2 p /\ just_a_value p 3 3 /\ (forall j, on_series p j 3 3 -> In j [1%nat]) /\ in_sheet quarters_down 3 3 /\ differ_at 3 3 quarters_down revised /\
  number (cell quarters_down 3 3) (float_of_Z 12) /\ number (cell revised 3 3) (float_of_Z 99) /\
  match answer quarters_down (both "vertical" "B1" "C1"), answer revised (both "vertical" "B1" "C1") with
  | Ok (DF a, _, _), Ok (DF b, _, _) =>
      df_index b = df_index a /\ df_cols b = df_cols a /\ df_data a = [[float_of_Z 10; S754_nan; float_of_Z 30]; map float_of_Z [11; 12; 13]] /\
      df_data b = [[float_of_Z 10; S754_nan; float_of_Z 30]; map float_of_Z [11; 99; 13]]
  | _, _ => False
  end.
Proof.
  cbv zeta. set (p := object (both "vertical" "B1" "C1")). split; [filled_|].
  assert (NM : forall k t i, coordinate p k i t -> In k [pname "headers_coord"; pname "time_header_coord"; pname "composed_headers_coord"] ->
    (i < 2)%nat /\ ((k = pname "headers_coord" /\ t = nth i [pname "B1"; pname "C1"] []) \/ (k = pname "time_header_coord" /\ t = pname "A1"))).
  { intros k t i (v & SV & V) K. destruct K as [<-|[<-|[<-|[]]]]; says SV; destruct i as [|[|[|i]]]; cbn in N; try discriminate; injection N as <-;
      (destruct V as [V|(l & V & _)]; [|discriminate]); try discriminate; injection V as <-; (split; [lia|]); auto. }
  assert (LY : forall i al, (i < 2)%nat -> layout p i al -> al = Vert).
  { intros i al I [SV|E]; [|vm_compute in E; discriminate]. says SV. destruct i as [|[|i]]; [| |lia]; cbn in N; destruct al; auto; discriminate. }
  split; [split|split; [|split; [|split; [|split; [|split]]]]].
  - intros i t C N. destruct (NM _ _ _ C ltac:(cbn; auto)) as [I [[_ ->]|[X _]]]; [|discriminate]. apply cell_named_iff in N. destruct i as [|[|i]]; [| |lia]; vm_compute in N; discriminate.
  - intros i t C N. destruct (NM _ _ _ C ltac:(cbn; auto)) as [I [[X _]|[X _]]]; discriminate.
  - intros i t al pos C L (r & c & N & E1 & E2). destruct (NM _ _ _ C ltac:(cbn; auto)) as [I [[X _]|[_ ->]]]; [discriminate|]. apply cell_named_iff in N. rewrite (LY i al I L) in *. vm_compute in N. injection N as <- <-. cbn in E1. discriminate.
  - intros j (t & al & pos & C & L & r & c & N & E1 & E2). destruct (NM _ _ _ C ltac:(cbn; auto)) as [I [[_ ->]|[X _]]]; [|discriminate]. apply cell_named_iff in N. rewrite (LY j al I L) in *.
    destruct j as [|[|j]]; [| left; auto|lia]. vm_compute in N. injection N as <- <-. cbn in E1. discriminate.
  - split; split; cbn; lia.
  - split; [split; reflexivity|]. intros i j H. unfold quarters_down, revised, sheet_of. cbn [cell]. destruct ((1 <=? i) && (1 <=? j)) eqn:B; [|reflexivity].
    destruct (Z.eq_dec i 3) as [->|NI]; [|destruct (Z.to_nat (i - 1)) as [|[|[|n]]] eqn:Z0; try reflexivity; lia].
    cbn. destruct (Z.to_nat (j - 1)) as [|[|[|n]]] eqn:Z0; try reflexivity. exfalso. apply H. f_equal. lia.
  - split; [right; eexists; reflexivity|vm_compute; reflexivity].
  - split; [left; eexists; reflexivity|vm_compute; reflexivity].
  - vm_compute. repeat split; reflexivity.
Qed.
