(** Property C84: where the columns of a table stand. *)
From Verif Require Import Base BaseFacts Cal CalFacts SpecCal Coord SpecCoord CoordFacts SpecCoordFacts XlMethods Params ParseTime TimeIndex GetData PeriodRange DataFrame Scrape Xlseries
  SpecParams ParamsProofs3 SpecAttempts SpecTime TimeFacts SpecData DataFacts DataProofs SpecFrames SpecScrape SpecEnd SpecReach SpecMove SpecSwap SwapProofs3
  PropsParams PropsScrape PropsTime PropsEnd PropsTurn PropsMove Demo.
Local Open Scope Z_scope.

(** ** C84 The order and the places of the columns do not matter *)

(** Two calls on sheets where the columns of the dates and of the series (the
    rows, if they are in rows) stand in different places, with any others
    between, before and after them, and with the coordinates changed
    accordingly: they hand back the same frames or raise the same exception,
    whatever the parameters leave out. *)
Theorem C84_same_answer al u e uni json st wb user q name i p st' wb' user' q' name' i' p' safe preserve : one_to_one u ->
  wb_ok st wb -> in_store st user -> resolves uni strip (names_of st wb) q name -> first_such (fun i => title (sheet st i) = name) wb i -> object_of json st user p ->
  wb_ok st' wb' -> in_store st' user' -> resolves uni strip (names_of st' wb') q' name' -> first_such (fun i => title (sheet st' i) = name') wb' i' -> object_of json st' user' p' ->
  rearranged al u (sheet st i) (sheet st' i') -> placed_params al u p p' -> dget (pname "alignment") p <> None ->
  answered (snd (get_data_frames e uni json st' wb' user' q' safe preserve)) = answered (snd (get_data_frames e uni json st wb user q safe preserve)).
Proof. exact (c84 al u e uni json st wb user q name i p st' wb' user' q' name' i' p' safe preserve). Qed.
Print Assumptions C84_same_answer.

(** *** cases *)
Lemma named_placed al u t t' r c r' c' : 1 <= r -> 1 <= c <= 18278 -> 1 <= r' -> 1 <= c' <= 18278 -> t = coord_text r c -> t' = coord_text r' c' ->
  match al with Vert => r' = r /\ u c c' | Horiz => c' = c /\ u r r' end -> placed_name al u t t'.
Proof.
  intros R C R' C' -> -> P. destruct (coord_text_canonical r c) as [A1 A2]; [lia|lia|]. destruct (coord_text_canonical r' c') as [B1 B2]; [lia|lia|]. exists r, c, r', c'. auto 10.
Qed.
(** columns 1, 2 and 3 go to 3, 4 and 1 *)
Definition goes (l l' : Z) : Prop := l = 1 /\ l' = 3 \/ l = 2 /\ l' = 4 \/ l = 3 /\ l' = 1.
Ltac place_ r c r' c' := apply pe_name; apply (named_placed _ _ _ _ r c r' c'); [lia|lia|lia|lia|reflexivity|reflexivity|split; [reflexivity|cbv beta; unfold goes; lia]].
Ltac placed_objects := unfold placed_params;
  repeat match goal with |- Forall2 _ (_ :: _) _ => apply Forall2_cons | |- Forall2 _ [] _ => apply Forall2_nil end;
  (split; [reflexivity|]); cbn [fst snd];
  first [exact (pp_layout _ _ _ 2 eq_refl)
        |apply pp_same; [vm_compute; discriminate|vm_compute; intuition discriminate]
        |idtac].

(** the dates between the two series, and a column of notes *)
Definition apart : worksheet := sheet_of (T "Apart")
  [[VStr (T "CPI"); VStr (T "Notes"); VStr (T "x"); VStr (T " GDP ")];
   [VInt 11; day 1999 1 1; day 2000 10 1; VInt 10];
   [VInt 12; VInt 7; day 2001 1 1; VStr (T "NA")];
   [VInt 13; VNone; day 2001 4 1; VInt 30]].
Example C84_case :
  let p := object (sought "B1" "C1" "A1" 2) in let p' := object (sought "D1" "A1" "C1" 2) in
  make_params no_json (PDict (sought "B1" "C1" "A1" 2)) = Ok p /\ make_params no_json (PDict (sought "D1" "A1" "C1" 2)) = Ok p' /\
  one_to_one goes /\ rearranged Vert goes quarters_down apart /\ placed_params Vert goes p p' /\ dget (pname "alignment") p <> None /\ is_complete p = Ok false /\
  match answer apart (sought "D1" "A1" "C1" 2) with
  | Ok (DF d, name, _) => pr_dates (df_index d) = [mkdt 2000 10 1 0; mkdt 2001 1 1 0; mkdt 2001 4 1 0] /\ df_cols d = [T "GDP"; T "CPI"] /\
      df_data d = [[float_of_Z 10; S754_nan; float_of_Z 30]; map float_of_Z [11; 12; 13]]
  | _ => False
  end.
Proof.
  cbv zeta. split; [vm_compute; reflexivity|]. split; [vm_compute; reflexivity|]. split; [unfold goes; intros a a' b b'; lia|]. split; [|split; [|split; [|split]]].
  - constructor.
    + reflexivity.
    + intros l l' G. change (lines_of Vert quarters_down) with 3. change (lines_of Vert apart) with 4. unfold goes in G. lia.
    + intros l l' q G. unfold at_line, quarters_down, apart, sheet_of. cbn [cell].
      destruct G as [[-> ->]|[[-> ->]|[-> ->]]]; (destruct (1 <=? q); [|reflexivity]); cbn [andb]; destruct (Z.to_nat (q - 1)) as [|[|[|[|n]]]]; try reflexivity; destruct n; reflexivity.
  - assert (E : object (sought "B1" "C1" "A1" 2) = ltac:(let v := eval vm_compute in (object (sought "B1" "C1" "A1" 2)) in exact v)) by (vm_compute; reflexivity).
    assert (E' : object (sought "D1" "A1" "C1" 2) = ltac:(let v := eval vm_compute in (object (sought "D1" "A1" "C1" 2)) in exact v)) by (vm_compute; reflexivity).
    rewrite E, E'. placed_objects.
    + apply pp_coords; [left; reflexivity|]. constructor; [place_ 1 2 1 4|constructor; [place_ 1 3 1 1|constructor]].
    + apply pp_coords; [right; left; reflexivity|]. repeat constructor.
    + apply pp_coords; [right; right; left; reflexivity|]. constructor; [place_ 1 1 1 3|constructor; [place_ 1 1 1 3|constructor]].
  - vm_compute. discriminate.
  - vm_compute. reflexivity.
  - vm_compute. repeat split.
Qed.
(** rows: the dates below the series *)
Definition upside : worksheet := sheet_of (T "Rows")
  [[VStr (T "CPI"); VInt 11; VInt 12; VInt 13];
   [VStr (T " GDP "); VInt 10; VStr (T "NA"); VInt 30];
   [VStr (T "x"); day 2000 10 1; day 2001 1 1; day 2001 4 1]].
Example C84_rows_case :
  let p := object (both_at "A2" "A3" "A1") in let p' := object (both_at "A2" "A1" "A3") in
  make_params no_json (PDict (both_at "A2" "A1" "A3")) = Ok p' /\
  rearranged Horiz (fun l l' => 1 <= l <= 3 /\ l' = 4 - l) quarters upside /\ placed_params Horiz (fun l l' => 1 <= l <= 3 /\ l' = 4 - l) p p' /\
  match answer upside (both_at "A2" "A1" "A3") with
  | Ok (DF d, name, _) => pr_dates (df_index d) = [mkdt 2000 10 1 0; mkdt 2001 1 1 0; mkdt 2001 4 1 0] /\ df_cols d = [T "GDP"; T "CPI"]
  | _ => False
  end.
Proof.
  cbv zeta. split; [vm_compute; reflexivity|]. split; [|split].
  - constructor.
    + reflexivity.
    + intros l l' [G E]. change (lines_of Horiz quarters) with 3. change (lines_of Horiz upside) with 3. lia.
    + intros l l' q [G E]. subst l'. unfold at_line, quarters, upside, sheet_of. cbn [cell].
      assert (H : l = 1 \/ l = 2 \/ l = 3) by lia. destruct H as [H|[H|H]]; subst l; reflexivity.
  - assert (E : object (both_at "A2" "A3" "A1") = ltac:(let v := eval vm_compute in (object (both_at "A2" "A3" "A1")) in exact v)) by (vm_compute; reflexivity).
    assert (E' : object (both_at "A2" "A1" "A3") = ltac:(let v := eval vm_compute in (object (both_at "A2" "A1" "A3")) in exact v)) by (vm_compute; reflexivity).
    rewrite E, E'. placed_objects.
    + apply pp_coords; [left; reflexivity|]. constructor; [place_ 2 1 2 1|constructor; [place_ 3 1 1 1|constructor]].
    + apply pp_coords; [right; left; reflexivity|]. repeat constructor.
    + apply pp_coords; [right; right; left; reflexivity|]. constructor; [place_ 1 1 3 1|constructor; [place_ 1 1 3 1|constructor]].
  - vm_compute. repeat split.
Qed.
