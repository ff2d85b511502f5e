(** Property C82: a table further down the sheet. *)
From Verif Require Import Base BaseFacts Cal CalFacts SpecCal Coord SpecCoord CoordFacts SpecCoordFacts XlMethods Params ParseTime TimeIndex GetData PeriodRange DataFrame Scrape Xlseries
  SpecParams ParamsProofs3 SpecAttempts SpecTime TimeFacts SpecData DataFacts DataProofs SpecFrames SpecScrape SpecEnd SpecReach SpecMove MoveProofs3
  PropsParams PropsScrape PropsTime PropsEnd PropsTurn Demo.
Local Open Scope Z_scope.

(** ** C82 Rows put above the tables do not change the answer *)

(** Two calls, the second one on a sheet with [d] more rows above and with the
    coordinates, and for series in columns the first and last rows, moved
    accordingly: they hand back the same frames or raise the same exception,
    whatever the new rows hold and whatever the parameters leave out. *)
Theorem C82_same_answer al d e uni json st wb u q name i p st' wb' u' q' name' i' p' safe preserve : 0 <= d ->
  wb_ok st wb -> in_store st u -> resolves uni strip (names_of st wb) q name -> first_such (fun i => title (sheet st i) = name) wb i -> object_of json st u p ->
  wb_ok st' wb' -> in_store st' u' -> resolves uni strip (names_of st' wb') q' name' -> first_such (fun i => title (sheet st' i) = name') wb' i' -> object_of json st' u' p' ->
  moved_down d (sheet st i) (sheet st' i') -> moved_params al d p p' -> dget (pname "alignment") p <> None -> valid_offsets p ->
  answered (snd (get_data_frames e uni json st' wb' u' q' safe preserve)) = answered (snd (get_data_frames e uni json st wb u q safe preserve)).
Proof. exact (c82 al d e uni json st wb u q name i p st' wb' u' q' name' i' p' safe preserve). Qed.
Print Assumptions C82_same_answer.

(** *** cases *)
Lemma named_moved d t t' r c : 0 <= d -> 1 <= r -> 1 <= c <= 18278 -> t = coord_text r c -> t' = coord_text (r + d) c -> moved_name d t t'.
Proof.
  intros D R C -> ->. destruct (coord_text_canonical r c) as [A1 A2]; [lia|lia|]. destruct (coord_text_canonical (r + d) c) as [B1 B2]; [lia|lia|]. exists r, c. auto.
Qed.
Ltac down_ r c := apply (named_moved _ _ _ r c); [lia|lia|lia|reflexivity|reflexivity].
Ltac moved_objects := unfold moved_params;
  repeat match goal with |- Forall2 _ (_ :: _) _ => apply Forall2_cons | |- Forall2 _ [] _ => apply Forall2_nil end;
  (split; [reflexivity|]); cbn [fst snd];
  first [exact (mp_layout _ _ _ 2 eq_refl)
        |apply mp_same; [vm_compute; discriminate|vm_compute; intuition discriminate|first [left; reflexivity|right; vm_compute; intuition discriminate]]
        |idtac].

(** two columns under a title and a date that do not belong to them *)
Definition lower : worksheet := sheet_of (T "Annex")
  [[VStr (T "Table 7"); day 1999 1 1]; [];
   [VNone; VInt 99];
   [VStr (T "x"); VStr (T " GDP "); VStr (T "CPI")];
   [day 2000 10 1; VInt 10; VInt 11];
   [day 2001 1 1; VStr (T "NA"); VInt 12];
   [day 2001 4 1; VInt 30; VInt 13]].
(** continuity and the offset of the dates are left out *)
Definition sought (h1 h2 th : string) (start : Z) : dict :=
  [ (pname "alignment", VStr (pname "vertical")); (pname "headers_coord", VList [VStr (pname h1); VStr (pname h2)]); (pname "time_header_coord", VStr (pname th));
    (pname "data_starts", VInt start); (pname "frequency", VStr (pname "Q")); (pname "blank_rows", VBool false);
    (pname "missings", VBool true); (pname "missing_value", VStr (pname "NA")); (pname "time_composed", VBool false) ].
Example C82_case :
  let p := object (sought "B1" "C1" "A1" 2) in let p' := object (sought "B4" "C4" "A4" 5) in
  make_params no_json (PDict (sought "B1" "C1" "A1" 2)) = Ok p /\ make_params no_json (PDict (sought "B4" "C4" "A4" 5)) = Ok p' /\
  moved_down 3 quarters_down lower /\ moved_params Vert 3 p p' /\ dget (pname "alignment") p <> None /\ valid_offsets p /\ is_complete p = Ok false /\
  match answer lower (sought "B4" "C4" "A4" 5) with
  | Ok (DF d, name, _) => pr_dates (df_index d) = [mkdt 2000 10 1 0; mkdt 2001 1 1 0; mkdt 2001 4 1 0] /\ df_cols d = [T "GDP"; T "CPI"] /\
      df_data d = [[float_of_Z 10; S754_nan; float_of_Z 30]; map float_of_Z [11; 12; 13]]
  | _ => False
  end.
Proof.
  cbv zeta. split; [vm_compute; reflexivity|]. split; [vm_compute; reflexivity|]. split; [|split; [|split; [|split; [|split]]]].
  - split; [vm_compute; discriminate|]. split; [reflexivity|]. split; [reflexivity|]. intros r c R. unfold quarters_down, lower, sheet_of. cbn [cell].
    replace (1 <=? r + 3) with (1 <=? r) by lia. destruct ((1 <=? r) && (1 <=? c)); [|reflexivity].
    replace (Z.to_nat (r + 3 - 1)) with (3 + Z.to_nat (r - 1))%nat by lia. reflexivity.
  - assert (E : object (sought "B1" "C1" "A1" 2) = ltac:(let v := eval vm_compute in (object (sought "B1" "C1" "A1" 2)) in exact v)) by (vm_compute; reflexivity).
    assert (E' : object (sought "B4" "C4" "A4" 5) = ltac:(let v := eval vm_compute in (object (sought "B4" "C4" "A4" 5)) in exact v)) by (vm_compute; reflexivity).
    rewrite E, E'. moved_objects.
    + apply mp_coords; [left; reflexivity|]. constructor; [apply me_name; down_ 1 2|constructor; [apply me_name; down_ 1 3|constructor]].
    + apply mp_coords; [right; left; reflexivity|]. repeat constructor.
    + apply mp_starts; [reflexivity|reflexivity|]. constructor; [apply (mr_row 3 2 2); lia|constructor; [apply (mr_row 3 2 2); lia|constructor]].
    + apply mp_ends; [reflexivity|reflexivity|]. repeat constructor.
    + apply mp_coords; [right; right; left; reflexivity|]. constructor; [apply me_name; down_ 1 1|constructor; [apply me_name; down_ 1 1|constructor]].
  - vm_compute. discriminate.
  - intros l L. vm_compute in L. first [discriminate L|injection L as <-; repeat constructor; cbn; tauto].
  - vm_compute. reflexivity.
  - vm_compute. repeat split.
Qed.

(** rows: the columns where they start and end stay *)
Definition deeper : worksheet := sheet_of (T "Rows")
  [[VStr (T "Quarterly")]; [VNone; day 1990 1 1; VInt 3];
   [VStr (T "x"); day 2000 10 1; day 2001 1 1; day 2001 4 1];
   [VStr (T " GDP "); VInt 10; VStr (T "NA"); VInt 30];
   [VStr (T "CPI"); VInt 11; VInt 12; VInt 13]].
Definition both_at (h1 h2 th : string) : dict := map (fun kv => if text_eqb (fst kv) (pname "time_header_coord") then (fst kv, VStr (pname th)) else kv) (both "horizontal" h1 h2).
Example C82_rows_case :
  let p := object (both_at "A2" "A3" "A1") in let p' := object (both_at "A4" "A5" "A3") in
  make_params no_json (PDict (both_at "A2" "A3" "A1")) = Ok p /\ make_params no_json (PDict (both_at "A4" "A5" "A3")) = Ok p' /\
  moved_down 2 quarters deeper /\ moved_params Horiz 2 p p' /\ dget (pname "alignment") p <> None /\ valid_offsets p /\
  match answer deeper (both_at "A4" "A5" "A3") with
  | Ok (DF d, name, _) => pr_dates (df_index d) = [mkdt 2000 10 1 0; mkdt 2001 1 1 0; mkdt 2001 4 1 0] /\ df_cols d = [T "GDP"; T "CPI"]
  | _ => False
  end.
Proof.
  cbv zeta. split; [vm_compute; reflexivity|]. split; [vm_compute; reflexivity|]. split; [|split; [|split; [|split]]].
  - split; [vm_compute; discriminate|]. split; [reflexivity|]. split; [reflexivity|]. intros r c R. unfold quarters, deeper, sheet_of. cbn [cell].
    replace (1 <=? r + 2) with (1 <=? r) by lia. destruct ((1 <=? r) && (1 <=? c)); [|reflexivity].
    replace (Z.to_nat (r + 2 - 1)) with (2 + Z.to_nat (r - 1))%nat by lia. reflexivity.
  - assert (E : object (both_at "A2" "A3" "A1") = ltac:(let v := eval vm_compute in (object (both_at "A2" "A3" "A1")) in exact v)) by (vm_compute; reflexivity).
    assert (E' : object (both_at "A4" "A5" "A3") = ltac:(let v := eval vm_compute in (object (both_at "A4" "A5" "A3")) in exact v)) by (vm_compute; reflexivity).
    rewrite E, E'. moved_objects.
    + apply mp_coords; [left; reflexivity|]. constructor; [apply me_name; down_ 2 1|constructor; [apply me_name; down_ 3 1|constructor]].
    + apply mp_coords; [right; left; reflexivity|]. repeat constructor.
    + apply mp_coords; [right; right; left; reflexivity|]. constructor; [apply me_name; down_ 1 1|constructor; [apply me_name; down_ 1 1|constructor]].
  - vm_compute. discriminate.
  - intros l L. vm_compute in L. first [discriminate L|injection L as <-; repeat constructor; cbn; tauto].
  - vm_compute. repeat split.
Qed.

(** Why series in columns have to start below row 1: the second series starts
    on row 1, so its dates, one row above its values, would be on row 0, where
    there is no cell. *)
Definition hanging (h1 h2 th : string) (a b : Z) : dict :=
  [ (pname "alignment", VStr (pname "vertical")); (pname "headers_coord", VList [VStr (pname h1); VStr (pname h2)]); (pname "time_header_coord", VStr (pname th));
    (pname "data_starts", VList [VInt a; VInt b]); (pname "data_ends", VList [VInt (a + 2); VInt (b + 2)]); (pname "time_alignment", VInt (-1)); (pname "frequency", VStr (pname "M"));
    (pname "continuity", VBool true); (pname "blank_rows", VBool false); (pname "missings", VBool false); (pname "time_composed", VBool false) ].
Definition footed : worksheet := sheet_of (T "S")
  [[day 2000 2 1; VStr (T "a"); VInt 10]; [day 2000 3 1; VInt 5; VInt 20]; [day 2000 4 1; VInt 6; VInt 30]; [day 2000 5 1; VInt 7; VStr (T "c")]].
Definition footed_down : worksheet := sheet_of (T "S")
  [[day 2000 1 1]; [day 2000 2 1; VStr (T "a"); VInt 10]; [day 2000 3 1; VInt 5; VInt 20]; [day 2000 4 1; VInt 6; VInt 30]; [day 2000 5 1; VInt 7; VStr (T "c")]].
Example C82_first_row :
  moved_down 1 footed footed_down /\
  answered (answer footed (hanging "B1" "C4" "A1" 2 1)) = Err EValue /\
  exists x, answered (answer footed_down (hanging "B2" "C5" "A2" 3 2)) = Ok x.
Proof.
  split; [|split; [vm_compute; reflexivity|eexists; vm_compute; reflexivity]].
  split; [vm_compute; discriminate|]. split; [reflexivity|]. split; [reflexivity|]. intros r c R. unfold footed, footed_down, sheet_of. cbn [cell].
  replace (1 <=? r + 1) with (1 <=? r) by lia. destruct ((1 <=? r) && (1 <=? c)); [|reflexivity].
  replace (Z.to_nat (r + 1 - 1)) with (1 + Z.to_nat (r - 1))%nat by lia. reflexivity.
Qed.
