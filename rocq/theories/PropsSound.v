(** Property C60: the numbers of an answer are in the sheet. *)
From Verif Require Import Base BaseFacts Cal SpecCal Coord SpecCoord SpecCoordFacts CoordFacts XlMethods Params ParseTime TimeIndex GetData PeriodRange DataFrame Scrape Xlseries
  SpecParams SpecData DataFacts SpecFrames SpecScrape SpecEnd SpecSound SoundProofs SoundCall PropsParams PropsScrape PropsEnd Demo.
From Coq Require Import Sorted.
Local Open Scope Z_scope.

(** ** C60 Nothing is made up *)

(** whatever the sheet and the parameters, complete or not, safe mode or not:
    the columns of every frame are of different series, in order, and each has
    values drawn from the cells beside the header of its series *)
Theorem C60_nothing_made_up e uni json st wb u q safe preserve st' out name pid p i fr :
  wb_ok st wb -> in_store st u -> object_of json st u p -> first_such (fun i => title (sheet st i) = name) wb i ->
  bounded (sheet st i) -> series_lists p ->
  get_data_frames e uni json st wb u q safe preserve = (st', Ok (out, name, pid)) -> frame_of out fr ->
  exists js, StronglySorted lt js /\ Forall2 (from_header p (sheet st i)) js (df_data fr).
Proof. exact (c60 e uni json st wb u q safe preserve st' out name pid p i fr). Qed.
Print Assumptions C60_nothing_made_up.

(** parameters given as a dictionary: the cells are in the column (or row) of a
    declared header, from data_starts on *)
Theorem C60_declared e uni json st wb q safe preserve st' out name pid i d hv cells starts fr :
  wb_ok st wb -> first_such (fun i => title (sheet st i) = name) wb i -> bounded (sheet st i) ->
  NoDup (map fst d) -> dget (pname "headers_coord") d = Some hv -> header_cells hv cells -> cells <> [] ->
  given_once (pname "data_starts") d (VInt starts) ->
  get_data_frames e uni json st wb (UInput (PDict d)) q safe preserve = (st', Ok (out, name, pid)) -> frame_of out fr ->
  Forall (fun vs => exists rc al last holes, In rc cells /\
    (given_once (pname "alignment") d (VStr (pname "vertical")) -> al = Vert) /\
    (given_once (pname "alignment") d (VStr (pname "horizontal")) -> al = Horiz) /\
    (forall z, z <> 0 -> given_once (pname "data_ends") d (VInt z) -> last = z) /\
    (given_once (pname "missings") d (VBool false) -> holes = false) /\
    drawn (sheet st i) al (line_of al rc) last holes starts vs) (df_data fr).
Proof. exact (c60_declared e uni json st wb q safe preserve st' out name pid i d hv cells starts fr). Qed.
Print Assumptions C60_declared.

(** in safe mode, with the third month left out of the sheet *)
Definition gaps : worksheet := sheet_of (T "Gaps")
  [[VStr (T "x"); VStr (T "a"); VStr (T "b")];
   [day 2001 1 1; VInt 10; VStr (T " 1.5 ")];
   [day 2001 2 1; VStr (T "Implicit"); VInt 12];
   [day 2001 4 1; VInt 30; VInt 13]].
Definition gaps_params : dict :=
  [ (pname "headers_coord", VStr (pname "B1-C1")); (pname "time_header_coord", VStr (pname "A1"));
    (pname "data_starts", VInt 2); (pname "frequency", VStr (pname "M"));
    (pname "missings", VBool true); (pname "missing_value", VStr (pname "Implicit")) ].
Example C60_case :
  let cells := [(1, 2); (1, 3)] in
  header_cells (VStr (pname "B1-C1")) cells /\ given_once (pname "data_starts") gaps_params (VInt 2) /\
  match snd (get_data_frames demo_env (fun t => t) no_json (mkstore [gaps] []) [0%nat] (UInput (PDict gaps_params)) None true true) with
  | Ok (out, name, _) => name = T "Gaps" /\
      exists fr, frame_of out fr /\ df_data fr = [[float_of_Z 10; S754_nan; S754_nan; float_of_Z 30]; [float_of_dec false 15 (-1); float_of_Z 12; S754_nan; float_of_Z 13]]
  | _ => False
  end /\
  drawn gaps Vert 3 4 true 2 [float_of_dec false 15 (-1); float_of_Z 12; S754_nan; float_of_Z 13] /\
  ~ drawn gaps Vert 3 4 true 2 [float_of_Z 12; float_of_Z 12] /\
  ~ drawn gaps Vert 3 4 true 2 [float_of_Z 10].
Proof.
  cbv zeta. split; [|split; [|split; [|split]]].
  - apply hc_plain. apply vc_text. apply (entry_range (pname "B1") (pname "C1") "-"%char 1 2 1 3);
      try (apply cell_named_iff; reflexivity); auto. apply rect_cells_rectangle.
  - split; [intros [l L]; discriminate|left; reflexivity].
  - vm_compute. split; [reflexivity|]. eexists. split; [eapply fo_list; [left; reflexivity|constructor]|reflexivity].
  - apply (dw_number _ _ _ _ _ 2 2); [lia|apply cell_number_iff; vm_compute; reflexivity|].
    apply (dw_number _ _ _ _ _ 3 3); [lia|apply cell_number_iff; vm_compute; reflexivity|]. apply dw_missing; [reflexivity|].
    apply (dw_number _ _ _ _ _ 4 4); [lia|apply cell_number_iff; vm_compute; reflexivity|]. constructor.
  - assert (N : forall q x, 2 <= q <= 4 -> cell_number (along Vert gaps 3 q) x -> x = float_of_Z 12 -> q = 3).
    { intros q x Q C ->. apply cell_number_iff in C. assert (E : q = 2 \/ q = 3 \/ q = 4) by lia. destruct E as [-> | [-> | ->]]; auto; vm_compute in C; discriminate. }
    split.
    + intros D. inversion D as [| |a q x vs Q C D']; subst. apply N in C; [|lia|reflexivity]. subst q. inversion D' as [| |a q x vs Q' C' D'']; subst. apply N in C'; [|lia|reflexivity]. lia.
    + intros D. inversion D as [| |a q x vs Q C D']; subst. apply cell_number_iff in C. assert (E : q = 2 \/ q = 3 \/ q = 4) by lia. destruct E as [-> | [-> | ->]]; vm_compute in C; discriminate.
Qed.
