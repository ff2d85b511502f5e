(** Property C85: calling again on the workbook that a call has cleaned. *)
From Verif Require Import Base BaseFacts Cal CalFacts SpecCal Coord SpecCoord CoordFacts SpecCoordFacts XlMethods Params ParseTime TimeIndex GetData PeriodRange DataFrame Scrape Xlseries
  SpecParams ParamsProofs3 SpecAttempts SpecTime TimeFacts SpecData DataFacts DataProofs SpecFrames SpecScrape SpecEnd SpecReach SpecSelect SpecAgain AgainProofs2
  PropsParams PropsScrape PropsTime PropsEnd PropsTurn PropsSelect PropsParse Demo.
Local Open Scope Z_scope.

(** ** C85 Calling again on the workbook that was cleaned gives the same *)

(** A call with preserve_wb_obj=False succeeds and puts a date in every cell of
    the time index that was not empty.  Then a later call with the same
    parameters, on the sheet as it was left, gives the same frames and leaves
    the sheet as it is.  Partial: see below for indexes that are composed, in a
    row without data_ends, in several columns, or followed by a note. *)
Theorem C85_again_partial e uni json st wb q safe name i u p n al t s en x st' wb' q' safe' name' i' u' :
  wb_ok st wb -> resolves uni strip (names_of st wb) q name -> first_such (fun i => title (sheet st i) = name) wb i -> in_store st u -> object_of json st u p ->
  wb_ok st' wb' -> resolves uni strip (names_of st' wb') q' name' -> first_such (fun i => title (sheet st' i) = name') wb' i' -> in_store st' u' -> object_of json st' u' p ->
  (0 < n)%nat -> sixteen p -> one_index n p -> plain_index n p al t s en -> bounded (sheet st i) ->
  answered (snd (get_data_frames e uni json st wb u q safe false)) = Ok x ->
  sheet st' i' = sheet (fst (get_data_frames e uni json st wb u q safe false)) i ->
  all_dated al t s en (sheet st i) (sheet st' i') ->
  answered (snd (get_data_frames e uni json st' wb' u' q' safe' false)) = Ok x /\
  forall r c, cell (sheet (fst (get_data_frames e uni json st' wb' u' q' safe' false)) i') r c = cell (sheet st' i') r c.
Proof. exact (c85 e uni json st wb q safe name i u p n al t s en x st' wb' q' safe' name' i' u'). Qed.
Print Assumptions C85_again_partial.

(** *** cases *)
Definition run (e : env) (st : store) (d : dict) : store * res (dfs_t * text * nat) :=
  get_data_frames e (fun t => t) no_json st [0%nat] (UInput (PDict d)) None false false.
Definition once (e : env) (w : worksheet) (d : dict) : store := fst (run e (mkstore [w] []) d).
Definition lone (f : string) : dict :=
  map (fun kv => (pname (fst kv), snd kv))
  [("alignment", VStr (pname "vertical")); ("headers_coord", VStr (pname "B1")); ("time_header_coord", VStr (pname "A1"));
    ("data_starts", VInt 2); ("frequency", VStr (pname f)); ("continuity", VBool true); ("blank_rows", VBool false);
    ("missings", VBool false); ("time_composed", VBool false)]%string.
(** dates as texts, the last with a mistake in the year *)
Definition typed : worksheet := sheet_of (T "S")
  [[VNone; VStr (T "a")]; [VStr (T "01-01-2000"); VInt 1]; [VStr (T "01/02/2000"); VInt 2]; [VStr (T "1.3.2000"); VInt 3]; [day 2001 4 1; VInt 4]].
Example C85_case : let p := object (lone "M") in let st := once demo_env typed (lone "M") in
  sixteen p /\ one_index 1 p /\ plain_index 1 p Vert (T "A1") 2 None /\ bounded typed /\
  all_dated Vert (T "A1") 2 None typed (sheet st 0) /\
  cell (sheet st 0) 5 1 = day 2000 4 1 /\
  match snd (run demo_env (mkstore [typed] []) (lone "M")), snd (run demo_env st (lone "M")) with
  | Ok (DF a, _, _), Ok (DF b, _, _) => a = b /\ df_data a = [map float_of_Z [1; 2; 3; 4]]
  | _, _ => False
  end.
Proof.
  cbv zeta. split; [names_|]. split; [shared_|].
  split; [split; try (vm_compute; reflexivity); [eexists; vm_compute; reflexivity|split; discriminate]|].
  split; [apply sheet_of_bounded|].
  split; [|vm_compute; repeat split; reflexivity].
  intros r c pos (r1 & c1 & NM & LN & DP) B. cbn [line_of depth_of fst snd] in LN, DP. subst pos.
  apply cell_named_iff in NM. vm_compute in NM. injection NM as <- <-. subst c. left.
  change (2 <= r <= 5) in B. assert (r = 2 \/ r = 3 \/ r = 4 \/ r = 5) as [->|[->|[->| ->]]] by lia; eexists; vm_compute; reflexivity.
Qed.

Definition noted : worksheet := sheet_of (T "S")
  [[VNone; VStr (T "a")]; [VStr (T "01-01-1998"); VInt 1]; [VStr (T "01-01-1999"); VInt 2]; [day 2000 1 1; VInt 3]; [VStr (T "Ene 2001"); VInt 4]].
(** without the condition on the cells of the index: a note below the dates is
    not read the first time, when the dates are texts; it is the second time *)
Theorem C85_note_refuted : exists e w d a b t i j,
  snd (run e (mkstore [w] []) d) = Ok (DF a, t, i) /\ snd (run e (once e w d) d) = Ok (DF b, t, j) /\
  df_data a = [map float_of_Z [1; 2; 3]] /\ df_data b = [map float_of_Z [1; 2; 3; 4]].
Proof. exists es_env, noted, (lone "A"). do 5 eexists. split; [vm_compute; reflexivity|]. split; [vm_compute; reflexivity|]. split; vm_compute; reflexivity. Qed.

(** an index whose dates are composed: they are dates the second time *)
Theorem C85_composed_refuted : exists e w d x,
  snd (run e (mkstore [w] []) d) = Ok x /\ snd (run e (once e w d) d) = Err ENotComposed.
Proof. exists demo_env, annual, (yearly [("B1"%string, true)]). eexists. split; vm_compute; reflexivity. Qed.

(** dates in a row, without data_ends: reading past the last date in the first
    call made the sheet one column wider, and the second call meets it *)
Theorem C85_rows_refuted : exists e w d x,
  snd (run e (mkstore [w] []) d) = Ok x /\ snd (run e (once e w d) d) = Err EType.
Proof. exists demo_env, quarters, (both "horizontal" "A2" "A3"). eexists. split; vm_compute; reflexivity. Qed.
Print Assumptions C85_note_refuted.
Print Assumptions C85_composed_refuted.
Print Assumptions C85_rows_refuted.
