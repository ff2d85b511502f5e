(** Property C81: what is not part of the tables makes no difference. *)
From Verif Require Import Base BaseFacts Cal CalFacts SpecCal Coord SpecCoord CoordFacts SpecCoordFacts XlMethods Params ParseTime TimeIndex GetData PeriodRange DataFrame Scrape Xlseries
  SpecParams ParamsProofs3 SpecAttempts SpecTime TimeFacts SpecData DataFacts DataProofs SpecFrames SpecScrape SpecEnd SpecReach ReachProofs3
  PropsParams PropsScrape PropsTime PropsEnd PropsTurn Demo.
Local Open Scope Z_scope.

(** ** C81 Cells that are not part of the tables make no difference *)

(** Two calls with the same Parameters object, on sheets with the same cells
    where it counts, hand back the same frames or raise the same exception,
    whatever else is in the sheets and in their workbooks. *)
Theorem C81_same_answer e uni json st wb u q name i p st' wb' u' q' name' i' safe preserve :
  wb_ok st wb -> in_store st u -> resolves uni strip (names_of st wb) q name -> first_such (fun i => title (sheet st i) = name) wb i -> object_of json st u p ->
  wb_ok st' wb' -> in_store st' u' -> resolves uni strip (names_of st' wb') q' name' -> first_such (fun i => title (sheet st' i) = name') wb' i' -> object_of json st' u' p ->
  alike p (sheet st i) (sheet st' i') ->
  answered (snd (get_data_frames e uni json st' wb' u' q' safe preserve)) = answered (snd (get_data_frames e uni json st wb u q safe preserve)).
Proof. exact (c81 e uni json st wb u q name i p st' wb' u' q' name' i' safe preserve). Qed.
Print Assumptions C81_same_answer.

(** *** cases *)
Definition ended : dict := both "horizontal" "A2" "A3" ++ [(pname "data_ends", VInt 3)].
Definition bare : worksheet := sheet_of (T "Q")
  [[VStr (T "x"); day 2000 10 1; day 2001 1 1];
   [VStr (T "a"); VInt 10; VInt 20];
   [VStr (T "b"); VInt 11; VInt 12]].
(** notes after the dates and the values, below them, and over the dates' name *)
Definition remarked : worksheet := sheet_of (T "Quarters")
  [[VStr (T "dates"); day 2000 10 1; day 2001 1 1; VNone; VStr (T "Source: the office")];
   [VStr (T "a"); VInt 10; VInt 20; VStr (T "p"); VStr (T "revised")];
   [VStr (T "b"); VInt 11; VInt 12];
   [];
   [VNone; VInt 99; VInt 98; day 1999 1 1]].
Ltac said H := let l := fresh "l" in let L := fresh "L" in let N := fresh "N" in
  destruct H as (l & L & N); vm_compute in L; injection L as <-.
Lemma ended_named k t i : In k [pname "headers_coord"; pname "time_header_coord"; pname "composed_headers_coord"] -> coordinate (object ended) k i t ->
  (i < 2)%nat /\ (k = pname "headers_coord" /\ (t = pname "A2" \/ t = pname "A3") \/ k = pname "time_header_coord" /\ t = pname "A1").
Proof.
  intros K (v & SV & V). destruct K as [<-|[<-|[<-|[]]]]; said SV; destruct i as [|[|[|i]]]; cbn in N; try discriminate; injection N as <-;
    (destruct V as [V|(l & V & _)]; [|discriminate]); try discriminate; injection V as <-; (split; [lia|]); auto.
Qed.
Lemma ended_layout i al : (i < 2)%nat -> layout (object ended) i al -> al = Horiz.
Proof.
  intros I [SV|E]; [|vm_compute in E; discriminate]. said SV. destruct i as [|[|i]]; [| |lia]; cbn in N; destruct al; auto; discriminate.
Qed.
Lemma ended_end i : (i < 2)%nat -> ends_at (object ended) i 3.
Proof.
  intros I. assert (G : forall j, (j < 2)%nat -> end_given (object ended) j 3).
  { intros j J. split; [|lia]. exists [VInt 3; VInt 3]. split; [vm_compute; reflexivity|]. destruct j as [|[|j]]; [reflexivity|reflexivity|lia]. }
  split; [auto|]. exists 3. apply G. lia.
Qed.
Lemma ended_counts r c : counts (object ended) r c -> 1 <= r <= 3 /\ c <= 4 /\ (1 < r -> c <= 3) /\ (r = 1 -> 2 <= c).
Proof.
  assert (CN : forall t r c rc, cell_named t r c -> parse_coord t = Ok rc -> (r, c) = rc) by (intros t r0 c0 rc C P; apply cell_named_iff in C; congruence).
  intros [i t C N|i t C N|i t al pos C L (r0 & c0 & N & E1 & E2) (s & _ & S & V)|i t al pos C L (r0 & c0 & N & E1 & E2) (s & ta & S & O & V)].
  - destruct (ended_named _ _ _ ltac:(left; reflexivity) C) as [I [[_ [->| ->]]|[X _]]]; [| |discriminate].
    + specialize (CN _ _ _ (2, 1) N eq_refl). injection CN as -> ->. lia.
    + specialize (CN _ _ _ (3, 1) N eq_refl). injection CN as -> ->. lia.
  - destruct (ended_named _ _ _ ltac:(right; right; left; reflexivity) C) as [_ [[X _]|[X _]]]; discriminate.
  - destruct (ended_named _ _ _ ltac:(left; reflexivity) C) as [I [[_ Et]|[X _]]]; [|discriminate]. rewrite (ended_layout _ _ I L) in *. cbn in E1, E2. specialize (V 3 (ended_end i I)).
    destruct Et as [->| ->]; [specialize (CN _ _ _ (2, 1) N eq_refl)|specialize (CN _ _ _ (3, 1) N eq_refl)]; injection CN as -> ->; lia.
  - destruct (ended_named _ _ _ ltac:(right; left; reflexivity) C) as [I [[X _]|[_ ->]]]; [discriminate|]. rewrite (ended_layout _ _ I L) in *. cbn in E1, E2.
    specialize (CN _ _ _ (1, 1) N eq_refl). injection CN as -> ->.
    assert (s = 2). { destruct S as (v & SV & S). said SV. destruct i as [|[|i]]; [| |lia]; cbn in N0; injection N0 as <-; apply S; reflexivity. }
    assert (ta = 0). { destruct O as [(v & SV & O)|[X _]]; [|vm_compute in X; discriminate]. said SV. destruct i as [|[|i]]; [| |lia]; cbn in N0; injection N0 as <-; apply O; reflexivity. }
    assert (OL : one_letter (object ended) i). { exists "Q"%char. exists [VStr (T "Q"); VStr (T "Q")]. split; [vm_compute; reflexivity|]. destruct i as [|[|i]]; [reflexivity|reflexivity|lia]. }
    destruct (V OL) as [V1 V2]. specialize (V2 3 (ended_end i I)). lia.
Qed.
Lemma ended_all : all_ends_given (object ended).
Proof.
  split; intros i v SV; said SV; destruct i as [|[|[|i]]]; cbn in N; try discriminate; injection N as <-; [exists 3|exists 3|exists "Q"%char|exists "Q"%char]; auto; split; auto; lia.
Qed.
Example C81_case :
  alike (object ended) bare remarked /\ same_size bare remarked = (5 = 3 /\ 5 = 3) /\
  make_params no_json (PDict ended) = Ok (object ended) /\
  match answer bare ended with
  | Ok (DF d, name, _) => pr_dates (df_index d) = [mkdt 2000 10 1 0; mkdt 2001 1 1 0] /\ df_cols d = [T "a"; T "b"] /\ df_data d = [map float_of_Z [10; 20]; map float_of_Z [11; 12]]
  | _ => False
  end /\
  (* the other sheet, in a workbook of two, asked for by its name *)
  answered (snd (get_data_frames demo_env (fun t => t) no_json (mkstore [quarters; remarked] []) [0%nat; 1%nat] (UInput (PDict ended)) (Some (T "Quarters")) false true)) =
  answered (answer bare ended).
Proof.
  split; [|split; [reflexivity|split; [vm_compute; reflexivity|split; [vm_compute; repeat split|vm_compute; reflexivity]]]].
  split; [|right; split; [exact ended_all|split; apply sheet_of_bounded]].
  intros r c C. apply ended_counts in C as (R & C4 & C3 & C2). unfold bare, remarked, sheet_of. cbn [cell].
  destruct ((1 <=? r) && (1 <=? c)) eqn:B; [|reflexivity]. assert (Hr : r = 1 \/ r = 2 \/ r = 3) by lia. assert (Hc : c = 1 \/ c = 2 \/ c = 3 \/ c = 4) by lia.
  destruct Hr as [->|[->| ->]], Hc as [->|[->|[->| ->]]]; try reflexivity; lia.
Qed.

(** When the end of the data is left out the size of the sheet counts: a note
    below and to the right of a table in rows is an error. *)
Definition aside : worksheet := sheet_of (T "Q")
  [[VStr (T "x"); day 2000 10 1; day 2001 1 1];
   [VStr (T "a"); VInt 10; VInt 20];
   [VStr (T "b"); VInt 11; VInt 12];
   [VNone; VNone; VNone; VNone; VStr (T "Source: the office")]].
Lemma rows_counts r c : counts (object (both "horizontal" "A2" "A3")) r c -> 1 <= r <= 3.
Proof.
  set (p := object (both "horizontal" "A2" "A3")).
  assert (NM : forall k t i, In k [pname "headers_coord"; pname "time_header_coord"; pname "composed_headers_coord"] -> coordinate p k i t ->
    (i < 2)%nat /\ (t = pname "A2" \/ t = pname "A3" \/ t = pname "A1")).
  { intros k t i K (v & SV & V). destruct K as [<-|[<-|[<-|[]]]]; said SV; destruct i as [|[|[|i]]]; cbn in N; try discriminate; injection N as <-;
      (destruct V as [V|(l & V & _)]; [|discriminate]); try discriminate; injection V as <-; (split; [lia|]); auto. }
  assert (LY : forall i al, (i < 2)%nat -> layout p i al -> al = Horiz).
  { intros i al I [SV|E]; [|vm_compute in E; discriminate]. said SV. destruct i as [|[|i]]; [| |lia]; cbn in N; destruct al; auto; discriminate. }
  assert (CN : forall t r c, cell_named t r c -> (t = pname "A2" \/ t = pname "A3" \/ t = pname "A1") -> 1 <= r <= 3).
  { intros t r0 c0 C P. apply cell_named_iff in C. destruct P as [->|[->| ->]]; vm_compute in C; injection C as <- <-; lia. }
  intros [i t C N|i t C N|i t al pos C L (r0 & c0 & N & E1 & E2) _|i t al pos C L (r0 & c0 & N & E1 & E2) _];
    (edestruct NM as [I T0]; [|exact C|]; [cbn; tauto|]); eauto; rewrite (LY _ _ I L) in *; cbn in E1; subst r0; eauto.
Qed.
Theorem C81_size_refuted : exists e uni json st wb u q name i p st' wb' u' q' name' i',
  wb_ok st wb /\ in_store st u /\ resolves uni strip (names_of st wb) q name /\ first_such (fun i => title (sheet st i) = name) wb i /\ object_of json st u p /\
  wb_ok st' wb' /\ in_store st' u' /\ resolves uni strip (names_of st' wb') q' name' /\ first_such (fun i => title (sheet st' i) = name') wb' i' /\ object_of json st' u' p /\
  same_where (counts p) (sheet st i) (sheet st' i') /\ bounded (sheet st i) /\ bounded (sheet st' i') /\ is_complete p = Ok true /\
  (exists fs, answered (snd (get_data_frames e uni json st wb u q false true)) = Ok fs) /\
  answered (snd (get_data_frames e uni json st' wb' u' q' false true)) = Err EType.
Proof.
  set (p := object (both "horizontal" "A2" "A3")).
  exists demo_env, (fun t => t), no_json, (mkstore [bare] [p]), [0%nat], (UObj 0), None, (T "Q"), 0%nat, p.
  exists (mkstore [aside] [p]), [0%nat], (UObj 0), None, (T "Q"), 0%nat.
  split; [repeat constructor|]. split; [cbn; lia|]. split; [apply res_none; reflexivity|]. split; [exists [], []; repeat split; constructor|]. split; [apply (object_given no_json (mkstore [bare] [p]) 0)|].
  split; [repeat constructor|]. split; [cbn; lia|]. split; [apply res_none; reflexivity|]. split; [exists [], []; repeat split; constructor|]. split; [apply (object_given no_json (mkstore [aside] [p]) 0)|].
  split; [|split; [apply sheet_of_bounded|split; [apply sheet_of_bounded|split; [vm_compute; reflexivity|split; [eexists; vm_compute; reflexivity|vm_compute; reflexivity]]]]].
  intros r c C. apply rows_counts in C. change (cell aside r c = cell bare r c). unfold bare, aside, sheet_of. cbn [cell].
  destruct ((1 <=? r) && (1 <=? c)) eqn:B; [|reflexivity]. assert (Hr : r = 1 \/ r = 2 \/ r = 3) by lia. destruct Hr as [->|[->| ->]]; reflexivity.
Qed.
Print Assumptions C81_size_refuted.
