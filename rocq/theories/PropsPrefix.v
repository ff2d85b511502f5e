(** Property C88: where the data is said to end. *)
From Verif Require Import Base BaseFacts Cal CalFacts SpecCal Coord SpecCoord CoordFacts XlMethods Params ParseTime TimeIndex GetData PeriodRange DataFrame Scrape Xlseries
  SpecParams ParamsProofs3 SpecAttempts SpecTime TimeFacts SpecData DataFacts DataProofs SpecFrames SpecScrape SpecEnd SpecReach SpecSelect SpecCoordFacts SpecPrefix PrefixProofs3
  PropsParams PropsScrape PropsTime PropsEnd PropsTurn PropsSelect PropsNaming PropsValue Demo.
Local Open Scope Z_scope.

(** ** C88 An earlier end of the data gives the beginning of the same columns *)

(** The same series are asked for up to one place and up to a later one, and
    both calls succeed.  Then the frames have the same column names, each
    column of the first is the beginning of the column of the second, and so
    is the index. *)
Theorem C88_beginning e uni json st wb q safe preserve name i n m m' p u p' u' x x' :
  wb_ok st wb -> resolves uni strip (names_of st wb) q name -> first_such (fun i => title (sheet st i) = name) wb i ->
  (0 < n)%nat -> sixteen p -> sixteen p' -> one_index n p -> sooner n m m' p p' -> headers_before m p -> dates_in_time n p ->
  in_store st u -> object_of json st u p -> in_store st u' -> object_of json st u' p' ->
  answered (snd (get_data_frames e uni json st wb u q safe preserve)) = Ok x -> answered (snd (get_data_frames e uni json st wb u' q safe preserve)) = Ok x' ->
  exists d d', x = DF d /\ x' = DF d' /\ goes_on d d'.
Proof.
  intros WB RES FS N X X' O SO HB DT IS OB IS' OB' H H'.
  exact (c88 e uni json st wb q safe preserve name i WB RES FS n m m' u u' p p' x x' N X X' O SO HB DT IS OB IS' OB' H H').
Qed.
Print Assumptions C88_beginning.

(** *** cases *)
Definition up_to (z : Z) : dict := both "vertical" "B1" "C1" ++ [(pname "data_ends", VInt z); (pname "time_alignment", VInt 0)].
Example C88_case : let p := object (up_to 3) in let p' := object (up_to 4) in
  sixteen p /\ sixteen p' /\ one_index 2 p /\ sooner 2 3 4 p p' /\ headers_before 3 p /\ dates_in_time 2 p /\
  match answer quarters_down (up_to 3), answer quarters_down (up_to 4) with
  | Ok (DF a, _, _), Ok (DF b, _, _) =>
      df_cols b = df_cols a /\ pr_dates (df_index a) = [mkdt 2000 10 1 0; mkdt 2001 1 1 0] /\ pr_dates (df_index b) = [mkdt 2000 10 1 0; mkdt 2001 1 1 0; mkdt 2001 4 1 0] /\
      df_data a = [[float_of_Z 10; S754_nan]; map float_of_Z [11; 12]] /\ df_data b = [[float_of_Z 10; S754_nan; float_of_Z 30]; map float_of_Z [11; 12; 13]]
  | _, _ => False
  end.
Proof.
  cbv zeta. split; [names_|]. split; [names_|]. split; [shared_|]. set (p := object (up_to 3)).
  assert (X : forall a b : dict, map fst b = map fst a -> Forall2 (fun x y => fst x <> pname "data_ends" -> snd y = snd x) a b -> forall k, k <> pname "data_ends" -> dget k b = dget k a).
  { intros a b M F k K. revert M. induction F as [|[k1 v1] [k2 v2] a b H F IH]; intros M; auto. cbn [map fst snd] in *. injection M as -> M. cbn [dget]. destruct (text_eqb k k1) eqn:E; auto.
    apply text_eqb_eq in E. subst. rewrite H; auto. }
  split; [|split; [|split]].
  - split; [apply X; [vm_compute; reflexivity|vm_compute; repeat (apply Forall2_cons; [cbn; try reflexivity; intros C; exfalso; apply C; reflexivity|]); apply Forall2_nil]|].
    split; [vm_compute; reflexivity|]. split; [vm_compute; reflexivity|lia].
  - intros k i t al r c K (v & SV & V) L N. assert (LY : (i < 2)%nat -> al = Vert).
    { intros I. destruct L as [LV|E]; [|vm_compute in E; discriminate]. says LV. destruct i as [|[|i]]; [| |lia]; cbn in N0; destruct al; auto; discriminate. }
    apply cell_named_iff in N. destruct K as [-> | ->]; says SV; destruct i as [|[|[|i]]]; cbn in N0; try discriminate; injection N0 as <-;
      (destruct V as [V|(l & V & _)]; [|discriminate]); try discriminate; injection V as <-; rewrite LY by lia; vm_compute in N; injection N as <- <-; cbn; lia.
  - exists 0. split; [vm_compute; reflexivity|left; lia].
  - vm_compute. repeat split; reflexivity.
Qed.
