(** Property C86: what the series are called. *)
From Verif Require Import Base BaseFacts Cal CalFacts SpecCal Coord SpecCoord CoordFacts XlMethods Params ParseTime TimeIndex GetData PeriodRange DataFrame Scrape Xlseries
  SpecParams ParamsProofs3 SpecAttempts SpecTime TimeFacts SpecData DataFacts DataProofs SpecFrames SpecScrape SpecEnd SpecReach SpecSelect SpecNaming NamingProofs
  PropsParams PropsScrape PropsTime PropsEnd PropsTurn PropsSelect Demo.
Local Open Scope Z_scope.

(** ** C86 The names, the context and the composed headers change only the names of the columns *)

(** Two calls for the same series called in different ways, that succeed: the
    frames have the same dates and the same values. *)
Theorem C86_values e uni json st wb q safe preserve name i n p u p' u' x x' :
  wb_ok st wb -> resolves uni strip (names_of st wb) q name -> first_such (fun i => title (sheet st i) = name) wb i ->
  (0 < n)%nat -> filled n p -> in_store st u -> object_of json st u p -> filled n p' -> in_store st u' -> object_of json st u' p' -> called_otherwise p p' ->
  answered (snd (get_data_frames e uni json st wb u q safe preserve)) = Ok x -> answered (snd (get_data_frames e uni json st wb u' q safe preserve)) = Ok x' ->
  each_frame same_values x x'.
Proof. exact (c86_values e uni json st wb q safe preserve name i n p u p' u' x x'). Qed.
Print Assumptions C86_values.

(** When all the series are given names the call succeeds if it does with any
    other names, contexts and composed headers, and the columns are called so. *)
Theorem C86_named e uni json st wb q safe preserve name i n p u p' u' x names :
  wb_ok st wb -> resolves uni strip (names_of st wb) q name -> first_such (fun i => title (sheet st i) = name) wb i ->
  (0 < n)%nat -> filled n p -> in_store st u -> object_of json st u p -> filled n p' -> in_store st u' -> object_of json st u' p' -> called_otherwise p p' -> all_named names p' ->
  answered (snd (get_data_frames e uni json st wb u q safe preserve)) = Ok x ->
  exists x', answered (snd (get_data_frames e uni json st wb u' q safe preserve)) = Ok x' /\ each_frame (fun d d' => same_values d d' /\ columns_from names d') x x'.
Proof. exact (c86_named e uni json st wb q safe preserve name i n p u p' u' x names). Qed.
Print Assumptions C86_named.

(** *** cases *)
Ltac filled_ := split; [names_|let k := fresh "k" in let K := fresh in intros k K; cbn in K; repeat (destruct K as [<-|K]; [eexists; split; [vm_compute; reflexivity|reflexivity]|]); destruct K].
(** with names, and with a context *)
Definition titled : dict := both "vertical" "B1" "C1" ++ [(pname "series_names", VList [VStr (T "x"); VStr (T "x")])].
Definition within : dict := both "vertical" "B1" "C1" ++ [(pname "context", VDict [(pname "US", VStr (pname "B1-C1"))])].
Example C86_case : let p := object (both "vertical" "B1" "C1") in
  filled 2 p /\ filled 2 (object titled) /\ filled 2 (object within) /\ called_otherwise p (object titled) /\ called_otherwise p (object within) /\
  all_named [T "x"; T "x"] (object titled) /\
  match answer quarters_down (both "vertical" "B1" "C1"), answer quarters_down titled, answer quarters_down within with
  | Ok (DF a, _, _), Ok (DF b, _, _), Ok (DF c, _, _) =>
      df_cols a = [T "GDP"; T "CPI"] /\ df_cols b = [T "x"; T "x.2"] /\ df_cols c = [T "US - GDP"; T "US - CPI"] /\
      df_data b = df_data a /\ df_data c = df_data a /\ df_data a = [[float_of_Z 10; S754_nan; float_of_Z 30]; map float_of_Z [11; 12; 13]]
  | _, _, _ => False
  end.
Proof.
  cbv zeta. split; [filled_|]. split; [filled_|]. split; [filled_|].
  assert (X : forall a b : dict, map fst b = map fst a -> Forall2 (fun x y => ~ In (fst x) naming_params -> snd y = snd x) a b -> called_otherwise a b).
  { intros a b M F k K. revert M. induction F as [|[k1 v1] [k2 v2] a b H F IH]; intros M; auto. cbn [map fst snd] in *. injection M as -> M. cbn [dget]. destruct (text_eqb k k1) eqn:E; auto.
    apply text_eqb_eq in E. subst. rewrite H; auto. }
  split; [apply X; [vm_compute; reflexivity|vm_compute; repeat (apply Forall2_cons; [cbn; try reflexivity; intros C; exfalso; apply C; tauto|]); apply Forall2_nil]|].
  split; [apply X; [vm_compute; reflexivity|vm_compute; repeat (apply Forall2_cons; [cbn; try reflexivity; intros C; exfalso; apply C; tauto|]); apply Forall2_nil]|].
  split; [split; [vm_compute; reflexivity|repeat constructor; discriminate]|]. vm_compute. repeat split; reflexivity.
Qed.
