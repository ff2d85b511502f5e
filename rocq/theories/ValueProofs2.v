(** Proofs for C87: the call. *)
From Coq Require Import ZifyBool.
From Verif Require Import Base BaseFacts Cal Coord XlMethods Params ParseTime TimeIndex GetData PeriodRange DataFrame Scrape Xlseries SpecCoord SpecParams ParamsProofs3 SpecAttempts SpecFrames
  SpecScrape ScrapeFacts SpecReach ReachProofs MoveProofs SpecSelect SelectProofs SelectProofs2 SelectProofs3 SelectProofs4 SpecNaming NamingProofs SpecValue ValueProofs.
Local Open Scope Z_scope.

Lemma copied r c w w' : in_sheet w r c -> differ_at r c w w' -> forall v v', cell w r c = v -> cell w' r c = v' ->
  ch r c v v' (make_ws_copy w) (make_ws_copy w').
Proof.
  intros I [[A B] D] v v' V V'. split; [split|].
  - intros _. cbn. auto.
  - intros i j N. cbn [make_ws_copy cell]. rewrite A, B, D by exact N. auto.
  - unfold in_sheet in I. cbn [make_ws_copy cell]. rewrite A, B, V, V'. replace ((1 <=? r) && (r <=? max_row w) && (1 <=? c) && (c <=? max_col w)) with true by lia. auto.
Qed.
Lemma plain r c w w' : differ_at r c w w' -> forall v v', cell w r c = v -> cell w' r c = v' -> ch r c v v' w w'.
Proof. intros [[A B] D] v v' V V'. split; [split|]; auto. Qed.

Lemma frames_list l : frames (unwrap_result (DL (map DF l))) l.
Proof. destruct l as [|a [|b l]]; [apply (fr_more []); discriminate|constructor|apply (fr_more (a :: b :: l)); discriminate]. Qed.
Lemma c87 e uni json st wb u q name i st' wb' u' q' name' i' n p safe preserve r c x x' hot :
  wb_ok st wb -> in_store st u -> resolves uni strip (names_of st wb) q name -> first_such (fun i => title (sheet st i) = name) wb i -> object_of json st u p ->
  wb_ok st' wb' -> in_store st' u' -> resolves uni strip (names_of st' wb') q' name' -> first_such (fun i => title (sheet st' i) = name') wb' i' -> object_of json st' u' p ->
  (0 < n)%nat -> filled n p -> just_a_value p r c -> (forall j, on_series p j r c -> In j hot) -> in_sheet (sheet st i) r c -> differ_at r c (sheet st i) (sheet st' i') ->
  number (cell (sheet st i) r c) x -> number (cell (sheet st' i') r c) x' ->
  both (same_but x x' (List.length hot)) (answered (snd (get_data_frames e uni json st wb u q safe preserve))) (answered (snd (get_data_frames e uni json st' wb' u' q' safe preserve))).
Proof.
  intros WB IS RES FS OB WB' IS' RES' FS' OB' N [X L] JV HOT I D NU NU'.
  rewrite (call_full e uni json st wb q safe preserve name i WB RES FS u p IS OB (complete n p N X L)).
  rewrite (call_full e uni json st' wb' q' safe preserve name' i' WB' RES' FS' u' p IS' OB' (complete n p N X L)).
  apply (both_bind (rdfs x x' (List.length hot))).
  - eapply full_ch; eauto. destruct preserve; [eapply copied|eapply plain]; eauto.
  - intros l l' [F U]. cbn [both]. exists l, l'. split; [apply frames_list|]. split; [apply frames_list|]. split; auto.
Qed.

Lemma same_none x x' f f' : same_but x x' 0 f f' -> f' = f.
Proof.
  intros (l & l' & A & B & F & U).
  assert (E : List.concat (map df_data l') = List.concat (map df_data l)) by (clear - U; remember 0%nat as k; induction U; auto; [f_equal; auto|discriminate]).
  assert (l' = l).
  { clear - F E. induction F as [|[i1 c1 d1] [i2 c2 d2] l l' (X & Y & Z) F IH]; auto. cbn [df_index df_cols df_data] in *. subst. cbn [map List.concat df_data] in E.
    assert (d2 = d1 /\ List.concat (map df_data l') = List.concat (map df_data l)) as [-> G]; [|f_equal; auto].
    clear - E Z. revert d2 E Z. induction d1 as [|a d1 IH]; intros [|b d2] E Z; try discriminate; auto. cbn in *. injection E as -> E. injection Z as Z. destruct (IH d2 E Z) as [-> G]. auto. }
  subst l'. destruct A as [d|l N]; inversion B; subst; auto; cbn in *; congruence.
Qed.
