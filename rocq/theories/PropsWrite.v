(** Property C91: the values and the marks of a table written in another way. *)
From Coq Require Import ZifyBool.
From Verif Require Import Base BaseFacts Cal CalFacts SpecCal Coord SpecCoord SpecCoordFacts CoordFacts XlMethods Params ParseTime TimeIndex GetData PeriodRange DataFrame Scrape Xlseries
  SpecParams ParamsProofs3 SpecAttempts SpecTime TimeFacts SpecData DataFacts DataProofs SpecFrames SpecScrape SpecEnd SpecReach SpecSelect SelectProofs SelectProofs4 SpecNaming SpecValue SpecWrite WriteProofs WriteProofs2
  PropsParams PropsScrape PropsTime PropsEnd PropsTurn PropsSelect PropsNaming Demo.
Local Open Scope Z_scope.

(** ** C91 Values and marks that are written in another way and read the same give the same frames *)

(** Two sheets with the same labels, and parameters that differ in their marks
    for missing values, where the same is read from every value of the series:
    both calls give the same frames, or raise the same exception. *)
Theorem C91_another_way e uni json st wb u q name i st' wb' u' q' name' i' n p p' safe preserve :
  wb_ok st wb -> in_store st u -> resolves uni strip (names_of st wb) q name -> first_such (fun i => title (sheet st i) = name) wb i -> object_of json st u p ->
  wb_ok st' wb' -> in_store st' u' -> resolves uni strip (names_of st' wb') q' name' -> first_such (fun i => title (sheet st' i) = name') wb' i' -> object_of json st' u' p' ->
  (0 < n)%nat -> filled n p -> filled n p' -> other_marks n p p' -> rewritten n p p' (sheet st i) (sheet st' i') ->
  answered (snd (get_data_frames e uni json st' wb' u' q' safe preserve)) = answered (snd (get_data_frames e uni json st wb u q safe preserve)).
Proof.
  intros WB IS RES FS OB WB' IS' RES' FS' OB' N [X L] [X' L'] OM RW.
  rewrite (call_full e uni json st wb q safe preserve name i WB RES FS u p IS OB (SelectProofs4.complete n p N X L)).
  rewrite (call_full e uni json st' wb' q' safe preserve name' i' WB' RES' FS' u' p' IS' OB' (SelectProofs4.complete n p' N X' L')).
  rewrite (full2 n p p' e L L' OM N (num_series n p N X L) (num_series n p' N X' L') (if preserve then make_ws_copy (sheet st i) else sheet st i) (if preserve then make_ws_copy (sheet st' i') else sheet st' i')); auto.
  destruct RW as [[A B] LA V]. destruct preserve; (split; [split|]).
  - intros _. cbn. auto.
  - intros r c H. cbn [make_ws_copy cell]. rewrite A, B, (LA r c H). auto.
  - intros j r c J ON. cbn [make_ws_copy cell]. rewrite A, B. destruct ((1 <=? r) && _ && _ && _); [apply V; auto|apply written_alike with (n := n); auto].
  - intros _. auto.
  - auto.
  - auto.
Qed.
Print Assumptions C91_another_way.

(** In particular a mark can be given another name: with the mark [m] for the
    missing values of every series in one table and [m'] in the other, and no
    other difference between them, the frames are the same. *)
Theorem C91_mark_renamed e uni json st wb u q name i st' wb' u' q' name' i' n p p' m m' safe preserve :
  wb_ok st wb -> in_store st u -> resolves uni strip (names_of st wb) q name -> first_such (fun i => title (sheet st i) = name) wb i -> object_of json st u p ->
  wb_ok st' wb' -> in_store st' u' -> resolves uni strip (names_of st' wb') q' name' -> first_such (fun i => title (sheet st' i) = name') wb' i' -> object_of json st' u' p' ->
  (0 < n)%nat -> filled n p -> filled n p' -> tidy (VStr m) -> tidy (VStr m') -> m <> pname "Implicit" -> m' <> pname "Implicit" ->
  (forall k, k <> pname "missing_value" -> dget k p' = dget k p) ->
  dget (pname "missings") p = Some (VList (repeat (VBool true) n)) ->
  dget (pname "missing_value") p = Some (VList (repeat (VList [VStr m]) n)) -> dget (pname "missing_value") p' = Some (VList (repeat (VList [VStr m']) n)) ->
  same_size (sheet st i) (sheet st' i') -> (forall r c, labels p r c -> cell (sheet st' i') r c = cell (sheet st i) r c) ->
  (forall j r c, on_values p j r c -> let v := cell (sheet st i) r c in let v' := cell (sheet st' i') r c in
     (v = VStr m /\ v' = VStr m') \/ (v' = v /\ stripped v v /\ v <> VStr [] /\ v <> VStr m /\ v <> VStr m')) ->
  answered (snd (get_data_frames e uni json st' wb' u' q' safe preserve)) = answered (snd (get_data_frames e uni json st wb u q safe preserve)).
Proof.
  intros WB IS RES FS OB WB' IS' RES' FS' OB' N F F' T T' I I' D MS MV MV' SZ LA V.
  assert (RP : forall q k x, dget k q = Some (VList (repeat x n)) -> forall j, (j < n)%nat -> series_value q k j x).
  { intros q0 k x E j J. exists (repeat x n). split; [unfold dgetN; rewrite E; auto|]. clear - J. revert j J. induction n as [|n0 IH]; intros [|j] J; cbn; auto; try lia. apply IH. lia. }
  assert (M : forall j, (j < n)%nat -> marks p j [VStr m]) by (intros j J; split; [apply RP; auto|intros x [<-|[]]; eauto]).
  assert (M' : forall j, (j < n)%nat -> marks p' j [VStr m']) by (intros j J; split; [apply RP; auto|intros x [<-|[]]; eauto]).
  eapply (C91_another_way e uni json st wb u q name i st' wb' u' q' name' i' n p p'); eauto.
  - split; auto. intros j J. exists [VStr m], [VStr m']. split; auto. split; auto. intros x X. split; intros [E|[]]; exfalso; destruct X; subst; congruence.
  - split; auto. intros j r c J ON. destruct (V j r c ON) as [[E E']|(E & S1 & S2 & S3 & S4)].
    + rewrite E, E'. apply (sr_read _ _ _ _ _ true [VStr m] [VStr m'] S754_nan); auto; apply reads_mark; cbn; auto.
    + apply (sr_same _ _ _ _ _ [VStr m] [VStr m']); auto. right. split; auto. split; auto. split; intros [Q|[]]; exfalso; congruence.
Qed.
Print Assumptions C91_mark_renamed.

(** two quarterly series, and the same numbers written as texts or with decimals
    and with another mark *)
Definition otherwise : worksheet := sheet_of (T "Q")
  [[VStr (T "x"); VStr (T " GDP "); VStr (T "CPI")];
   [day 2000 10 1; VStr (T "10.0"); VStr (T "11")];
   [day 2001 1 1; VStr (T "s/d"); VFloat (float_of_Z 12)];
   [day 2001 4 1; VStr (T "3e1"); VInt 13]].
Definition marked (m : string) : dict := dset (pname "missing_value") (VStr (pname m)) (both "vertical" "B1" "C1").
Ltac says_ H := let l := fresh in let E := fresh in let N := fresh "N" in destruct H as (l & E & N); vm_compute in E; injection E as <-.
Ltac tidy_ := split; [discriminate|split; [discriminate|apply stripped_iff; reflexivity]].
Example C91_case : let p := object (marked "NA") in let p' := object (marked "s/d") in
  filled 2 p /\ filled 2 p' /\ other_marks 2 p p' /\ rewritten 2 p p' quarters_down otherwise /\
  match answer quarters_down (marked "NA"), answer otherwise (marked "s/d") with
  | Ok (DF a, _, _), Ok (DF b, _, _) => b = a /\ df_data a = [[float_of_Z 10; S754_nan; float_of_Z 30]; map float_of_Z [11; 12; 13]]
  | _, _ => False
  end.
Proof.
  cbv zeta. set (p := object (marked "NA")). set (p' := object (marked "s/d")). split; [filled_|]. split; [filled_|].
  assert (M : forall j, (j < 2)%nat -> marks p j [VStr (pname "NA")]).
  { intros j J. split; [|intros m [<-|[]]; eauto]. eexists. split; [vm_compute; reflexivity|]. destruct j as [|[|j]]; [reflexivity|reflexivity|lia]. }
  assert (M' : forall j, (j < 2)%nat -> marks p' j [VStr (pname "s/d")]).
  { intros j J. split; [|intros m [<-|[]]; eauto]. eexists. split; [vm_compute; reflexivity|]. destruct j as [|[|j]]; [reflexivity|reflexivity|lia]. }
  assert (MB : forall j, (j < 2)%nat -> series_value p (pname "missings") j (VBool true)).
  { intros j J. eexists. split; [vm_compute; reflexivity|]. destruct j as [|[|j]]; [reflexivity|reflexivity|lia]. }
  assert (NM : forall k t i, coordinate p k i t -> In k [pname "headers_coord"; pname "time_header_coord"; pname "composed_headers_coord"] ->
    (i < 2)%nat /\ ((k = pname "headers_coord" /\ t = nth i [pname "B1"; pname "C1"] []) \/ (k = pname "time_header_coord" /\ t = pname "A1"))).
  { intros k t i (v & SV & V) K. destruct K as [<-|[<-|[<-|[]]]]; says_ SV; destruct i as [|[|[|i]]]; cbn in N; try discriminate; injection N as <-;
      (destruct V as [V|(l & V & _)]; [|discriminate]); try discriminate; injection V as <-; (split; [lia|]); auto. }
  assert (LY : forall i al, (i < 2)%nat -> layout p i al -> al = Vert).
  { intros i al I [SV|E]; [|vm_compute in E; discriminate]. says_ SV. destruct i as [|[|i]]; [| |lia]; cbn in N; destruct al; auto; discriminate. }
  split; [|split; [split|]].
  - split.
    + intros k K. unfold p, p'. 
      assert (F : forall a b : dict, Forall2 (fun x y => fst x = fst y /\ (snd x = snd y \/ fst x = pname "missing_value")) a b -> dget k b = dget k a).
      { induction 1 as [|[k0 v] [k1 v'] a b [E R] F IH]; auto. cbn [fst snd] in *. subst k1. cbn [dget]. destruct (text_eqb k k0) eqn:X; auto. apply text_eqb_eq in X. subst k0. destruct R as [->|R]; [auto|contradiction]. }
      apply F. vm_compute. repeat (apply Forall2_cons; [split; [reflexivity|]; first [left; reflexivity|right; reflexivity]|]). constructor.
    + intros j J. exists [VStr (pname "NA")], [VStr (pname "s/d")]. split; auto. split; auto. intros m [->| ->]; split; intros [Q|[]]; discriminate.
  - split; reflexivity.
  - assert (RC : forall r c, r = 1 \/ c = 1 -> cell otherwise r c = cell quarters_down r c).
    { intros r c H. unfold quarters_down, otherwise, sheet_of. cbn [cell]. destruct ((1 <=? r) && (1 <=? c)) eqn:B; [|reflexivity]. destruct H as [-> | ->]; [reflexivity|]. destruct (Z.to_nat (r - 1)) as [|[|[|[|k]]]]; reflexivity. }
    intros r c H. apply RC. destruct H as [i t C N|i t C N|i t al pos C L (r0 & c0 & N & E1 & E2)]; destruct (NM _ _ _ C ltac:(cbn; auto)) as [I [[X ->]|[X ->]]]; try discriminate X; apply cell_named_iff in N.
    + left. destruct i as [|[|i]]; [| |lia]; vm_compute in N; injection N as <- <-; auto.
    + right. rewrite (LY i al I L) in *. vm_compute in N. injection N as <- <-. exact E1.
  - intros j r c J (t & al & pos & s & C & L & (r0 & c0 & N & E1 & E2) & (vs & VS & VS2) & G). destruct (NM _ _ _ C ltac:(cbn; auto)) as [I [[_ ->]|[X _]]]; [|discriminate]. apply cell_named_iff in N. rewrite (LY j al I L) in *. clear L.
    assert (s = 2) as -> by (clear - VS VS2 J; says_ VS; destruct j as [|[|j]]; [| |lia]; cbn in N; injection N as <-; apply VS2; reflexivity).
    cbn in E2. subst pos. assert (Z.to_nat (r - 1) = 1 \/ Z.to_nat (r - 1) = 2 \/ Z.to_nat (r - 1) = 3 \/ exists k, Z.to_nat (r - 1) = 4 + k)%nat as R.
    { destruct (Z.to_nat (r - 1)) as [|[|[|[|k]]]] eqn:Z0; auto; [lia|]. right. right. right. exists k. reflexivity. }
    assert (B : (1 <=? r) = true) by lia.
    destruct j as [|[|j]]; [| |lia]; vm_compute in N; injection N as <- <-; cbn in E1; subst c; unfold quarters_down, otherwise, sheet_of; cbn [cell]; rewrite B; cbn [andb Z.leb Z.compare]; 
      destruct R as [->|[->|[->|(k & ->)]]]; try (destruct k); match goal with |- same_reading _ _ ?j ?a ?b => let a' := eval vm_compute in a in let b' := eval vm_compute in b in change (same_reading p p' j a' b') end;
      first [ apply (sr_same _ _ _ _ _ [VStr (pname "NA")] [VStr (pname "s/d")]); [apply M; lia|apply M'; lia|cbn; reflexivity|]; right; (split; [apply stripped_iff; cbn; reflexivity|]); (split; [cbn; discriminate|]); (split; intros [Q|[]]; cbn in Q; discriminate)
            | eapply (sr_read _ _ _ _ _ true [VStr (pname "NA")] [VStr (pname "s/d")]); [apply MB; lia|apply M; lia|apply M'; lia|tidy_|tidy_| |];
              first [apply reads_mark; [reflexivity|left; reflexivity] | apply reads_number; [intros _ [Q|[]]; discriminate|vm_compute; reflexivity]] ].
  - vm_compute. split; reflexivity.
Qed.
