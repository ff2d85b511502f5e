(** Properties C74 and C75: what a Parameters object prints as, and what is left
    of it when everything that is not critical is removed. *)
From Verif Require Import Base BaseFacts Coord XlMethods Params Compact
  SpecCoord SpecParams SpecCount SpecScope SpecAttempts SpecCompact SpecCoordFacts ParamsFacts ParamsProofs CompactProofs CompactBack CompactRemove PropsParams.
Local Open Scope Z_scope.

(** ** C74 The compact representation gives the object back *)

(** what it says, whatever the object *)
Theorem C74_compact_says p : parameters_object p -> (forall k, dgetN k p <> VList []) ->
  exists c, compact_repr p = Ok c /\ NoDup (map fst c) /\ incl (map fst c) (map fst p) /\
    forall k v, In (k, v) p -> match dget k c with Some u => compacted v u | None => left_out k v end.
Proof. apply c74_says. Qed.
Print Assumptions C74_compact_says.

(** series without composed headers or context: the very same object *)
Theorem C74_restored_partial json p n cells z : parameters_object p -> restorable p n cells z ->
  exists c, compact_repr p = Ok c /\ make_params json (PDict c) = Ok p.
Proof. apply c74_back. Qed.
Print Assumptions C74_restored_partial.

Definition made (d : dict) : dict := match make_params no_json (PDict d) with Ok p => p | Err _ => [] end.
Definition compacted_of (d : dict) : dict := match compact_repr (made d) with Ok c => c | Err _ => [] end.

(** three series of two frequencies, the second one ending before the others *)
Definition mixed : dict :=
  dset (pname "frequency") (VList [VStr (pname "m"); VStr (pname "q"); VStr (pname "M")])
    (dset (pname "data_ends") (VList [VNone; VInt 20; VNone])
      (dset (pname "continuity") (VBool false) (dset (pname "missing_value") (VStr (pname "n/a")) sample))).

Ltac cells_ := repeat match goal with
  | |- Forall2 _ _ _ => constructor
  | |- cell_named _ _ _ => apply cell_named_iff; reflexivity
  | |- Forall in_capitals _ => constructor
  | |- in_capitals _ => reflexivity
  end.
Ltac each_ := eexists; split; [reflexivity|]; split; [reflexivity|]; repeat (constructor; [|]); try apply Forall_nil.

Example C74_case : restorable (made mixed) 3 [(1, 2); (1, 3); (1, 4)] 2 /\
  compacted_of mixed =
    [ (pname "alignment", VStr (pname "vertical"));
      (pname "headers_coord", VList [VStr (pname "B1"); VStr (pname "C1"); VStr (pname "D1")]);
      (pname "data_starts", VInt 2);
      (pname "data_ends", VList [VNone; VInt 20; VNone]);
      (pname "continuity", VBool false);
      (pname "missing_value", VList [VStr (pname "n/a")]);
      (pname "time_multicolumn", VBool false);
      (pname "time_header_coord", VStr (pname "A1"));
      (pname "frequency", VList [VStr (pname "M"); VStr (pname "Q"); VStr (pname "M")]) ] /\
  make_params no_json (PDict (compacted_of mixed)) = Ok (made mixed).
Proof.
  split; [|split; vm_compute; reflexivity].
  constructor.
  - exists [pname "B1"; pname "C1"; pname "D1"]. split; [reflexivity|]. split; [split; unfold names_cells; cells_|reflexivity].
  - right. exists (1, 2), (1, 3). cbn. intuition discriminate.
  - apply (to_cell _ _ (pname "A1") 1 1); [reflexivity|split; unfold names_cells; cells_|reflexivity].
  - split; [each_; eexists; reflexivity|]. eexists. split; reflexivity.
  - each_; eexists; (split; [reflexivity|]); (apply Forall_cons; [cbn; auto 8|apply Forall_nil]).
  - each_; first [right; reflexivity|left; eexists; reflexivity].
  - each_; right; reflexivity.
  - each_; auto.
  - intros k [<-|K]; [right; each_; eexists; reflexivity|]. left. repeat (destruct K as [<-|K]; [reflexivity|]). destruct K.
  - right. each_; left; reflexivity.
  - exists [VStr (pname "n/a")]. split; [reflexivity|]. split; [discriminate|]. repeat constructor.
  - split; reflexivity.
  - split; [lia|]. intros [X|[X _]]; vm_compute in X; discriminate.
Qed.

(** with a context, the dictionary is not accepted *)
Definition with_context : dict := sample_with "context" (VDict [(pname "Activity", VStr (pname "B1-C1"))]).
Theorem C74_context_refuted : exists d p c, make_params no_json (PDict d) = Ok p /\ parameters_object p /\ compact_repr p = Ok c /\
  make_params no_json (PDict c) = Err EInvalid.
Proof. exists with_context, (made with_context), (compacted_of with_context). repeat split; vm_compute; reflexivity. Qed.
Print Assumptions C74_context_refuted.

(** the same composed headers for all the series become texts *)
Definition with_parents : dict :=
  dset (pname "composed_headers_coord") (VList [VList [VStr (pname "B1")]; VList [VStr (pname "B1")]])
    (dset (pname "headers_coord") (VList [VStr (pname "B2"); VStr (pname "C2")]) (sample_with "data_starts" (VInt 3))).
Theorem C74_composed_refuted : exists d p c q, make_params no_json (PDict d) = Ok p /\ compact_repr p = Ok c /\ make_params no_json (PDict c) = Ok q /\
  series_value p (pname "composed_headers_coord") 0 (VList [VStr (pname "B1")]) /\
  series_value q (pname "composed_headers_coord") 0 (VStr (pname "B1")) /\ q <> p.
Proof.
  exists with_parents, (made with_parents), (compacted_of with_parents), (made (compacted_of with_parents)).
  split; [vm_compute; reflexivity|]. split; [vm_compute; reflexivity|]. split; [vm_compute; reflexivity|].
  split; [eexists; split; vm_compute; reflexivity|]. split; [eexists; split; vm_compute; reflexivity|].
  intros E. vm_compute in E. discriminate.
Qed.
Print Assumptions C74_composed_refuted.

(** the same header given twice becomes one series *)
Definition twice : dict := sample_with "headers_coord" (VList [VStr (pname "B1"); VStr (pname "B1")]).
Theorem C74_twice_refuted : exists d p c q, make_params no_json (PDict d) = Ok p /\ compact_repr p = Ok c /\ make_params no_json (PDict c) = Ok q /\
  series_count p 2 /\ series_count q 1.
Proof.
  exists twice, (made twice), (compacted_of twice), (made (compacted_of twice)).
  repeat split; try (vm_compute; reflexivity); try (apply count_num; vm_compute; reflexivity).
Qed.
Print Assumptions C74_twice_refuted.

(** one series with its index in two columns becomes two series *)
Definition one_split : dict :=
  dset (pname "time_header_coord") (VList [VList [VStr (pname "A1"); VStr (pname "B1")]]) (sample_with "headers_coord" (VStr (pname "C1"))).
Theorem C74_one_split_refuted : exists d p c q, make_params no_json (PDict d) = Ok p /\ compact_repr p = Ok c /\ make_params no_json (PDict c) = Ok q /\
  get_num_series p = Some 1%nat /\ get_num_series q = Some 2%nat.
Proof.
  exists one_split, (made one_split), (compacted_of one_split), (made (compacted_of one_split)). repeat split; vm_compute; reflexivity.
Qed.
Print Assumptions C74_one_split_refuted.

(** ** C75 Removing what is not critical *)
Theorem C75_remove p n differents : parameters_object p -> series_count p n -> (1 <= n)%nat ->
  (exists hs, dgetN (pname "headers_coord") p = VList hs /\ List.length hs = n) ->
  (differents = false -> forall k, comparable (dgetN k p)) ->
  exists q, remove_non_critical p differents = (q, Ok tt) /\ only_critical_left p q n differents.
Proof. apply c75. Qed.
Print Assumptions C75_remove.

(** the blanks are not the same for all the series: kept, unless asked otherwise *)
Definition blanks : dict :=
  dset (pname "blank_rows") (VList [VBool true; VBool false; VBool true]) (dset (pname "series_names") (VList [VStr (pname "a"); VStr (pname "b"); VStr (pname "c")]) mixed).
Definition left_of (d : dict) (differents : bool) : dict := fst (remove_non_critical (made d) differents).
Example C75_case :
  series_count (made blanks) 3 /\ (forall k, comparable (dgetN k (made blanks))) /\ series_differ (made blanks) (pname "blank_rows") /\
  dgetN (pname "blank_rows") (left_of blanks false) = VList [VBool true; VBool false; VBool true] /\
  dgetN (pname "blank_rows") (left_of blanks true) = VNone /\
  dgetN (pname "continuity") (left_of blanks false) = VNone /\
  dgetN (pname "series_names") (left_of blanks false) = VList [VNone; VNone; VNone] /\
  dgetN (pname "frequency") (left_of blanks false) = VList [VStr (pname "M"); VStr (pname "Q"); VStr (pname "M")] /\
  dgetN (pname "missing_value") (left_of blanks true) = VList (repeat (VList [VStr (pname "n/a")]) 3).
Proof.
  split; [apply count_num; vm_compute; reflexivity|]. split.
  { intros k l E. assert (I : In k (map fst (made blanks))).
    { apply (BuildFacts.dget_has k _ (VList l)). unfold dgetN in E. destruct (dget k (made blanks)); [congruence|discriminate]. }
    assert (M : made blanks = ltac:(let x := eval vm_compute in (made blanks) in exact x)) by (vm_compute; reflexivity).
    rewrite M in E, I. clear M. cbn [map fst] in I.
    repeat (destruct I as [<-|I]; [vm_compute in E; first [discriminate
      | injection E as <-; split; [discriminate|]; first [left; eexists _, _; reflexivity
        | right; repeat (constructor; [split; [intros [? Y]; discriminate|split; [intros [? Y]; discriminate|reflexivity]]|]); constructor]]|]).
    destruct I. }
  split; [exists (VBool true), [VBool false; VBool true]; split; [vm_compute; reflexivity|]; split; [intros [? Y]; discriminate|left; reflexivity]|].
  repeat split; vm_compute; reflexivity.
Qed.

(** contexts of the series are taken to be the same, whatever they are *)
Example C75_context_lost : exists d p, make_params no_json (PDict d) = Ok p /\
  series_value p (pname "context") 0 (VList [VStr (pname "Activity")]) /\ series_value p (pname "context") 2 (VList []) /\
  dgetN (pname "context") (fst (remove_non_critical p false)) = VList [VNone; VNone; VNone].
Proof.
  exists with_context, (made with_context). split; [vm_compute; reflexivity|]. split; [eexists; split; vm_compute; reflexivity|].
  split; [eexists; split; vm_compute; reflexivity|]. vm_compute. reflexivity.
Qed.

(** when the first series has one value and a later one a list of them, what the
    parameter holds cannot be compared: TypeError, and nothing is removed *)
Theorem C75_uneven p k x l : parameters_object p -> ~ In k critical_names -> dgetN k p = VList (x :: l) -> ~ is_list_value x ->
  Exists (fun y => is_list_value y \/ a_dict y) (x :: l) -> (forall k', dgetN k' p <> VList []) ->
  remove_non_critical p false = (p, Err EType).
Proof. apply c75_uneven. Qed.
Print Assumptions C75_uneven.
Definition uneven : dict :=
  dset (pname "composed_headers_coord") (VList [VNone; VList [VStr (pname "B1")]; VNone]) mixed.
Example C75_uneven_case : make_params no_json (PDict uneven) = Ok (made uneven) /\
  dgetN (pname "composed_headers_coord") (made uneven) = VList [VNone; VList [VStr (pname "B1")]; VNone] /\
  remove_non_critical (made uneven) false = (made uneven, Err EType) /\ is_ok (snd (remove_non_critical (made uneven) true)) = true.
Proof. vm_compute. repeat split. Qed.
