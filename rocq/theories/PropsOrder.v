(** Property C93: the order in which the combinations are tried. *)
From Verif Require Import Base Params Attempts SpecParams SpecAttempts SpecOrder OrderProofs PropsParams PropsTurn PropsLeave Demo.
Local Open Scope Z_scope.

(** ** C93 The values of the parameters left out are tried by the likeliness of the defaults *)

(** The parameter whose default is the least likely should be changed first, and
    the one whose default is the most likely last.  It is not so: here
    continuity, the most likely one of those left out, is changed by the second
    attempt, and time_composed, the least likely one, is not. *)
Theorem C93_likeliness_refuted : exists json d p a b rest, make_params json (PDict d) = Ok p /\ discover_parameters p = Ok (a :: b :: rest) /\
  (forall x, In x by_likeliness -> not_said p x <-> In (fst x) (map pname ["continuity"; "blank_rows"; "missings"; "time_composed"]%string)) /\
  dget (pname "continuity") a <> dget (pname "continuity") b /\ dget (pname "time_composed") a = dget (pname "time_composed") b.
Proof.
  exists no_json, sample, (of_template sample). do 3 eexists. split; [vm_compute; reflexivity|]. split; [vm_compute; reflexivity|].
  split; [|split; [discriminate|reflexivity]]. intros x I. unfold not_said. cbn in I. repeat destruct I as [<-|I]; try contradiction; vm_compute; split; intros X; try discriminate X; try tauto; repeat destruct X as [X|X]; try discriminate X; try contradiction; auto.
Qed.
Print Assumptions C93_likeliness_refuted.

(** The attempts are nested loops over the values of the parameters left out,
    with the default first in each; which loop is inside which is said by
    [loops_of].  Missing: the order of the likeliness, see above. *)
Theorem C93_order_partial p l n : parameters_object p -> series_count p n -> (0 < n)%nat -> ~ unset p (pname "missing_value") ->
  discover_parameters p = Ok l -> exists r, loops_of (not_said p) by_likeliness r /\ Forall2 (has_values n) l (loops r).
Proof. exact (c93 p l n). Qed.
Print Assumptions C93_order_partial.

(** the order is one *)
Theorem C93_order_unique p r r' : loops_of (not_said p) by_likeliness r -> loops_of (not_said p) by_likeliness r' -> r = r'.
Proof. intros H H'. exact (loops_of_det _ _ _ H _ H'). Qed.
Print Assumptions C93_order_unique.

(** the sample: continuity innermost, then time_composed, missings, and
    blank_rows outermost *)
Definition sample_loops : list (text * list pyval) :=
  [ (pname "blank_rows", [VBool false; VBool true]); (pname "missings", [VBool false; VBool true]); (pname "time_composed", [VBool false; VBool true]); (pname "continuity", [VBool true; VBool false]) ].
Example C93_case : let p := of_template sample in
  make_params no_json (PDict sample) = Ok p /\ parameters_object p /\ series_count p 3 /\ ~ unset p (pname "missing_value") /\
  loops_of (not_said p) by_likeliness sample_loops /\
  exists l, discover_parameters p = Ok l /\ List.length l = 16%nat /\ List.length (loops sample_loops) = 16%nat /\
    map (fun a => map (fun k => dgetN k a) (map fst sample_loops)) l = map (fun c => map (fun kv => VList (repeat (snd kv) 3)) c) (loops sample_loops).
Proof.
  cbv zeta. split; [vm_compute; reflexivity|]. split; [vm_compute; reflexivity|]. split.
  { split; [intros k l I N; vm_compute in I; repeat destruct I as [I|I]; try contradiction; inversion I; subst; cbn; lia|].
    exists (pname "headers_coord"). eexists. split; [vm_compute; right; right; left; reflexivity|]. split; [discriminate|reflexivity]. }
  split; [intros [X _]; vm_compute in X; discriminate X|]. split.
  { change by_likeliness with ([nth 0 by_likeliness ([], []); nth 1 by_likeliness ([], [])] ++ (pname "continuity", [VBool true; VBool false]) ::
      ((([] ++ [(pname "blank_rows", [VBool false; VBool true])]) ++ [(pname "missings", [VBool false; VBool true])]) ++ [(pname "time_composed", [VBool false; VBool true])]) ++ [(pname "time_multicolumn", [VBool false; VBool true])]).
    change sample_loops with (((([] ++ [(pname "blank_rows", [VBool false; VBool true])]) ++ [(pname "missings", [VBool false; VBool true])]) ++ [(pname "time_composed", [VBool false; VBool true])]) ++ [(pname "continuity", [VBool true; VBool false])]).
    apply first_inside; [intros X; vm_compute in X; discriminate X| |vm_compute; reflexivity|].
    - intros z I X. cbn in I. repeat destruct I as [<-|I]; try contradiction; vm_compute in X; discriminate X.
    - repeat (apply last_inside; [vm_compute; reflexivity|]). apply no_loop. intros x []. }
  eexists. split; [vm_compute; reflexivity|]. repeat split.
Qed.
