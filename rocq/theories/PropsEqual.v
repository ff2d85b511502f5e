(** Property C68: when two Parameters are equal. *)
From Verif Require Import Base BaseFacts Params SpecCoord SpecParams SpecAttempts SpecEqual EqualProofs PropsParams.
From Coq Require Import Floats.SpecFloat.
Local Open Scope Z_scope.

(** ** C68 Two Parameters are equal when each parameter has equal values in both *)
Theorem C68_values a b : proper a -> proper b -> (py_eq a b = true <-> equal_values a b).
Proof. intros. apply eq_iff; auto. Qed.
Print Assumptions C68_values.

Theorem C68_parameters p q : proper_parameters p -> proper_parameters q ->
  (params_eq p q = true <-> forall k v w, In (k, v) p -> In (k, w) q -> equal_values v w).
Proof. apply params_iff. Qed.
Print Assumptions C68_parameters.

(** in either order *)
Theorem C68_symmetric p q : proper_parameters p -> proper_parameters q -> params_eq p q = params_eq q p.
Proof.
  intros P Q. apply Bool.eq_iff_eq_true. rewrite !params_iff by auto. split; intros E k v w I J; apply equal_sym; eauto.
Qed.
Print Assumptions C68_symmetric.

(** two equal to a third are equal *)
Theorem C68_transitive p q r : proper_parameters p -> proper_parameters q -> proper_parameters r ->
  params_eq p q = true -> params_eq q r = true -> params_eq p r = true.
Proof.
  intros P Q R. rewrite !params_iff by auto. intros A B k v w I J.
  assert (K : In k (map fst q)). { destruct P as [O _], Q as [O' _]. rewrite O', <- O. apply in_map_iff. exists (k, v). auto. }
  apply in_map_iff in K. destruct K as ([k' u] & E & K). cbn [fst] in E. subst k'. apply (equal_trans v u w); eauto.
Qed.
Print Assumptions C68_transitive.

(** an object with the same parameters is equal to it exactly when there is no NaN in them *)
Theorem C68_itself p : proper_parameters p -> (params_eq p p = true <-> forall k v, In (k, v) p -> without_nan v).
Proof.
  intros P. rewrite params_iff by auto. pose proof (names_nodup p (proj1 P)) as N. split.
  - intros E k v I. apply equal_self. eauto.
  - intros W k v w I J. assert (v = w) by (apply (nodup_dget p k v) in I; auto; apply (nodup_dget p k w) in J; auto; congruence). subst w.
    apply equal_refl; eauto. destruct P as [_ V]. eauto.
Qed.
Print Assumptions C68_itself.

(** True, 1 and 1.0 are equal, also inside lists; NaN is not equal to itself *)
Example C68_case :
  equal_values (VList [VBool true; VInt 1]) (VList [VFloat (S754_finite false 4503599627370496 (-52)); VBool true]) /\
  ~ equal_values (VFloat S754_nan) (VFloat S754_nan) /\ ~ equal_values (VInt 2) (VStr (pname "2")) /\
  equal_values (VDict [(pname "a", VInt 1); (pname "b", VNone)]) (VDict [(pname "b", VNone); (pname "a", VBool true)]).
Proof.
  assert (D : proper (VDict [(pname "a", VInt 1); (pname "b", VNone)]) /\ proper (VDict [(pname "b", VNone); (pname "a", VBool true)])).
  { split; (constructor; [nodup|]); intros k v [E|[E|[]]]; injection E as <- <-; constructor. }
  repeat split.
  - apply eq_iff; [repeat constructor|repeat constructor|reflexivity].
  - intros E. apply eq_iff in E; [discriminate|constructor; reflexivity|constructor; reflexivity].
  - intros E. apply eq_iff in E; [discriminate|constructor|constructor].
  - apply eq_iff; [apply D|apply D|reflexivity].
Qed.
Ltac properly := match goal with
  | |- proper (VList _) => constructor; repeat constructor
  | |- proper _ => constructor
  end.
(** the parameters of one table, given in two ways, and of another *)
Example C68_parameters_case : exists p q r,
  make_params no_json (PDict sample) = Ok p /\ make_params no_json (PDict (sample_with "data_starts" (VList [VInt 2; VInt 2; VInt 2]))) = Ok q /\
  make_params no_json (PDict (sample_with "data_starts" (VInt 3))) = Ok r /\
  proper_parameters p /\ proper_parameters q /\ proper_parameters r /\
  params_eq p q = true /\ params_eq p r = false /\ (forall k v, In (k, v) p -> without_nan v).
Proof.
  do 3 eexists. split; [vm_compute; reflexivity|]. split; [vm_compute; reflexivity|]. split; [vm_compute; reflexivity|].
  split; [|split; [|split; [|split; [vm_compute; reflexivity|split; [vm_compute; reflexivity|]]]]].
  1-3: split; [reflexivity|intros k v I; repeat (destruct I as [I|I]; [injection I as <- <-; properly|]); destruct I].
  intros k v I. repeat (destruct I as [I|I]; [injection I as <- <-; constructor; repeat constructor|]). destruct I.
Qed.
