(** Property C77: the files of the cases and the check of a result. *)
From Verif Require SpecData NumberFacts.
From Verif Require Import Base BaseFacts Params DataFrame Files Compact Cases SpecParams SpecCount SpecCompact
  SpecCompare SpecAttempts CompareProofs PropsCompare PropsCompact.
Local Open Scope Z_scope.

(** ** C77 *)

(** a result of as many frames as expected passes exactly when each frame passes
    the comparison with the one expected in its place (see C48) *)
Theorem C77_check_partial dfs expected : List.length dfs = List.length expected ->
  (check_case_exp_result dfs expected = Ok tt <->
   Forall2 (fun a b => compare_data_frames a b = Ok true) dfs expected).
Proof.
  revert expected. induction dfs as [|a dfs IH]; intros [|b expected] L; try discriminate.
  { split; [constructor|reflexivity]. }
  injection L as L. specialize (IH expected L). unfold check_case_exp_result in *. cbn [combine check_pairs fst snd].
  destruct (compare_data_frames a b) as [x|x] eqn:C; cbn [bind].
  - assert (x = true).
    { unfold compare_data_frames, assert_ in C.
      destruct (Nat.eqb _ _); cbn [bind] in C; [|discriminate].
      destruct (text_eqb _ _); cbn [bind] in C; [|discriminate].
      destruct (check_columns (df_cols a) (df_cols b)) as [y|y]; cbn [bind] in C; [|discriminate].
      destruct y; cbn [bind] in C; [|discriminate].
      destruct (check_index _ _); cbn [bind] in C; [|discriminate].
      destruct (check_values a b) as [y|y]; cbn [bind] in C; [|discriminate]. destruct y; cbn [bind] in C; congruence. }
    subst x. rewrite IH. split; [intros H; constructor; assumption|intros H; inversion H; assumption].
  - split; [discriminate|]. intros H. inversion H; congruence.
Qed.
Print Assumptions C77_check_partial.

(** a result passes with frames missing, even all of them, and with frames that
    are not expected *)
Theorem C77_fewer_refuted expected : check_case_exp_result [] expected = Ok tt /\
  (forall dfs more, check_case_exp_result dfs dfs = Ok tt -> check_case_exp_result (dfs ++ more) dfs = Ok tt).
Proof.
  split; [reflexivity|]. intros dfs more H. unfold check_case_exp_result in *.
  replace (combine (dfs ++ more) dfs) with (combine dfs dfs); [exact H|].
  clear H. assert (G : forall l r : list df, List.length l = List.length r -> combine (l ++ more) r = combine l r).
  { induction l as [|x l IH]; intros [|y r] L; try discriminate; [destruct more; reflexivity|]. cbn [app combine]. rewrite IH by (injection L as L; exact L). reflexivity. }
  symmetry. apply G. reflexivity.
Qed.
Print Assumptions C77_fewer_refuted.
(** the frames of a case pass the check of that case *)
Theorem C77_itself dfs : check_case_exp_result dfs dfs = Ok tt.
Proof. apply C77_check_partial; [reflexivity|]. induction dfs; constructor; [apply C48_itself|assumption]. Qed.
Print Assumptions C77_itself.

(** different cases have different files, unless a digit begins the name of the
    special version *)
Theorem C77_names m n s s' format : 0 <= m -> 0 <= n ->
  (forall c r, s = Some (c :: r) -> is_digit c = false) -> (forall c r, s' = Some (c :: r) -> is_digit c = false) ->
  gen_filename m s format = gen_filename n s' format ->
  m = n /\ match s with Some x => x | None => [] end = match s' with Some x => x | None => [] end.
Proof.
  intros M N D D' H. unfold gen_filename in H. apply app_inv_head in H.
  set (x := match s with Some x => x | None => [] end) in *. set (y := match s' with Some x => x | None => [] end) in *.
  assert (DX : forall c r, x ++ T "." ++ format = c :: r -> is_digit c = false).
  { intros c r E. destruct x as [|c' x'] eqn:X; [cbn in E; injection E as <- _; reflexivity|]. injection E as <- _.
    apply (D c' x'). unfold x in X. destruct s; [congruence|discriminate]. }
  assert (DY : forall c r, y ++ T "." ++ format = c :: r -> is_digit c = false).
  { intros c r E. destruct y as [|c' y'] eqn:Y; [cbn in E; injection E as <- _; reflexivity|]. injection E as <- _.
    apply (D' c' y'). unfold y in Y. destruct s'; [congruence|discriminate]. }
  assert (G : forall a b u v : text, forallb is_digit a = true -> forallb is_digit b = true ->
    (forall c r, u = c :: r -> is_digit c = false) -> (forall c r, v = c :: r -> is_digit c = false) ->
    a ++ u = b ++ v -> a = b /\ u = v).
  { induction a as [|c a IH]; intros [|c' b] u v A B U V E.
    - split; [reflexivity|exact E].
    - cbn in B. apply andb_prop in B as [B _]. cbn in E. specialize (U c' (b ++ v) E). congruence.
    - cbn in A. apply andb_prop in A as [A _]. cbn in E. specialize (V c (a ++ u) (eq_sym E)). congruence.
    - cbn in A, B, E. apply andb_prop in A as [_ A], B as [_ B]. injection E as -> E.
      destruct (IH b u v A B U V E) as [-> ->]. split; reflexivity. }
  destruct (G _ _ _ _ (Z_text_digits m M) (Z_text_digits n N) DX DY H) as [E F].
  apply Z_text_inj in E; [|assumption..]. split; [exact E|]. apply app_inv_tail in F. exact F.
Qed.
Print Assumptions C77_names.

(** a special version whose name begins with a digit may be taken for a case *)
Theorem C77_names_refuted : exists m n s s', m <> n /\ gen_filename m s (T "xlsx") = gen_filename n s' (T "xlsx").
Proof. exists 1, 11, (Some (T "1")), None. split; [discriminate|vm_compute; reflexivity]. Qed.
Print Assumptions C77_names_refuted.

(** the parameters of a case are read from its json file, and the critical ones
    are those parameters without what is not critical (C75) *)
Theorem C77_parameters json dir num special d b n :
  json (path_join dir (gen_filename num special (T "json"))) = Ok d -> build d = Ok b ->
  load_parameters_case json dir num special = Ok (params_of b) /\
  (parameters_object (params_of b) -> series_count (params_of b) n -> (1 <= n)%nat ->
   (exists hs, dgetN (pname "headers_coord") (params_of b) = VList hs /\ List.length hs = n) ->
   (forall k, comparable (dgetN k (params_of b))) ->
   exists q, load_critical_parameters_case json dir num special = Ok q /\ only_critical_left (params_of b) q n false).
Proof.
  intros J B.
  assert (E : load_parameters_case json dir num special = Ok (params_of b)).
  { unfold load_parameters_case, case_path, make_params.
    destruct (path_join dir (gen_filename num special (T "json"))) as [|c r] eqn:P.
    { exfalso. unfold path_join in P. destruct (rev dir) as [|x l]; [discriminate|]. destruct (ch_eqb x "/"%char); apply app_eq_nil in P as [_ P]; discriminate. }
    rewrite <- P. replace (ends_with (T ".json") (path_join dir (gen_filename num special (T "json")))) with true.
    { rewrite P, J. cbn [bind]. rewrite B. reflexivity. }
    symmetry. clear. assert (X : exists a, path_join dir (gen_filename num special (T "json")) = a ++ T ".json").
    { unfold gen_filename. change (T "." ++ T "json") with (T ".json").
      assert (G : forall b : text, exists a, path_join dir (b ++ T ".json") = a ++ T ".json").
      { intros b. unfold path_join. destruct (rev dir) as [|x l]; [exists b; reflexivity|]. destruct (ch_eqb x "/"%char);
          [exists (dir ++ b)|exists (dir ++ T "/" ++ b)]; rewrite <- ?app_assoc; reflexivity. }
      rewrite !app_assoc. apply G. }
    destruct X as [a ->]. unfold ends_with. rewrite rev_app_distr. vm_compute. reflexivity. }
  split; [exact E|]. intros O C N H K. destruct (C75_remove (params_of b) n false O C N H (fun _ => K)) as (q & R & L).
  exists q. unfold load_critical_parameters_case. rewrite E. cbn [bind]. rewrite R. split; [reflexivity|exact L].
Qed.
Print Assumptions C77_parameters.

(** a case whose parameters cannot be reduced (C75_uneven) cannot be loaded so *)
Theorem C77_uneven json dir num special p k x l : load_parameters_case json dir num special = Ok p ->
  parameters_object p -> ~ In k critical_names -> dgetN k p = VList (x :: l) -> ~ is_list_value x ->
  Exists (fun y => is_list_value y \/ a_dict y) (x :: l) -> (forall k', dgetN k' p <> VList []) ->
  load_critical_parameters_case json dir num special = Err EType.
Proof. intros L O NC E NL EX NE. unfold load_critical_parameters_case. rewrite L. cbn [bind]. rewrite (C75_uneven p k x l); auto. Qed.
Print Assumptions C77_uneven.
Example C77_uneven_case : load_parameters_case (fun _ => Ok uneven) (T "/cases") 3 None = Ok (made uneven) /\ load_critical_parameters_case (fun _ => Ok uneven) (T "/cases") 3 None = Err EType.
Proof. vm_compute. split; reflexivity. Qed.

Example C77_case :
  let one := frame_of [fl 1 0; fl 2 0] in let near := frame_of [fl 100001 (-5); fl 2 0] in let far := frame_of [fl 1001 (-3); fl 2 0] in
  check_case_exp_result [one; far] [near; far] = Ok tt /\ check_case_exp_result [one; one] [near; far] = Err EAssert /\
  check_case_exp_result [one] [near; far] = Ok tt /\
  gen_filename 7 (Some (T "b")) (T "json") = T "test_case7b.json" /\
  (let file p := if text_eqb p (T "/cases/test_case7b.json") then Ok blanks else Err EOther in
   load_parameters_case file (T "/cases") 7 (Some (T "b")) = Ok (made blanks) /\
   load_critical_parameters_case file (T "/cases") 7 (Some (T "b")) = Ok (left_of blanks false) /\
   load_parameters_case file (T "/cases") 8 None = Err EOther).
Proof. vm_compute. repeat split. Qed.
