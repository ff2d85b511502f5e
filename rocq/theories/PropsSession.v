(** C56: calls on one XlSeries object do not influence each other. *)
From Verif Require Import Base Coord XlMethods Params ParseTime PeriodRange DataFrame Attempts Scrape Xlseries Session SpecParams
  SpecScrape SpecSession SessionProofs Demo PropsParams PropsScrape.
Local Open Scope Z_scope.

(** Whatever was called before, and however it ended, a call with a dictionary
    or a path brings what it would have brought as the first one. *)
Theorem C56_history e uni json wb s cs c i :
  wb_ok (fst s) wb -> possible e uni json wb s cs -> preserving cs ->
  c_preserve c = true -> c_params c = UInput i ->
  answer_of e uni json wb (after e uni json wb s cs) c = answer_of e uni json wb s c.
Proof.
  intros W P Pr Pc Ec. apply c56; auto.
  - rewrite Ec. exact I.
  - rewrite Ec. discriminate.
Qed.
Print Assumptions C56_history.

(** So does a call with a Parameters object that was not used before, or that
    is not complete. *)
Theorem C56_object e uni json wb s cs c k :
  wb_ok (fst s) wb -> possible e uni json wb s cs -> preserving cs ->
  c_preserve c = true -> c_params c = UObj k -> (k < List.length (st_params (fst s)))%nat ->
  not_given k cs \/ several (params (fst s) k) ->
  answer_of e uni json wb (after e uni json wb s cs) c = answer_of e uni json wb s c.
Proof.
  intros W P Pr Pc Ec Lk Hk. apply c56; auto.
  - rewrite Ec. exact Lk.
  - intros j Ej. rewrite Ec in Ej. injection Ej as <-. exact Hk.
Qed.
Print Assumptions C56_object.

(** The same calls bring the same, in any order and any number of times. *)
Theorem C56_any_order e uni json wb s cs ds c i :
  wb_ok (fst s) wb -> possible e uni json wb s cs -> preserving cs -> possible e uni json wb s ds -> preserving ds ->
  c_preserve c = true -> c_params c = UInput i ->
  answer_of e uni json wb (after e uni json wb s cs) c = answer_of e uni json wb (after e uni json wb s ds) c.
Proof.
  intros W P Pr Q Qr Pc Ec.
  rewrite (C56_history e uni json wb s cs c i), (C56_history e uni json wb s ds c i); auto.
Qed.
Print Assumptions C56_any_order.

(** The parameters kept for a sheet are those of the last call that brought
    series from it ... *)
Theorem C56_saved e uni json wb s cs1 c cs2 st1 out name pid :
  get_data_frames e uni json (fst (after e uni json wb s cs1)) wb (c_params c) (c_sheet c) (c_safe c) (c_preserve c)
    = (st1, Ok (out, name, pid)) ->
  (forall cs3 c3 cs4, cs2 = cs3 ++ c3 :: cs4 -> ~ succeeds_on e uni json wb (after e uni json wb s (cs1 ++ c :: cs3)) c3 name) ->
  saved_at name (snd (after e uni json wb s (cs1 ++ c :: cs2))) = Some pid.
Proof. exact (c56_saved e uni json wb s cs1 c cs2 st1 out name pid). Qed.
Print Assumptions C56_saved.
(** ... with the values they had then, ... *)
Theorem C56_saved_values e uni json wb s cs1 c cs2 st1 out name pid : wb_ok (fst s) wb ->
  possible e uni json wb s (cs1 ++ c :: cs2) -> preserving (cs1 ++ c :: cs2) ->
  get_data_frames e uni json (fst (after e uni json wb s cs1)) wb (c_params c) (c_sheet c) (c_safe c) (c_preserve c)
    = (st1, Ok (out, name, pid)) ->
  not_given pid cs2 ->
  params (fst (after e uni json wb s (cs1 ++ c :: cs2))) pid = params st1 pid.
Proof. exact (c56_saved_params e uni json wb s cs1 c cs2 st1 out name pid). Qed.
Print Assumptions C56_saved_values.
(** ... and there are none for a sheet nothing was brought from. *)
Theorem C56_none_saved e uni json wb st cs name :
  (forall cs3 c3 cs4, cs = cs3 ++ c3 :: cs4 -> ~ succeeds_on e uni json wb (after e uni json wb (st, []) cs3) c3 name) ->
  saved_at name (snd (after e uni json wb (st, []) cs)) = None.
Proof. exact (c56_never e uni json wb (st, []) cs name). Qed.
Print Assumptions C56_none_saved.

(** ** What is false *)
(** one month more than [demo_text] *)
Definition longer : worksheet := sheet_of (T "Longer")
  [[VStr (T "Date"); VStr (T "a"); VStr (T "b"); VStr (T "c")];
   [VStr (T "2000-01"); VInt 1; VInt 2; VInt 3];
   [VStr (T "2000-02"); VInt 4; VInt 5; VInt 6];
   [VStr (T "2000-03"); VInt 7; VInt 8; VInt 9];
   [VStr (T "2000-04"); VInt 10; VInt 11; VInt 12]].
Definition life : store * saved := (mkstore [demo_text; longer] (st_params demo_store), []).
Definition months (r : res dfs_t) : option nat :=
  match r with Ok (DF d) => Some (List.length (pr_dates (df_index d))) | _ => None end.
Definition asking (u : uparams) (name : string) (preserve : bool) : call := mkcall u (Some (T name)) false preserve.
Definition run_ := answer_of demo_env (fun t => t) no_json [0; 1]%nat.
Definition after_ := after demo_env (fun t => t) no_json [0; 1]%nat.

(** A complete Parameters object used for one sheet and then for a longer one
    loses the last month of the longer one, without a warning, as the end found
    in the first sheet was written to it. *)
Theorem C56_object_again_refuted : exists e uni json wb s c1 c2 k,
  wb_ok (fst s) wb /\ possible e uni json wb s [c1; c2] /\ preserving [c1; c2] /\
  c_params c1 = UObj k /\ c_params c2 = UObj k /\
  months (answer_of e uni json wb s c2) = Some 4%nat /\
  months (answer_of e uni json wb (after e uni json wb s [c1]) c2) = Some 3%nat.
Proof.
  exists demo_env, (fun t => t), no_json, [0; 1]%nat, life, (asking (UObj 0) "Texts" true), (asking (UObj 0) "Longer" true), 0%nat.
  split; [repeat constructor|]. split.
  - cbn [possible]. split; [vm_compute; repeat constructor|]. split; [|exact I]. vm_compute. repeat constructor.
  - split; [repeat constructor|]. split; [reflexivity|]. split; [reflexivity|]. vm_compute. split; reflexivity.
Qed.
Print Assumptions C56_object_again_refuted.

(** Without preserving, the same call made twice brings series once: the texts
    of the index are dates the second time. *)
Theorem C56_not_preserving_refuted : exists e uni json wb s c i,
  wb_ok (fst s) wb /\ c_params c = UInput i /\ c_preserve c = false /\
  months (answer_of e uni json wb s c) = Some 3%nat /\
  raises (answer_of e uni json wb (after e uni json wb s [c]) c).
Proof.
  exists demo_env, (fun t => t), no_json, [0; 1]%nat, life, (asking (UInput (PDict complete)) "Texts" false), (PDict complete).
  split; [repeat constructor|]. split; [reflexivity|]. split; [reflexivity|]. split; [vm_compute; reflexivity|].
  exists ENotComposed. vm_compute. reflexivity.
Qed.
Print Assumptions C56_not_preserving_refuted.

(** calls of all kinds, some of which fail, then one again *)
Definition before : list call :=
  [asking (UInput (PDict sample)) "Texts" true; asking (UInput (PDict [])) "Longer" true; asking (UObj 0) "Texts" true;
   asking (UInput (PDict sample)) "Nothing" true; mkcall (UInput (PDict sample)) None true true].
Example C56_case :
  wb_ok (fst life) [0; 1]%nat /\ possible demo_env (fun t => t) no_json [0; 1]%nat life before /\ preserving before /\
  map is_ok (snd (do_calls demo_env (fun t => t) no_json [0; 1]%nat life before)) = [true; false; true; false; true] /\
  months (run_ (after_ life before) (asking (UInput (PDict sample)) " Longer" true)) = Some 4%nat /\
  map fst (snd (after_ life before)) = [T "Texts"].
Proof.
  split; [repeat constructor|]. split.
  - cbn [possible before]. repeat (split; [vm_compute; repeat constructor|]). exact I.
  - split; [repeat constructor|]. vm_compute. repeat split.
Qed.
