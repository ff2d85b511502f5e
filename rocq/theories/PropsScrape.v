(** Properties C19 - C23, C50 and C51: the scraper and the entry point. *)
From Verif Require Import Base BaseFacts Coord Comparing XlMethods Params Attempts ParseTime TimeIndex GetData PeriodRange
  DataFrame Scrape Xlseries SpecParams SpecScrape ScrapeFacts ScrapeProofs ScrapeProofs2 PropsParams Demo.
Local Open Scope Z_scope.

(** ** C19 Without safe mode the first successful attempt is the answer *)
(** The frames are those the attempt gives alone, on a fresh copy of the sheet,
    whatever the attempts before it did. *)
Theorem C19_first_successful e st si pi l i a dfs : (si < List.length (st_sheets st))%nat ->
  discover_parameters (params st pi) = Ok l -> List.length l <> 1%nat ->
  nth_error l i = Some a -> alone e (make_ws_copy (sheet st si)) a = Ok dfs ->
  (forall j b, (j < i)%nat -> nth_error l j = Some b -> raises (alone e (make_ws_copy (sheet st si)) b)) ->
  exists st' out pid, scrape e false st si pi = (st', Ok (out, pid)) /\ handed dfs out /\
    forall k, k <> pname "data_ends" -> dget k (params st' pid) = dget k a.
Proof.
  intros Hs Hl Hn Ha Ho Hb. destruct (c19_first e st si pi l i a dfs Hs Hl Hn Ha Ho Hb) as [st' [out [E H]]].
  exists st', out, (List.length (st_params st) + i)%nat. split; [exact E|]. split; [exact H|].
  exact (c19_params e st si pi l i a dfs _ _ _ Hs Hl Hn Ha Ho Hb E).
Qed.
Print Assumptions C19_first_successful.

Theorem C19_all_raise e safe st si pi l : (si < List.length (st_sheets st))%nat ->
  discover_parameters (params st pi) = Ok l -> List.length l <> 1%nat ->
  (forall b, In b l -> raises (alone e (make_ws_copy (sheet st si)) b)) ->
  exists st', scrape e safe st si pi = (st', Err EOther).
Proof. exact (c19_all_raise e safe st si pi l). Qed.
Print Assumptions C19_all_raise.

(** the first two attempts raise (the dates are texts), the third one reads them *)
Example C19_example :
  match make_params no_json (PDict sample) with
  | Ok p =>
      let st := mkstore [demo_text] [p] in
      match discover_parameters (params st 0) with
      | Ok l => List.length l = 16%nat /\
          map (fun a => is_ok (alone demo_env (make_ws_copy (sheet st 0)) a)) (firstn 3 l) = [false; false; true] /\
          match scrape demo_env false st 0 0 with
          | (st', Ok (DF d, pid)) =>
              df_cols d = [T "a"; T "b"; T "c"] /\ dgetN (pname "time_composed") (params st' pid) = VList (repeat (VBool true) 3)
          | _ => False
          end
      | Err _ => False
      end
  | Err _ => False
  end.
Proof. vm_compute. repeat split. Qed.

(** ** C20 Safe mode returns distinct results *)
(** False in general: a result that is a single frame is never recognised as
    repeated.  On an ordinary sheet with the critical parameters only, the same
    frame is returned again and again. *)
Theorem C20_single_frames_refuted : exists e st si pi st' d rest pid,
  scrape e true st si pi = (st', Ok (DL (DF d :: DF d :: rest), pid)).
Proof.
  exists demo_env, (mkstore [demo] [match make_params no_json (PDict sample) with Ok p => p | Err _ => [] end]), 0%nat, 0%nat.
  do 4 eexists. match goal with |- ?x = _ => let v := eval vm_compute in x in transitivity v end; [vm_compute; reflexivity|reflexivity].
Qed.
Print Assumptions C20_single_frames_refuted.

(** and this is no accident of the sheet: single frames are all kept *)
Theorem C20_single_frames_all_kept results : 
  Forall (fun r => exists d, fst r = DF d /\ df_cols d <> []) results -> unique_results results [] = Ok results.
Proof. intros F. apply (unique_single results []); [exact F|constructor]. Qed.
Print Assumptions C20_single_frames_all_kept.

(** When every result has several frames (or none) equal results are returned
    once, and nothing is lost: every result dropped agrees with one returned,
    frame by frame.  Missing: single frames, see above. *)
Theorem C20_distinct_partial e st si pi l st' out pid : (si < List.length (st_sheets st))%nat ->
  discover_parameters (params st pi) = Ok l -> List.length l <> 1%nat ->
  (forall a dfs, In a l -> alone e (make_ws_copy (sheet st si)) a = Ok dfs -> List.length dfs <> 1%nat) ->
  scrape e true st si pi = (st', Ok (out, pid)) ->
  exists results, all_handed results out /\ NoDup results /\
    (forall r, In r results -> exists a, In a l /\ alone e (make_ws_copy (sheet st si)) a = Ok r) /\
    (forall a dfs, In a l -> alone e (make_ws_copy (sheet st si)) a = Ok dfs ->
       exists r, In r results /\ (dfs = r \/ agree_pairwise dfs r)).
Proof. exact (c20_distinct e st si pi l st' out pid). Qed.
Print Assumptions C20_distinct_partial.

(** eight attempts read the two series; one result is returned *)
Example C20_example :
  match make_params no_json (PDict two_params) with
  | Ok p =>
      let st := mkstore [demo_two] [p] in
      match discover_parameters (params st 0) with
      | Ok l => List.length l = 16%nat /\
          map (fun a => match alone demo_env (make_ws_copy (sheet st 0)) a with Ok dfs => List.length dfs | Err _ => 99%nat end) l
            = [2; 2; 99; 99; 2; 2; 99; 99; 2; 2; 99; 99; 2; 2; 99; 99]%nat /\
          match scrape demo_env true st 0 0 with
          | (_, Ok (DL [DF a; DF b], _)) => df_cols a = [T "m"] /\ df_cols b = [T "q"]
          | _ => False
          end
      | Err _ => False
      end
  | Err _ => False
  end.
Proof. vm_compute. repeat split. Qed.

(** ** C21 The user's workbook is preserved *)
Theorem C21_preserved e uni json st wb u ws_name safe : wb_ok st wb -> in_store st u ->
  sheets_kept st (fst (get_data_frames e uni json st wb u ws_name safe true)).
Proof. intros W U. exact (c21_preserved e uni json st wb u ws_name safe true W U eq_refl). Qed.
Print Assumptions C21_preserved.

Theorem C21_several_attempts e uni json st wb u ws_name safe : wb_ok st wb -> in_store st u ->
  (forall p l, object_of json st u p -> discover_parameters p = Ok l -> List.length l <> 1%nat) ->
  sheets_kept st (fst (get_data_frames e uni json st wb u ws_name safe false)).
Proof. intros W U M. exact (proj1 (several_attempts_kept e uni json st wb u ws_name safe false W U M)). Qed.
Print Assumptions C21_several_attempts.

(** text dates: the copy is written to, the original is not; with complete
    parameters and without preserving, the original is *)
Definition complete : dict :=
  sample ++ [(pname "continuity", VBool true); (pname "blank_rows", VBool false); (pname "missings", VBool false);
             (pname "time_composed", VBool true)].
Definition demo_store : store :=
  mkstore [demo_text; demo; demo_two] [match make_params no_json (PDict complete) with Ok p => p | Err _ => [] end].
Example C21_example :
  let run u preserve := get_data_frames demo_env (fun t => t) no_json demo_store [0; 1; 2]%nat u None false preserve in
  let first r := cell (sheet (fst r) 0) 2 1 in
  (first (run (UObj 0) true) = VStr (T "2000-01") /\ is_ok (snd (run (UObj 0) true)) = true) /\
  (first (run (UInput (PDict sample)) false) = VStr (T "2000-01") /\ is_ok (snd (run (UInput (PDict sample)) false)) = true) /\
  first (run (UObj 0) false) = VDate (mkdt 2000 1 1 0).
Proof. vm_compute. repeat split. Qed.

(** ** C22 The user's parameters are preserved *)
(** False for a complete Parameters object: the ends found are written to it. *)
Theorem C22_complete_object_refuted : exists e uni json st wb pid,
  wb_ok st wb /\ (pid < List.length (st_params st))%nat /\
  is_ok (snd (get_data_frames e uni json st wb (UObj pid) None false true)) = true /\
  params (fst (get_data_frames e uni json st wb (UObj pid) None false true)) pid <> params st pid.
Proof.
  exists demo_env, (fun t => t), no_json, demo_store, [0; 1; 2]%nat, 0%nat.
  split; [repeat constructor|]. split; [repeat constructor|]. split; [vm_compute; reflexivity|].
  intros H. apply (f_equal (dgetN (pname "data_ends"))) in H. vm_compute in H. discriminate.
Qed.
Print Assumptions C22_complete_object_refuted.

(** Nothing else is ever written to it ... *)
Theorem C22_only_ends_partial e uni json st wb u ws_name safe preserve : wb_ok st wb -> in_store st u ->
  forall i k, (i < List.length (st_params st))%nat -> k <> pname "data_ends" ->
  dget k (params (fst (get_data_frames e uni json st wb u ws_name safe preserve)) i) = dget k (params st i).
Proof. intros W U i k. exact (c22_only_ends e uni json st wb u ws_name safe preserve W U i k). Qed.
Print Assumptions C22_only_ends_partial.

(** ... and an object for which several attempts are made is left alone, as
    are all objects when the parameters come as a dictionary or a path. *)
Theorem C22_several_attempts_partial e uni json st wb u ws_name safe preserve : wb_ok st wb -> in_store st u ->
  (forall p l, object_of json st u p -> discover_parameters p = Ok l -> List.length l <> 1%nat) ->
  params_kept st (fst (get_data_frames e uni json st wb u ws_name safe preserve)).
Proof. intros W U M. exact (proj2 (several_attempts_kept e uni json st wb u ws_name safe preserve W U M)). Qed.
Print Assumptions C22_several_attempts_partial.
Theorem C22_dictionary_partial e uni json st wb i ws_name safe preserve : wb_ok st wb ->
  params_kept st (fst (get_data_frames e uni json st wb (UInput i) ws_name safe preserve)).
Proof. intros W. exact (c22_input e uni json st wb (UInput i) ws_name safe preserve W I i eq_refl). Qed.
Print Assumptions C22_dictionary_partial.

Example C22_example :
  match make_params no_json (PDict sample) with
  | Ok p =>
      let st := mkstore [demo] [p] in
      let r := get_data_frames demo_env (fun t => t) no_json st [0%nat] (UObj 0) None false true in
      is_ok (snd r) = true /\ params (fst r) 0 = p /\
      match discover_parameters (params st 0) with Ok l => List.length l = 16%nat | Err _ => False end
  | Err _ => False
  end.
Proof. vm_compute. repeat split. Qed.

(** ** C23 Worksheet names are resolved safely *)
Theorem C23_resolved e uni json st wb u q safe preserve st' out name pid : wb_ok st wb ->
  get_data_frames e uni json st wb u q safe preserve = (st', Ok (out, name, pid)) ->
  resolves uni strip (names_of st wb) q name.
Proof. intros W. exact (c23_result e uni json st wb u q safe preserve W st' out name pid). Qed.
Print Assumptions C23_resolved.

Theorem C23_unresolved_raises e uni json st wb u q safe preserve : wb_ok st wb ->
  (forall name, ~ resolves uni strip (names_of st wb) q name) ->
  raises (snd (get_data_frames e uni json st wb u q safe preserve)) /\
  sheets_kept st (fst (get_data_frames e uni json st wb u q safe preserve)) /\
  params_kept st (fst (get_data_frames e uni json st wb u q safe preserve)).
Proof. intros W. exact (c23_unresolved e uni json st wb u q safe preserve W). Qed.
Print Assumptions C23_unresolved_raises.

(** the sheet scraped is the one with the name found, or a copy of it *)
Theorem C23_sheet_scraped e uni json st wb u q safe preserve name p : wb_ok st wb -> in_store st u ->
  resolves uni strip (names_of st wb) q name -> object_of json st u p ->
  exists i st2 si pid, first_such (fun i => title (sheet st i) = name) wb i /\
    (preserve = false -> si = i /\ sheet st2 si = sheet st i) /\
    (preserve = true -> sheet st2 si = make_ws_copy (sheet st i)) /\
    params st2 pid = p /\ (si < List.length (st_sheets st2))%nat /\ (pid < List.length (st_params st2))%nat /\
    snd (get_data_frames e uni json st wb u q safe preserve) =
      (do x <- snd (scrape e safe st2 si pid); Ok (unwrap_result (fst x), name, snd x)).
Proof. intros W U. exact (c23_sheet e uni json st wb u q safe preserve W U name p). Qed.
Print Assumptions C23_sheet_scraped.
Theorem C23_unambiguous folded trim names q a b :
  resolves folded trim names q a -> resolves folded trim names q b -> a = b.
Proof. exact (resolves_det folded trim names q a b). Qed.
Print Assumptions C23_unambiguous.

(** exact name, spaces, nothing, unknown *)
Example C23_example :
  let run q := snd (get_data_frames demo_env (fun t => t) no_json demo_store [0; 1; 2]%nat
                      (UInput (PDict (match q with Some (c :: _) => if ch_eqb c "T" then two_params else sample | _ => sample end)))
                      q false true) in
  let name r := match r with Ok (_, n, _) => Some n | Err _ => None end in
  name (run (Some (T "Data"))) = Some (T "Data") /\ name (run (Some (T "Data  "))) = Some (T "Data") /\
  name (run (Some (T "Two"))) = Some (T " Two ") /\ name (run None) = Some (T "Texts") /\
  run (Some (T "Other")) = Err EKey.
Proof. vm_compute. repeat split. Qed.

(** ** C50 Copies are faithful *)
Theorem C50_sheet_copy w : bounded w -> same_sheet w (make_ws_copy w).
Proof. exact (copy_same w). Qed.
Print Assumptions C50_sheet_copy.
Theorem C50_workbook_copy wb : Forall bounded wb -> Forall2 same_sheet wb (make_wb_copy wb).
Proof. induction 1; cbn; constructor; auto. apply copy_same. auto. Qed.
Print Assumptions C50_workbook_copy.
(** the copies the entry point works on are new objects, in the same order *)
Theorem C50_objects st wb : wb_ok st wb -> Forall (fun i => bounded (sheet st i)) wb ->
  let st' := fst (copy_wb st wb) in let wb' := snd (copy_wb st wb) in
  sheets_kept st st' /\ NoDup wb' /\ Forall (fun j => (List.length (st_sheets st) <= j)%nat) wb' /\
  Forall2 (fun i j => same_sheet (sheet st i) (sheet st' j)) wb wb'.
Proof.
  intros W B. pose proof (copy_wb_facts wb st W) as F. destruct (copy_wb st wb) as [st' wb']. cbn [fst snd].
  destruct F as [G [_ [J [_ F]]]]. split; [intros i L; apply grows_sheet; auto|].
  split; [rewrite J; apply seq_NoDup|]. split; [rewrite J; apply Forall_forall; intros j I; apply in_seq in I; tauto|].
  clear J. induction F; constructor.
  - rewrite H. apply copy_same. inversion B; auto.
  - inversion W; inversion B; auto.
Qed.
Print Assumptions C50_objects.
(** the hypothesis is kept by everything that is done to a sheet *)
Theorem C50_bounded_kept w r c v : 1 <= r -> 1 <= c -> bounded w ->
  bounded (make_ws_copy w) /\ bounded (touch r c w) /\ bounded (write r c v w).
Proof. intros R C B. split; [apply copy_bounded|]. split; [apply touch_bounded; auto|apply write_bounded; auto]. Qed.
Print Assumptions C50_bounded_kept.
Lemma sheet_of_bounded t rows : bounded (sheet_of t rows).
Proof.
  intros r c H. unfold sheet_of in *. cbn [cell max_row max_col] in *.
  destruct ((1 <=? r) && (1 <=? c)) eqn:E; [|congruence]. apply andb_true_iff in E as [R C]. apply Z.leb_le in R, C.
  set (i := Z.to_nat (r - 1)) in *. set (j := Z.to_nat (c - 1)) in *.
  assert (Hj : (j < List.length (nth i rows []))%nat).
  { destruct (Nat.lt_ge_cases j (List.length (nth i rows []))); auto. rewrite nth_overflow in H by auto. congruence. }
  assert (Hi : (i < List.length rows)%nat).
  { destruct (Nat.lt_ge_cases i (List.length rows)); auto. rewrite (nth_overflow rows) in Hj by auto. cbn in Hj. lia. }
  split; [lia|].
  assert (M : Z.of_nat (List.length (nth i rows [])) <= fold_right Z.max 0 (map (fun l => Z.of_nat (List.length l)) rows)).
  { clearbody i. clear -Hi. revert i Hi. induction rows as [|x rows IH]; cbn; [lia|]. intros [|i] L; [lia|].
    specialize (IH i ltac:(lia)). lia. }
  lia.
Qed.
Example C50_example : bounded demo /\ cell (make_ws_copy demo) 3 4 = VInt 6 /\ cell (make_ws_copy demo) 5 1 = VNone.
Proof.
  split; [apply sheet_of_bounded|vm_compute; split; reflexivity].
Qed.

(** ** C51 Exactly one reading strategy applies *)
Theorem C51_exactly_one e w p : sp_freq p <> [] ->
  (exists! k, In k dcombos /\ dcombo_accepts k p = true) /\
  (exists! multi, accepts_freq multi (sp_freq p) = true) /\
  (exists! k, In k combos /\ k_multitable k = false /\ combo_accepts k p = true) /\
  clean_time_index e w p = clean_single_table e w p.
Proof.
  intros N. split; [exact (one_dcombo p N)|]. split; [exact (one_prange p N)|]. split; [exact (one_combo p N)|].
  exact (clean_is_single e w p N).
Qed.
Print Assumptions C51_exactly_one.
(** and none for an empty frequency, which validation accepts *)
Theorem C51_none_when_empty p : sp_freq p = [] ->
  (forall k, combo_accepts k p = false) /\ (forall k, dcombo_accepts k p = false) /\
  forall multi, accepts_freq multi (sp_freq p) = false.
Proof. exact (none_empty p). Qed.
Print Assumptions C51_none_when_empty.
Example C51_example :
  match make_params no_json (PDict complete) with
  | Ok p => match series_sp p 1 with
            | Ok s => sp_freq s = T "M" /\ filter (fun k => dcombo_accepts k s) dcombos = [mkdcombo false true] /\
                      filter (fun k => combo_accepts k s) combos
                        = [mkcombo false false false false; mkcombo true false false false]
            | Err _ => False
            end
  | Err _ => False
  end.
Proof. vm_compute. repeat split. Qed.
