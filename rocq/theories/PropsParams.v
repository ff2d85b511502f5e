(** Properties C06 - C15 and C52: building, reading and editing Parameters. *)
From Coq Require Import Sorting.Sorted.
From Verif Require Import Base BaseFacts Coord XlMethods Params
  SpecCoord SpecParams SpecCount SpecCoordFacts ParamsFacts ParamsProofs ParamsProofs2 ParamsProofs3 BlankFacts CountExact.
Local Open Scope Z_scope.

(** no json file is read below *)
Definition no_json (t : text) : res dict := Err EOther.
(** the parameters of the examples: three headers in B1:D1, the time in A *)
Definition sample : dict :=
  [ (pname "headers_coord", VStr (pname "B1-D1"));
    (pname "time_header_coord", VStr (pname "A1"));
    (pname "data_starts", VInt 2);
    (pname "frequency", VStr (pname "m")) ].
Definition sample_with (k : string) (v : pyval) : dict := dset (pname k) v sample.

Ltac nodup := repeat constructor; cbn; intuition discriminate.

(** ** C06 A missing critical parameter is always rejected *)
Theorem C06_missing_critical_partial json k d : d <> [] -> In k critical_names -> ~ given k d ->
  make_params json (PDict d) = Err ECritical.
Proof.
  intros N H G. destruct d as [|x d]; [congruence|]. cbn [make_params].
  rewrite (missing_critical _ k H G). reflexivity.
Qed.
Print Assumptions C06_missing_critical_partial.

(** the same for a dictionary read from a json file, empty or not *)
Theorem C06_missing_critical_json json t k d : ends_with (pname ".json") t = true -> json t = Ok d ->
  In k critical_names -> ~ given k d -> make_params json (PPath t) = Err ECritical.
Proof.
  intros E J H G. destruct t as [|c t]; [discriminate|]. cbn [make_params].
  change (ends_with (T ".json") (c :: t)) with (ends_with (pname ".json") (c :: t)).
  rewrite E, J. cbn [bind]. rewrite (missing_critical _ k H G). reflexivity.
Qed.
Print Assumptions C06_missing_critical_json.

(** the full statement fails for the empty dictionary, which gives an object
    without any parameter *)
Theorem C06_empty_dict_refuted : exists d p, (forall k, In k critical_names -> ~ given k d) /\
  make_params no_json (PDict d) = Ok p.
Proof.
  exists [], empty_params. split; [|reflexivity]. intros k _ [v [H _]]. discriminate.
Qed.
Print Assumptions C06_empty_dict_refuted.

Example C06_example :
  ~ given (pname "frequency") (sample_with "frequency" VNone) /\
  make_params no_json (PDict (sample_with "frequency" VNone)) = Err ECritical /\
  is_ok (make_params no_json (PDict sample)) = true.
Proof. split; [intros [v [H N]]; inversion H; congruence|]. vm_compute. split; reflexivity. Qed.

(** ** C07 Invalid parameter values never get through *)
Theorem C07_values_accepted json d p k v : NoDup (map fst d) -> make_params json (PDict d) = Ok p ->
  In (k, v) d -> plain v -> acceptable k v.
Proof.
  intros ND H I P. assert (N : d <> []) by (destruct d; [destruct I|congruence]).
  destruct (make_inv _ _ _ N H) as [b [Hb _]]. exact (build_acceptable d b k v ND Hb I P).
Qed.
Print Assumptions C07_values_accepted.

(** nor do unknown parameter names *)
Theorem C07_names_known json d p k v : NoDup (map fst d) -> make_params json (PDict d) = Ok p ->
  In (k, v) d ->
  In k (map pname ["alignment"; "series_names"; "headers_coord"; "composed_headers_coord"; "context";
                   "data_starts"; "data_ends"; "continuity"; "blank_rows"; "missings"; "missing_value";
                   "time_alignment"; "time_multicolumn"; "time_header_coord"; "time_composed"; "frequency"]%string).
Proof.
  intros ND H I. assert (N : d <> []) by (destruct d; [destruct I|congruence]).
  destruct (make_inv _ _ _ N H) as [b [Hb _]]. exact (build_known d b k v ND Hb I).
Qed.
Print Assumptions C07_names_known.

Example C07_example :
  is_ok (make_params no_json (PDict (sample_with "alignment" (VStr (pname "vertical"))))) = true /\
  make_params no_json (PDict (sample_with "alignment" (VStr (pname "diagonal")))) = Err EInvalid /\
  make_params no_json (PDict (sample_with "frequency" (VStr (pname "AX")))) = Err EInvalid /\
  make_params no_json (PDict (sample_with "colour" (VInt 1))) = Err EKey /\
  plain (VStr (pname "vertical")).
Proof. repeat split; try reflexivity. discriminate. Qed.

(** ** C08 Frequency spelling is normalised *)
(** two spellings with the same reading build the same parameters *)
Theorem C08_same_reading d t t' : freq_reading t = freq_reading t' ->
  build (dset (pname "frequency") (VStr t) d) = build (dset (pname "frequency") (VStr t') d).
Proof. exact (c08_text t t' d). Qed.
Print Assumptions C08_same_reading.
Theorem C08_same_readings d ts ts' : map freq_reading ts = map freq_reading ts' ->
  build (dset (pname "frequency") (VList (map VStr ts)) d)
    = build (dset (pname "frequency") (VList (map VStr ts')) d).
Proof. exact (c08_list ts ts' d). Qed.
Print Assumptions C08_same_readings.
(** every series sees the reading *)
Theorem C08_value json d p t n i : NoDup (map fst d) -> make_params json (PDict d) = Ok p ->
  series_count p n -> (i < n)%nat -> given_once (pname "frequency") d (VStr t) ->
  series_value p (pname "frequency") i (VStr (freq_reading t)).
Proof. exact (c08_value json d p t n i). Qed.
Print Assumptions C08_value.
Theorem C08_values json d p ts n i : NoDup (map fst d) -> make_params json (PDict d) = Ok p ->
  series_count p n -> (i < n)%nat -> dget (pname "frequency") d = Some (VList (map VStr ts)) ->
  List.length ts = n ->
  exists t, nth_error ts i = Some t /\ series_value p (pname "frequency") i (VStr (freq_reading t)).
Proof. exact (c08_values json d p ts n i). Qed.
Print Assumptions C08_values.

Example C08_example :
  map freq_reading [pname "y"; pname "yqqqq"; pname "qqqqY"; pname "d"]
    = [pname "A"; pname "AQQQQ"; pname "QQQQA"; pname "D"] /\
  match make_params no_json (PDict (sample_with "frequency" (VStr (pname "yqqqq")))) with
  | Ok p => dgetN (pname "frequency") p = VList (repeat (VStr (pname "AQQQQ")) 3)
  | Err _ => False
  end.
Proof. vm_compute. split; reflexivity. Qed.

(** ** C09 A value given once applies to every series *)
Theorem C09_given_once json d p k v n i : NoDup (map fst d) -> make_params json (PDict d) = Ok p ->
  series_count p n -> (i < n)%nat ->
  In k (map pname ["data_starts"; "data_ends"; "continuity"; "blank_rows"; "missings"; "time_composed";
                   "time_alignment"; "series_names"]%string) ->
  given_once k d v -> v <> VNone -> series_value p k i v.
Proof. exact (c09_once json d p k v n i). Qed.
Print Assumptions C09_given_once.
Theorem C09_given_per_series json d p k l n i : NoDup (map fst d) -> make_params json (PDict d) = Ok p ->
  series_count p n -> (i < n)%nat ->
  In k (map pname ["data_starts"; "data_ends"; "continuity"; "blank_rows"; "missings"; "time_composed";
                   "time_alignment"; "series_names"]%string) ->
  dget k d = Some (VList l) -> List.length l = n ->
  exists v, nth_error l i = Some v /\ series_value p k i v.
Proof. exact (c09_list json d p k l n i). Qed.
Print Assumptions C09_given_per_series.
(** missing value markers: one, a list of them, or a list of lists *)
Theorem C09_markers json d p v n i : NoDup (map fst d) -> make_params json (PDict d) = Ok p ->
  series_count p n -> (i < n)%nat -> dget (pname "missing_value") d = Some v -> v <> VNone ->
  (~ is_list_value v -> series_value p (pname "missing_value") i (VList [v])) /\
  (forall l, v = VList l -> ~ (exists x l', l = VList x :: l') ->
     series_value p (pname "missing_value") i v) /\
  (forall l x l', v = VList l -> l = VList x :: l' -> List.length l = n /\
     exists y, nth_error l i = Some y /\ series_value p (pname "missing_value") i y).
Proof. exact (c09_markers json d p v n i). Qed.
Print Assumptions C09_markers.
(** one time header cell *)
Theorem C09_time_header json d p t r c n i : NoDup (map fst d) -> make_params json (PDict d) = Ok p ->
  series_count p n -> (i < n)%nat ->
  given_once (pname "time_header_coord") d (VStr t) -> cell_named t r c ->
  (dgetN (pname "time_multicolumn") d = VNone \/ dgetN (pname "time_multicolumn") d = VBool false) ->
  series_value p (pname "time_header_coord") i (VStr (upper t)).
Proof. exact (c09_time_header json d p t r c n i). Qed.
Print Assumptions C09_time_header.
(** the parameters used to scrape series [i] are those values *)
Theorem C09_series_params p i k v sp :
  In k (map pname ["alignment"; "series_names"; "headers_coord"; "composed_headers_coord"; "context";
                   "data_starts"; "data_ends"; "continuity"; "blank_rows"; "missings"; "missing_value";
                   "time_alignment"; "time_multicolumn"; "time_header_coord"; "time_composed"; "frequency"]%string) ->
  series_value p k i v -> get_series_params p i = Ok sp -> dget k sp = Some v.
Proof. exact (get_series_value p i k v sp). Qed.
Print Assumptions C09_series_params.

Example C09_example :
  match make_params no_json (PDict (dset (pname "missings") (VBool true)
          (sample_with "data_starts" (VList [VInt 2; VInt 3; VInt 4])))) with
  | Ok p => get_num_series p = Some 3%nat /\
      dgetN (pname "missings") p = VList [VBool true; VBool true; VBool true] /\
      dgetN (pname "data_starts") p = VList [VInt 2; VInt 3; VInt 4] /\
      dgetN (pname "time_header_coord") p = VList (repeat (VStr (pname "A1")) 3) /\
      match get_series_params p 1 with
      | Ok sp => dget (pname "data_starts") sp = Some (VInt 3)
      | Err _ => False
      end
  | Err _ => False
  end.
Proof. vm_compute. repeat split. Qed.

(** ** C10 One series per header *)
(** Missing: the cases where another list is longer than the headers (see
    [C10_time_columns_refuted]). *)
Theorem C10_series_per_header_partial json d p hv cells : NoDup (map fst d) ->
  make_params json (PDict d) = Ok p ->
  dget (pname "headers_coord") d = Some hv -> header_cells hv cells -> cells <> [] ->
  lists_fit d (List.length cells) -> series_count p (List.length cells).
Proof. exact (c10 json d p hv cells). Qed.
Print Assumptions C10_series_per_header_partial.

(** one header and a time index in two columns: two series *)
Theorem C10_time_columns_refuted : exists d p hv cells,
  make_params no_json (PDict d) = Ok p /\ dget (pname "headers_coord") d = Some hv /\
  header_cells hv cells /\ List.length cells = 1%nat /\ series_count p 2.
Proof.
  exists (dset (pname "headers_coord") (VStr (pname "C1")) (sample_with "time_header_coord" (VStr (pname "A1-B1")))).
  eexists. exists (VStr (pname "C1")), [(1, 3)].
  split; [vm_compute; reflexivity|]. split; [reflexivity|]. split.
  - apply hc_plain, vc_text, entry_cell, cell_named_iff. reflexivity.
  - split; [reflexivity|]. apply count_num. reflexivity.
Qed.
Print Assumptions C10_time_columns_refuted.

(** what the number of series is, exactly: the length of the longest list among
    the headers, the cells of the time header and the parameters given as lists *)
Theorem C10_exact json d p hv cells n : NoDup (map fst d) -> make_params json (PDict d) = Ok p ->
  dget (pname "headers_coord") d = Some hv -> header_cells hv cells -> cells <> [] ->
  (List.length cells <= n)%nat -> lists_fit d n -> list_of_length d cells n -> series_count p n.
Proof. exact (c10_exact json d p hv cells n). Qed.
Print Assumptions C10_exact.

(** one header and four values of data_ends: four series *)
Example C10_exact_case :
  let d := dset (pname "headers_coord") (VStr (pname "C1"))
             (sample_with "data_ends" (VList [VInt 9; VInt 10; VInt 11; VInt 12])) in
  lists_fit d 4 /\ list_of_length d [(1, 3)] 4 /\
  match make_params no_json (PDict d) with Ok p => series_count p 4 | Err _ => False end.
Proof.
  intros d. split; [|split].
  - split.
    + intros k l H N. apply dget_In in H. cbn in H.
      repeat destruct H as [H|H]; try discriminate; try contradiction. inversion H. cbn. lia.
    + exists (VStr (pname "A1")). split; [reflexivity|]. left. exists [(1, 1)]. split; [|cbn; lia].
      apply vc_text, entry_cell, cell_named_iff. reflexivity.
  - right. left. exists (pname "data_ends"), [VInt 9; VInt 10; VInt 11; VInt 12].
    split; [reflexivity|]. split; [reflexivity|]. cbn. intros H.
    repeat destruct H as [H|H]; try discriminate; contradiction.
  - destruct (make_params no_json (PDict d)) eqn:E; [|vm_compute in E; discriminate].
    apply count_num. vm_compute in E. inversion E. reflexivity.
Qed.

Example C10_example :
  header_cells (VStr (pname "B1-D1")) [(1, 2); (1, 3); (1, 4)] /\ lists_fit sample 3 /\
  match make_params no_json (PDict sample) with Ok p => series_count p 3 | Err _ => False end.
Proof.
  split; [|split].
  - apply hc_plain, vc_text. apply (entry_range (pname "B1") (pname "D1") "-"%char 1 2 1 4);
      try (apply cell_named_iff; reflexivity); auto. apply rect_cells_rectangle.
  - split.
    + intros k l H N. apply dget_In in H. cbn in H. intuition discriminate.
    + exists (VStr (pname "A1")). split; [reflexivity|]. left. exists [(1, 1)]. split; [|cbn; lia].
      apply vc_text, entry_cell, cell_named_iff. reflexivity.
  - destruct (make_params no_json (PDict sample)) eqn:E; [|vm_compute in E; discriminate].
    apply count_num. vm_compute in E. inversion E. reflexivity.
Qed.

(** ** C11 Explicit values win over guesses *)
Theorem C11_alignment_stated json d p v n i : NoDup (map fst d) -> make_params json (PDict d) = Ok p ->
  series_count p n -> (i < n)%nat -> given_once (pname "alignment") d v -> v <> VNone ->
  v = VStr (pname "vertical") \/ v = VStr (pname "horizontal") ->
  series_value p (pname "alignment") i v.
Proof. exact (c11_alignment json d p v n i). Qed.
Print Assumptions C11_alignment_stated.
Theorem C11_alignments_stated json d p l n i : NoDup (map fst d) -> make_params json (PDict d) = Ok p ->
  series_count p n -> (i < n)%nat -> dget (pname "alignment") d = Some (VList l) -> List.length l = n ->
  exists v, nth_error l i = Some v /\ series_value p (pname "alignment") i v.
Proof. exact (c11_alignments json d p l n i). Qed.
Print Assumptions C11_alignments_stated.
(** Missing: time_multicolumn stated False (see [C11_false_multicolumn_refuted]) *)
Theorem C11_multicolumn_stated_partial json d p n i : NoDup (map fst d) ->
  make_params json (PDict d) = Ok p -> series_count p n -> (i < n)%nat ->
  given_once (pname "time_multicolumn") d (VBool true) ->
  series_value p (pname "time_multicolumn") i (VBool true).
Proof. exact (c11_multicolumn json d p n i). Qed.
Print Assumptions C11_multicolumn_stated_partial.
Theorem C11_false_multicolumn_refuted : exists d p,
  NoDup (map fst d) /\ make_params no_json (PDict d) = Ok p /\ series_count p 3 /\
  given_once (pname "time_multicolumn") d (VBool false) /\
  series_value p (pname "time_multicolumn") 0 (VBool true).
Proof.
  exists (dset (pname "time_multicolumn") (VBool false)
           (sample_with "time_header_coord" (VList [VStr (pname "A1"); VStr (pname "A2")]))).
  eexists. split; [nodup|]. split; [vm_compute; reflexivity|]. split; [apply count_num; reflexivity|].
  split; [split; [intros [l H]; discriminate|left; reflexivity]|]. eexists. split; reflexivity.
Qed.
Print Assumptions C11_false_multicolumn_refuted.

(** the headers are in one row, yet the stated alignment stays *)
Example C11_example :
  match make_params no_json (PDict (dset (pname "data_starts") (VInt 9) (sample_with "alignment" (VStr (pname "horizontal"))))) with
  | Ok p => dgetN (pname "alignment") p = VList (repeat (VStr (pname "horizontal")) 3)
  | Err _ => False
  end.
Proof. vm_compute. reflexivity. Qed.

(** ** C12 Guessed alignment is sound *)
Theorem C12_guess_sound json d p hv cells i a n : NoDup (map fst d) -> make_params json (PDict d) = Ok p ->
  series_count p n -> (i < n)%nat ->
  dget (pname "headers_coord") d = Some hv -> header_cells hv cells -> ~ given (pname "alignment") d ->
  series_value p (pname "alignment") i a ->
  (2 <= List.length cells)%nat /\
  ((a = VStr (pname "vertical") /\ in_one_row cells /\ NoDup (map snd cells)) \/
   (a = VStr (pname "horizontal") /\ in_one_column cells /\ NoDup (map fst cells))).
Proof. exact (c12 json d p hv cells i a n). Qed.
Print Assumptions C12_guess_sound.
(** and it is made for four aligned headers or more, and for unbroken runs *)
Theorem C12_guess_made json d p hv cells i n : NoDup (map fst d) -> make_params json (PDict d) = Ok p ->
  series_count p n -> (i < n)%nat ->
  dget (pname "headers_coord") d = Some hv -> header_cells hv cells -> ~ given (pname "alignment") d ->
  (2 <= List.length cells)%nat ->
  ((4 <= List.length cells)%nat /\ in_one_row cells /\ NoDup (map snd cells) \/ row_run cells ->
    series_value p (pname "alignment") i (VStr (pname "vertical"))) /\
  ((4 <= List.length cells)%nat /\ in_one_column cells /\ NoDup (map fst cells) \/ column_run cells ->
    series_value p (pname "alignment") i (VStr (pname "horizontal"))).
Proof. exact (c12_made json d p hv cells i n). Qed.
Print Assumptions C12_guess_made.

Example C12_example :
  match make_params no_json (PDict sample),
        make_params no_json (PDict (sample_with "headers_coord" (VStr (pname "B1")))),
        make_params no_json (PDict (dset (pname "data_starts") (VInt 7) (sample_with "headers_coord" (VStr (pname "C3:C5"))))) with
  | Ok p, Ok q, Ok r =>
      dgetN (pname "alignment") p = VList (repeat (VStr (pname "vertical")) 3) /\
      dgetN (pname "alignment") q = VNone /\
      dgetN (pname "alignment") r = VList (repeat (VStr (pname "horizontal")) 3)
  | _, _, _ => False
  end.
Proof. vm_compute. repeat split. Qed.

(** ** C13 Data must start after the headers *)
(** Missing: an alignment given as a list, as None, and headers with repeated
    cells (see the two refutations). *)
Theorem C13_data_after_headers_partial json d p hv r0 c0 cells z : make_params json (PDict d) = Ok p ->
  dget (pname "headers_coord") d = Some hv -> header_cells hv ((r0, c0) :: cells) -> first_data d z ->
  (dget (pname "alignment") d = Some (VStr (pname "vertical")) \/
   dget (pname "alignment") d = None /\ cells <> [] /\
     in_one_row ((r0, c0) :: cells) /\ NoDup (map snd ((r0, c0) :: cells)) -> r0 < z) /\
  (dget (pname "alignment") d = Some (VStr (pname "horizontal")) \/
   dget (pname "alignment") d = None /\ cells <> [] /\
     in_one_column ((r0, c0) :: cells) /\ NoDup (map fst ((r0, c0) :: cells)) -> c0 < z).
Proof. exact (c13 json d p hv r0 c0 cells z). Qed.
Print Assumptions C13_data_after_headers_partial.

(** stated as a list, the alignment is not checked *)
Theorem C13_alignment_list_refuted : exists d p,
  make_params no_json (PDict d) = Ok p /\ first_data d 1 /\
  dget (pname "headers_coord") d = Some (VStr (pname "B1-D1")) /\
  header_cells (VStr (pname "B1-D1")) [(1, 2); (1, 3); (1, 4)] /\
  dget (pname "alignment") d = Some (VList (repeat (VStr (pname "vertical")) 3)).
Proof.
  exists (dset (pname "data_starts") (VInt 1) (sample_with "alignment" (VList (repeat (VStr (pname "vertical")) 3)))).
  eexists. split; [vm_compute; reflexivity|]. split.
  - exists (VInt 1), (VInt 1). split; [reflexivity|]. split; [auto|constructor].
  - split; [reflexivity|]. split; [exact (proj1 C10_example)|reflexivity].
Qed.
Print Assumptions C13_alignment_list_refuted.
(** nor are headers in one row when the dictionary holds alignment: None *)
Theorem C13_alignment_none_refuted : exists d p,
  make_params no_json (PDict d) = Ok p /\ first_data d 1 /\
  dget (pname "headers_coord") d = Some (VStr (pname "B1-D1")) /\
  header_cells (VStr (pname "B1-D1")) [(1, 2); (1, 3); (1, 4)] /\
  dget (pname "alignment") d = Some VNone.
Proof.
  exists (dset (pname "data_starts") (VInt 1) (sample_with "alignment" VNone)).
  eexists. split; [vm_compute; reflexivity|]. split.
  - exists (VInt 1), (VInt 1). split; [reflexivity|]. split; [auto|constructor].
  - split; [reflexivity|]. split; [exact (proj1 C10_example)|reflexivity].
Qed.
Print Assumptions C13_alignment_none_refuted.

Example C13_example :
  is_ok (make_params no_json (PDict sample)) = true /\
  make_params no_json (PDict (sample_with "data_starts" (VInt 1))) = Err EAssert /\
  first_data sample 2.
Proof.
  split; [vm_compute; reflexivity|]. split; [vm_compute; reflexivity|].
  exists (VInt 2), (VInt 2). split; [reflexivity|]. split; [auto|constructor].
Qed.

(** ** C14 A Parameters object can be rebuilt from itself: never *)
Theorem C14_rebuild_fails json d p n : NoDup (map fst d) -> d <> [] -> make_params json (PDict d) = Ok p ->
  series_count p n -> (0 < n)%nat -> exists e, make_params json (PObj p) = Err e.
Proof. exact (c14 json d p n). Qed.
Print Assumptions C14_rebuild_fails.
Theorem C14_rebuild_refuted : exists d p, make_params no_json (PDict d) = Ok p /\ series_count p 3 /\
  make_params no_json (PObj p) = Err EInvalid.
Proof.
  exists sample. eexists. split; [vm_compute; reflexivity|]. split; [apply count_num; reflexivity|].
  vm_compute. reflexivity.
Qed.
Print Assumptions C14_rebuild_refuted.

(** ** C15 Rejected assignments change nothing *)
Theorem C15_rejected_unchanged p k v p' e : set_item p k v = (p', Err e) -> p' = p.
Proof. exact (c15_rejected p k v p' e). Qed.
Print Assumptions C15_rejected_unchanged.
(** an accepted value is stored as a valid list, one value per series, and the
    other parameters stay *)
Theorem C15_accepted_stored p k v p' n : series_count p (S n) ->
  In k (map pname ["alignment"; "series_names"; "data_starts"; "data_ends"; "continuity"; "blank_rows";
                   "missings"; "time_alignment"; "time_multicolumn"; "time_composed"; "frequency"]%string) ->
  plain v -> set_item p k v = (p', Ok tt) ->
  (exists l, dgetN k p' = VList l /\ List.length l = S n /\ acceptable k (VList l)) /\
  (forall k', k' <> k -> dgetN k' p' = dgetN k' p).
Proof. exact (c15_accepted p k v p' n). Qed.
Print Assumptions C15_accepted_stored.
(** composed headers are stored whatever the length of the list *)
Theorem C15_composed_length_refuted : exists d p p' l, make_params no_json (PDict d) = Ok p /\
  series_count p 3 /\ set_item p (pname "composed_headers_coord") (VList l) = (p', Ok tt) /\
  dgetN (pname "composed_headers_coord") p' = VList l /\ List.length l = 2%nat.
Proof.
  exists sample. eexists. eexists. exists [VNone; VNone]. split; [vm_compute; reflexivity|].
  split; [apply count_num; reflexivity|]. split; [vm_compute; reflexivity|]. split; reflexivity.
Qed.
Print Assumptions C15_composed_length_refuted.

Example C15_example :
  match make_params no_json (PDict sample) with
  | Ok p =>
      set_item p (pname "missings") (VStr (pname "yes")) = (p, Err EInvalid) /\
      match set_item p (pname "missings") (VBool true) with
      | (p', Ok _) => dgetN (pname "missings") p' = VList [VBool true; VBool true; VBool true]
      | _ => False
      end
  | Err _ => False
  end.
Proof. vm_compute. split; reflexivity. Qed.

(** ** C52 Blank headers are removed consistently *)
Theorem C52_blank_headers_removed w p hs cs n :
  dget (pname "headers_coord") p = Some (VList hs) ->
  dget (pname "composed_headers_coord") p = Some (VList cs) ->
  Forall names_a_cell hs -> Forall composed_cells cs -> one_per_series p n ->
  exists p' idx, remove_blank_headers w p = Ok p' /\
    StronglySorted lt idx /\
    (forall i, In i idx <-> exists h comp, nth_error hs i = Some h /\ nth_error cs i = Some comp /\
       has_header (cell w) h comp) /\
    forall k, match dgetN k p with
              | VList l => exists l', dgetN k p' = VList l' /\ selects idx l l'
              | v => dgetN k p' = v
              end.
Proof. exact (c52 w p hs cs n). Qed.
Print Assumptions C52_blank_headers_removed.

(** C1 is blank: the first and third series stay, with their own data_starts *)
Example C52_example :
  match make_params no_json (PDict (sample_with "data_starts" (VList [VInt 2; VInt 3; VInt 4]))) with
  | Ok p =>
      let w := mkws (fun r c => if (r =? 1) && ((c =? 2) || (c =? 4)) then VStr (pname "x") else VNone) 9 9 [] in
      match remove_blank_headers w p with
      | Ok p' => dgetN (pname "headers_coord") p' = VList [VStr (pname "B1"); VStr (pname "D1")] /\
                 dgetN (pname "data_starts") p' = VList [VInt 2; VInt 4] /\
                 dgetN (pname "missing_value") p' = VList (repeat (dgetN (pname "missing_value") DEFAULT_VALUES) 2)
      | Err _ => False
      end
  | Err _ => False
  end.
Proof. vm_compute. repeat split. Qed.
