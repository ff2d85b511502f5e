(** Properties C89 and C90: parameters left out, and the templates. *)
From Verif Require Import Base BaseFacts Cal CalFacts SpecCal Coord SpecCoord SpecCoordFacts CoordFacts XlMethods Params ParseTime TimeIndex GetData PeriodRange DataFrame Attempts AttemptsProofs Scrape Xlseries
  SpecParams ParamsProofs3 SpecAttempts SpecTime TimeFacts SpecData DataFacts DataProofs SpecFrames SpecScrape SpecEnd SpecReach SpecSelect SpecLeave LeaveProofs
  PropsParams PropsScrape PropsTime PropsEnd PropsTurn Demo.
Local Open Scope Z_scope.

(** ** C89 Leaving parameters out is the same as writing down values for them that work *)

(** When the call with the defaults written down succeeds, the call that leaves
    them out gives the same frames. *)
Theorem C89_defaults e uni json st wb q preserve name i n p u safe p' u' choice x :
  wb_ok st wb -> resolves uni strip (names_of st wb) q name -> first_such (fun i => title (sheet st i) = name) wb i -> bounded (sheet st i) ->
  left_out n p -> in_store st u -> object_of json st u p ->
  the_defaults choice -> written_down n p choice p' -> in_store st u' -> object_of json st u' p' ->
  answered (snd (get_data_frames e uni json st wb u' q safe preserve)) = Ok x ->
  answered (snd (get_data_frames e uni json st wb u q false preserve)) = Ok x.
Proof.
  intros WB RES FS BO LO IS OB D W IS' OB' H. exact (c89_defaults e uni json st wb q preserve name i WB RES FS BO n p u LO IS OB safe u' p' choice x D W IS' OB' H).
Qed.
Print Assumptions C89_defaults.

(** Whatever the call that leaves them out gives can be had by writing down
    some valid values for them. *)
Theorem C89_found e uni json st wb q preserve name i n p u x :
  wb_ok st wb -> resolves uni strip (names_of st wb) q name -> first_such (fun i => title (sheet st i) = name) wb i -> bounded (sheet st i) ->
  left_out n p -> in_store st u -> object_of json st u p ->
  answered (snd (get_data_frames e uni json st wb u q false preserve)) = Ok x ->
  exists choice p', valid_choice choice /\ written_down n p choice p' /\
    forall safe u', in_store st u' -> object_of json st u' p' -> answered (snd (get_data_frames e uni json st wb u' q safe preserve)) = Ok x.
Proof.
  intros WB RES FS BO LO IS OB H. exact (c89_found e uni json st wb q preserve name i WB RES FS BO n p u LO IS OB x H).
Qed.
Print Assumptions C89_found.

(** When the call that leaves them out raises an exception, so does every call
    with valid values written down. *)
Theorem C89_raises e uni json st wb q preserve name i n p u x safe u' p' choice :
  wb_ok st wb -> resolves uni strip (names_of st wb) q name -> first_such (fun i => title (sheet st i) = name) wb i -> bounded (sheet st i) ->
  left_out n p -> in_store st u -> object_of json st u p ->
  answered (snd (get_data_frames e uni json st wb u q false preserve)) = Err x ->
  valid_choice choice -> written_down n p choice p' -> in_store st u' -> object_of json st u' p' ->
  exists y, answered (snd (get_data_frames e uni json st wb u' q safe preserve)) = Err y.
Proof.
  intros WB RES FS BO LO IS OB H V W IS' OB'. exact (c89_raises e uni json st wb q preserve name i WB RES FS BO n p u LO IS OB x safe u' p' choice H V W IS' OB').
Qed.
Print Assumptions C89_raises.

(** ** C90 The templates describe the table they say *)

(** The template of the critical parameters reads a monthly table in the first
    row and column: the dates in the first column from the second row on, and
    series under B1, C1, E1, F1 and G1. *)
Theorem C90_critical_template e uni json st wb q preserve name i names ds data :
  wb_ok st wb -> resolves uni strip (names_of st wb) q name -> first_such (fun i => title (sheet st i) = name) wb i ->
  bounded (sheet st i) -> real_dates (sheet st i) ->
  let cells := [(1, 2); (1, 3); (1, 5); (1, 6); (1, 7)] in
  clean_columns (sheet st i) cells (1, 1) 2 "M" ds data ->
  Forall2 (fun rc n => cell (sheet st i) (fst rc) (snd rc) = VStr n /\ stripped (VStr n) (VStr n)) cells names -> NoDup names ->
  exists n pid, pandas_name "M" n /\
    snd (get_data_frames e uni json st wb (UInput (PDict get_critical_params_template)) q false preserve) = Ok (DF (mkdf (mkpr (T n) ds) names data), name, pid).
Proof.
  intros WB RES FS BO RD cells CC F ND. apply (C38_clean_sheet e uni json st wb q preserve name i get_critical_params_template cells (1, 1) 2 "M" names ds data); auto; [cbn; tauto|].
  constructor.
  - repeat constructor; cbn; intuition discriminate.
  - intros k I. cbn in I. destruct I as [<-|[<-|[<-|[<-|[]]]]]; apply text_in_In; reflexivity.
  - exists (VList (map VStr [pname "B1"; pname "C1"; pname "E1-G1"])). split; [reflexivity|]. split; [|discriminate].
    change cells with (List.concat [[(1, 2)]; [(1, 3)]; [(1, 5); (1, 6); (1, 7)]]). constructor; [discriminate|].
    apply Forall2_cons; [apply entry_cell; apply cell_named_iff; reflexivity|]. apply Forall2_cons; [apply entry_cell; apply cell_named_iff; reflexivity|]. apply Forall2_cons; [|constructor].
    apply (entry_range (pname "E1") (pname "G1") "-"%char 1 5 1 7); try (apply cell_named_iff; reflexivity); auto. apply rect_cells_rectangle.
  - exists (pname "A1"). split; [|apply cell_named_iff; reflexivity]. split; [intros [l L]; discriminate|left; reflexivity].
  - split; [intros [l L]; discriminate|left; reflexivity].
  - exists (pname "M"). split; [|reflexivity]. split; [intros [l L]; discriminate|left; reflexivity].
  - intros (_ & [k K] & _). specialize (K (1, 2) (or_introl eq_refl)) as K1. specialize (K (1, 3) (or_intror (or_introl eq_refl))) as K2. cbn in K1, K2. lia.
Qed.
Print Assumptions C90_critical_template.

(** The complete template is the critical one with the defaults written down:
    what a workbook gives with the first, it gives with the second. *)
Definition by_default (k : text) : pyval := match find (fun x => text_eqb (fst (fst x)) k) searchable with Some (_, _, d) => d | None => VNone end.
Lemma by_default_ok : the_defaults by_default.
Proof. intros k vv d I. cbn in I. destruct I as [I|[I|[I|[I|[I|[I|[I|[]]]]]]]]; inversion I; subst; reflexivity. Qed.
Lemma agree_but (Bad : text -> Prop) : forall a b : dict, Forall2 (fun x y => fst x = fst y /\ (snd x = snd y \/ Bad (fst x))) a b -> forall k, ~ Bad k -> dget k b = dget k a.
Proof.
  induction 1 as [|[k0 v] [k1 v'] a b [E R] F IH]; intros k B; auto. cbn [fst snd] in *. subst k1. cbn [dget]. destruct (text_eqb k k0) eqn:X; auto.
  apply text_eqb_eq in X. subst k0. destruct R as [->|R]; [auto|contradiction].
Qed.
Lemma unset_in p k : unset p k -> In (k, VNone) p.
Proof.
  intros [D _]. revert D. induction p as [|[a b] p IH]; cbn; [discriminate|]. destruct (text_eqb k a) eqn:E; [|auto]. apply text_eqb_eq in E. intros X. injection X as ->. subst. auto.
Qed.
Definition of_template (d : dict) : dict := match make_params (fun _ => Err EType) (PDict d) with Ok p => p | Err _ => [] end.
Lemma critical_object json : make_params json (PDict get_critical_params_template) = Ok (of_template get_critical_params_template).
Proof. vm_compute. reflexivity. Qed.
Lemma complete_object json : make_params json (PDict get_complete_params_template) = Ok (of_template get_complete_params_template).
Proof. vm_compute. reflexivity. Qed.
Ltac left_ := split; [vm_compute; reflexivity|]; split; [split; [intros k l I N; vm_compute in I; repeat destruct I as [I|I]; try contradiction; inversion I; subst; cbn; lia|
    exists (pname "headers_coord"); eexists; split; [vm_compute; right; right; left; reflexivity|]; split; [discriminate|reflexivity]]|];
  split; [lia|]; split; [intros k v I O N; vm_compute in I; repeat destruct I as [I|I]; try contradiction; inversion I; subst; try (exfalso; apply N; reflexivity); eexists; split; try reflexivity; vm_compute; auto|
    intros k U; apply unset_in in U as I; vm_compute in I; repeat destruct I as [I|I]; try contradiction; inversion I; subst; try (exfalso; destruct U as [_ U]; apply U; vm_compute; tauto); vm_compute; eauto 20].
Ltac down_ := split; [vm_compute; reflexivity|]; split; [apply agree_but; vm_compute; repeat (apply Forall2_cons; [split; [reflexivity|]; first [left; reflexivity | right; split; [reflexivity|intuition discriminate]]|]); constructor|
    intros k U; apply unset_in in U as I; vm_compute in I; repeat destruct I as [I|I]; try contradiction; inversion I; subst; try (exfalso; destruct U as [_ U]; apply U; vm_compute; tauto); vm_compute; reflexivity].
Lemma critical_left : left_out 5 (of_template get_critical_params_template).
Proof. left_. Qed.
Lemma complete_down : written_down 5 (of_template get_critical_params_template) by_default (of_template get_complete_params_template).
Proof. down_. Qed.
Theorem C90_same_templates e uni json st wb q preserve safe name i x :
  wb_ok st wb -> resolves uni strip (names_of st wb) q name -> first_such (fun i => title (sheet st i) = name) wb i -> bounded (sheet st i) ->
  answered (snd (get_data_frames e uni json st wb (UInput (PDict get_complete_params_template)) q safe preserve)) = Ok x ->
  answered (snd (get_data_frames e uni json st wb (UInput (PDict get_critical_params_template)) q false preserve)) = Ok x.
Proof.
  intros WB RES FS BO H. eapply (C89_defaults e uni json st wb q preserve name i 5 _ (UInput (PDict get_critical_params_template)) safe _ (UInput (PDict get_complete_params_template)) by_default x WB RES FS BO critical_left); [exact I|apply object_built, critical_object|exact by_default_ok|exact complete_down|exact I|apply object_built, complete_object|exact H].
Qed.
Print Assumptions C90_same_templates.

(** a request that leaves parameters out, and the same with the defaults written
    down; the frames are the same *)
Definition demo_left : dict := [ (pname "headers_coord", VStr (pname "B1-D1")); (pname "time_header_coord", VStr (pname "A1")); (pname "data_starts", VInt 2); (pname "frequency", VStr (pname "m")); (pname "blank_rows", VBool true) ].
Definition demo_full : dict := demo_left ++ [ (pname "continuity", VBool true); (pname "missings", VBool false); (pname "time_composed", VBool false) ].
Example C89_case :
  let st := mkstore [demo] [] in let p := of_template demo_left in let p' := of_template demo_full in
  (wb_ok st [0%nat] /\ resolves (fun t => t) strip (names_of st [0%nat]) (Some (T "Data")) (T "Data") /\
   first_such (fun i => title (sheet st i) = T "Data") [0%nat] 0%nat /\ bounded (sheet st 0)) /\
  left_out 3 p /\ object_of no_json st (UInput (PDict demo_left)) p /\ the_defaults by_default /\ valid_choice by_default /\
  written_down 3 p by_default p' /\ object_of no_json st (UInput (PDict demo_full)) p' /\
  exists x, answered (answer demo demo_full) = Ok x /\ answered (answer demo demo_left) = Ok x.
Proof.
  cbv zeta. split; [|split; [|split; [|split; [|split; [|split; [|split]]]]]].
  - split; [repeat constructor|]. split; [apply res_exact; [discriminate|left; reflexivity]|].
    split; [exists [], []; repeat split; constructor|]. apply sheet_of_bounded.
  - left_.
  - apply object_built. vm_compute. reflexivity.
  - exact by_default_ok.
  - intros k vv d I. rewrite (by_default_ok _ _ _ I). cbn in I. destruct I as [I|[I|[I|[I|[I|[I|[I|[]]]]]]]]; inversion I; subst; cbn; tauto.
  - down_.
  - apply object_built. vm_compute. reflexivity.
  - eexists. split; vm_compute; reflexivity.
Qed.

(** a workbook with such a table, the fourth column being a note *)
Definition template_table : worksheet := sheet_of (T "Data")
  [[VStr (T "Date"); VStr (T "a"); VStr (T "b"); VStr (T "note"); VStr (T "c"); VStr (T "d"); VStr (T "e")];
   [day 2000 1 1; VInt 1; VInt 2; VStr (T "x"); VInt 3; VInt 4; VInt 5];
   [day 2000 2 1; VInt 6; VInt 7; VNone; VInt 8; VInt 9; VInt 10];
   [day 2000 3 1; VInt 11; VInt 12; VStr (T "y"); VInt 13; VInt 14; VInt 15]].
Definition template_data : list (list spec_float) := map (map float_of_Z) [[1; 6; 11]; [2; 7; 12]; [3; 8; 13]; [4; 9; 14]; [5; 10; 15]].
Example C90_case :
  let st := mkstore [template_table] [] in let cells := [(1, 2); (1, 3); (1, 5); (1, 6); (1, 7)] in let ds := [mkdt 2000 1 1 0; mkdt 2000 2 1 0; mkdt 2000 3 1 0] in
  let names := [T "a"; T "b"; T "c"; T "d"; T "e"] in
  (wb_ok st [0%nat] /\ resolves (fun t => t) strip (names_of st [0%nat]) (Some (T "Data")) (T "Data") /\
   first_such (fun i => title (sheet st i) = T "Data") [0%nat] 0%nat /\ bounded (sheet st 0) /\ real_dates (sheet st 0)) /\
  clean_columns (sheet st 0) cells (1, 1) 2 "M" ds template_data /\
  Forall2 (fun rc n => cell (sheet st 0) (fst rc) (snd rc) = VStr n /\ stripped (VStr n) (VStr n)) cells names /\ NoDup names /\
  answered (answer template_table get_complete_params_template) = Ok (DF (mkdf (mkpr (T "MS") ds) names template_data)) /\
  answered (answer template_table get_critical_params_template) = Ok (DF (mkdf (mkpr (T "MS") ds) names template_data)).
Proof.
  cbv zeta. split; [|split; [|split; [|split; [|split]]]].
  - split; [repeat constructor|]. split; [apply res_exact; [discriminate|left; reflexivity]|].
    split; [exists [], []; repeat split; constructor|]. split; [apply sheet_of_bounded|real_].
  - constructor.
    + cbn; lia.
    + split; [lia|]. intros rc H. inversion H. cbn. lia.
    + intros [|[|[|k]]] x H; inversion H; try (destruct k; discriminate); reflexivity.
    + repeat (apply con_more; [apply op_months with 1; [reflexivity|later]|]). constructor.
    + exists (mkdt 2000 1 1 0). split; reflexivity.
    + repeat constructor; cbn; lia.
    + split; [vm_compute; discriminate|]. intros H. vm_compute in H. discriminate.
    + unfold template_data. cbn [map]. pairwise; (split; [reflexivity|]); three;
        match goal with |- cell_number ?c (float_of_Z ?z) => change c with (VInt z) end; apply cn_int; vm_compute; discriminate.
  - pairwise; (split; [reflexivity|apply stripped_iff; reflexivity]).
  - repeat constructor; cbn; intuition discriminate.
  - vm_compute. reflexivity.
  - vm_compute. reflexivity.
Qed.
