(** Property C92: what safe mode adds to the plain call. *)
From Verif Require Import Base BaseFacts Cal Coord XlMethods Params ParseTime TimeIndex GetData PeriodRange DataFrame Attempts Scrape Xlseries
  SpecParams SpecAttempts SpecScrape SpecReach SpecLeave SafeProofs PropsParams PropsScrape PropsTurn PropsLeave Demo.
Local Open Scope Z_scope.

(** ** C92 Safe mode gives the plain answer, or a list that starts with it *)

(** The rest of the list are answers to the same request with valid values
    written down for what it leaves out. *)
Theorem C92_plain_first e uni json st wb q preserve name i n p u x :
  wb_ok st wb -> resolves uni strip (names_of st wb) q name -> first_such (fun i => title (sheet st i) = name) wb i -> bounded (sheet st i) ->
  left_out n p -> in_store st u -> object_of json st u p ->
  answered (snd (get_data_frames e uni json st wb u q true preserve)) = Ok x ->
  exists y, answered (snd (get_data_frames e uni json st wb u q false preserve)) = Ok y /\
    (x = y \/ exists rest, rest <> [] /\ x = DL (y :: rest) /\
       forall r, In r rest -> exists choice p', valid_choice choice /\ written_down n p choice p' /\
         forall safe u', in_store st u' -> object_of json st u' p' -> answered (snd (get_data_frames e uni json st wb u' q safe preserve)) = Ok r).
Proof. intros WB RES FS BO LO US UO H. exact (c92_safe e uni json st wb q preserve name i WB RES FS BO n p u LO US UO x H). Qed.
Print Assumptions C92_plain_first.

(** Where the plain call raises an exception, safe mode does too. *)
Theorem C92_raises e uni json st wb q preserve name i n p u x :
  wb_ok st wb -> resolves uni strip (names_of st wb) q name -> first_such (fun i => title (sheet st i) = name) wb i -> bounded (sheet st i) ->
  left_out n p -> in_store st u -> object_of json st u p ->
  answered (snd (get_data_frames e uni json st wb u q false preserve)) = Err x ->
  exists y, answered (snd (get_data_frames e uni json st wb u q true preserve)) = Err y.
Proof. intros WB RES FS BO LO US UO H. exact (c92_raises e uni json st wb q preserve name i WB RES FS BO n p u LO US UO x H). Qed.
Print Assumptions C92_raises.

(** When the request leaves nothing out, safe mode makes no difference. *)
Theorem C92_nothing_left_out e uni json st wb q preserve name i n p u :
  wb_ok st wb -> resolves uni strip (names_of st wb) q name -> first_such (fun i => title (sheet st i) = name) wb i ->
  left_out n p -> (forall k, ~ unset p k) -> in_store st u -> object_of json st u p ->
  answered (snd (get_data_frames e uni json st wb u q true preserve)) = answered (snd (get_data_frames e uni json st wb u q false preserve)).
Proof. intros WB RES FS LO NU US UO. exact (c92_nothing e uni json st wb q preserve name i WB RES FS n p u LO US UO NU). Qed.
Print Assumptions C92_nothing_left_out.

(** a request that leaves parameters out: safe mode gives the plain answer and
    more; with two frames that all the attempts agree on it gives the plain
    answer; nothing is left out of [demo_full] *)
Definition safely (w : worksheet) (d : dict) : res (dfs_t * text * nat) :=
  snd (get_data_frames demo_env (fun t => t) no_json (mkstore [w] []) [0%nat] (UInput (PDict d)) None true true).
Example C92_case :
  left_out 3 (of_template demo_left) /\
  (exists y r rest, answered (answer demo demo_left) = Ok y /\ answered (safely demo demo_left) = Ok (DL (y :: r :: rest))) /\
  left_out 2 (of_template two_params) /\
  (exists y, answered (answer demo_two two_params) = Ok y /\ answered (safely demo_two two_params) = Ok y) /\
  (exists x y, answered (answer demo_two demo_left) = Err x /\ answered (safely demo_two demo_left) = Err y) /\
  left_out 3 (of_template demo_full) /\ forall k, ~ unset (of_template demo_full) k.
Proof.
  split; [left_|]. split; [do 3 eexists; split; vm_compute; reflexivity|]. split; [left_|]. split; [eexists; split; vm_compute; reflexivity|].
  split; [do 2 eexists; split; vm_compute; reflexivity|]. split; [left_|].
  intros k U. apply unset_in in U as I. vm_compute in I. repeat destruct I as [I|I]; try contradiction; inversion I; subst; destruct U as [_ U]; apply U; vm_compute; tauto.
Qed.
