(** Theorems about the frames handed back (C34 - C37). *)
From Verif Require Import Base BaseFacts Cal SpecCal CalFacts Coord Params ParseTime TimeIndex PeriodRange GetData DataFrame Scrape Xlseries SpecTime SpecData TimeProofs
  SpecParams SpecScrape SpecFrames DataProofs RangeProofs FrameProofs FrameProofs2 FrameProofs3 CleanReal FrameProofs4 MultiRange Demo PropsParams PropsTime.
From Coq Require Import Sorted.
Local Open Scope Z_scope.

(** *** sheets for the examples *)
Definition full (starts : Z) (hc th : list string) (f : list string) (missings : bool) : dict :=
  match make_params no_json (PDict
    [ (pname "headers_coord", VList (map (fun t => VStr (T t)) hc)); (pname "time_header_coord", VList (map (fun t => VStr (T t)) th));
      (pname "alignment", VStr (T "vertical")); (pname "data_starts", VInt starts); (pname "frequency", VList (map (fun t => VStr (T t)) f));
      (pname "continuity", VBool true); (pname "blank_rows", VBool false); (pname "missings", VBool missings);
      (pname "missing_value", VList [VStr (T "NA")]); (pname "time_composed", VBool false) ]) with Ok p => p | Err _ => [] end.
Definition first (y m d : Z) : datetime := mkdt y m d 0.

(** ** C34 Returned frames are rectangular *)

(** every frame of every answer of the API *)
Theorem C34_rectangular : forall e uni json st wb u q safe preserve st' out name pid d,
  get_data_frames e uni json st wb u q safe preserve = (st', Ok (out, name, pid)) -> frame_of out d -> rectangular d.
Proof. exact c34_rectangular. Qed.
Print Assumptions C34_rectangular.
Example C34_case :
  let st := mkstore [demo_two] [] in
  match get_data_frames demo_env (fun t => t) no_json st [0%nat] (UInput (PDict two_params)) None false true with
  | (_, Ok (DL [DF a; DF b], _, _)) =>
      df_cols a = [T "m"] /\ pr_dates (df_index a) = [first 2000 1 1; first 2000 2 1; first 2000 3 1] /\ map (@List.length _) (df_data a) = [3%nat] /\
      df_cols b = [T "q"] /\ pr_dates (df_index b) = [first 2000 1 1; first 2000 4 1; first 2000 7 1] /\ map (@List.length _) (df_data b) = [3%nat]
  | _ => False
  end.
Proof. vm_compute. repeat split. Qed.

(** when the series were read, each had as many values as dates from its first
    to its last one, or as working days *)
Theorem C34_fits : forall e w p dfs w1 p1, real_stamps e -> real_dates w -> alone e w p = Ok dfs -> clean_data e w p = (w1, p1, Ok tt) ->
  exists cs, py_len (dgetN n_headers_coord p1) = Ok (List.length cs) /\
  (forall i ps, nth_error cs i = Some ps -> exists s, series_sp p1 i = Ok s /\ contributes e w1 s ps) /\
  Forall (Forall fits) cs.
Proof.
  intros e w p dfs w1 p1 RS R A C. destruct (alone_parts _ _ _ _ A) as (w1' & p1' & w2 & C' & G). rewrite C in C'. injection C' as <- <-.
  eapply c34_fits; eauto. eapply clean_data_real; eauto.
Qed.
Print Assumptions C34_fits.
(** a series with more or fewer values raises: nothing is misaligned *)
Theorem C34_mismatch_raises : forall e w p w1 p1 i m s f a b en n vs r, real_stamps e -> real_dates w -> clean_data e w p = (w1, p1, Ok tt) ->
  py_len (dgetN n_headers_coord p1) = Ok m -> (i < m)%nat -> series_sp p1 i = Ok s -> single_frequency s -> sp_freq s = T f ->
  sp_ends s = Some en -> holds s w1 (sp_starts s + sp_ta s) (VDate a) -> holds s w1 (en + sp_ta s) (VDate b) ->
  get_data e w1 s = Ok [(n, vs)] -> covers f a b r -> List.length vs <> List.length (pr_dates r) ->
  (f = "D"%string -> forall x y k, hd_error (pr_dates r) = Some x -> hd_error (rev (pr_dates r)) = Some y -> covers_working x y k ->
     List.length vs <> List.length (pr_dates k)) ->
  raises (alone e w p).
Proof.
  intros e w p w1 p1 i m s f a b en n vs r RS R C PL Hi SS SF FR EN HA HB GD CV NE ND. destruct (alone e w p) as [dfs|x] eqn:A; [|exists x; auto]. exfalso.
  destruct (alone_parts _ _ _ _ A) as (w1' & p1' & w2 & C' & G). rewrite C in C'. injection C' as <- <-.
  destruct (c34_mismatch e w1 p1 i m s f a b n vs r) as (x & X); auto; [eapply clean_data_real; eauto|exists en; auto|]. rewrite G in X. discriminate.
Qed.
Print Assumptions C34_mismatch_raises.
(** three monthly values, four months from the first to the last *)
Definition gap_sheet : worksheet := sheet_of (T "s")
  [[VStr (T "date"); VStr (T "x")]; [day 2000 1 1; VInt 1]; [day 2000 2 1; VInt 2]; [day 2000 4 1; VInt 4]].
Example C34_mismatch_case : real_dates gap_sheet /\
  match clean_data demo_env gap_sheet (full 2 ["B1"%string] ["A1"%string] ["M"%string] true) with
  | (w1, p1, Ok tt) => match series_sp p1 0 with
      | Ok s => single_frequency s /\ sp_starts s + sp_ta s = 2 /\ sp_ends s = Some 4 /\ cell w1 2 1 = day 2000 1 1 /\ cell w1 4 1 = day 2000 4 1 /\
          get_data demo_env w1 s = Ok [(T "x", map float_of_Z [1; 2; 4])] /\
          match date_range (first 2000 1 1) (first 2000 4 1) (T "M") with Ok r => List.length (pr_dates r) = 4%nat | Err _ => False end
      | Err _ => False end
  | _ => False end /\
  alone demo_env gap_sheet (full 2 ["B1"%string] ["A1"%string] ["M"%string] true) = Err EValue.
Proof. split; [real_|]. split; vm_compute; repeat split. Qed.

(** ** C35 Column names are unique *)

(** in every frame of every answer of the API *)
Theorem C35_unique : forall e uni json st wb u q safe preserve st' out name pid d,
  get_data_frames e uni json st wb u q safe preserve = (st', Ok (out, name, pid)) -> frame_of out d -> NoDup (df_cols d).
Proof. exact c35_unique. Qed.
Print Assumptions C35_unique.
(** the columns are series in the order of their headers, each with its own
    name and values; a name that is taken gets the first suffix that is not *)
Theorem C35_columns : forall e w p dfs w1 p1 d, alone e w p = Ok dfs -> clean_data e w p = (w1, p1, Ok tt) -> In d dfs ->
  exists idx cols, StronglySorted lt idx /\ Forall2 (column_from e w1 p1) idx cols /\ column_names (map fst cols) (df_cols d) /\ df_data d = map snd cols.
Proof.
  intros e w p dfs w1 p1 d A C I. destruct (alone_parts _ _ _ _ A) as (w1' & p1' & w2 & C' & G). rewrite C in C'. injection C' as <- <-. eapply c35_columns; eauto.
Qed.
Print Assumptions C35_columns.
(** the names are those of the series in the cleaned sheet: see C54 *)
Theorem C54_columns : forall e w p dfs w1 p1 d, alone e w p = Ok dfs -> clean_data e w p = (w1, p1, Ok tt) -> In d dfs ->
  exists idx ns, StronglySorted lt idx /\ Forall2 (fun i n => exists s, series_sp p1 i = Ok s /\ series_name e w1 s n) idx ns /\ column_names ns (df_cols d).
Proof.
  intros e w p dfs w1 p1 d A C I. destruct (C35_columns e w p dfs w1 p1 d A C I) as (idx & cols & SS & F & CN & _). exists idx, (map fst cols). split; auto. split; auto.
  clear - F. induction F as [|i [n vs] l l' (s & nvs & SS & G & IN) F IH]; constructor; auto. exists s. split; auto. eapply c54_name; eauto.
Qed.
Print Assumptions C54_columns.
(** so the second series of a name is called .2, the third one .3 and so on,
    unless a header has a name of that form *)
Theorem C35_suffixes : forall ns cols k n, column_names ns cols -> plain_names ns -> nth_error ns k = Some n ->
  nth_error cols k = Some (numbered n (Z.of_nat (occurrences n (firstn (S k) ns)))).
Proof. intros ns cols k n C P N. exact (c35_suffixes ns cols C P k n N). Qed.
Print Assumptions C35_suffixes.
(** and names already given stay *)
Theorem C35_not_renamed : forall ns n cols cols', column_names ns cols -> column_names (ns ++ [n]) cols' -> exists col, cols' = cols ++ [col] /\ next_name cols n col.
Proof. exact c35_not_renamed. Qed.
Print Assumptions C35_not_renamed.
Definition names_sheet (a b c d : string) : worksheet := sheet_of (T "s")
  [[VStr (T "date"); VStr (T a); VStr (T b); VStr (T c); VStr (T d)];
   [day 2000 1 1; VInt 1; VInt 2; VInt 3; VInt 4]; [day 2000 2 1; VInt 5; VInt 6; VInt 7; VInt 8]].
Definition names_params : dict := full 2 ["B1"%string; "C1"%string; "D1"%string; "E1"%string] ["A1"%string; "A1"%string; "A1"%string; "A1"%string] ["M"%string; "M"%string; "M"%string; "M"%string] false.
Example C35_case :
  match alone demo_env (names_sheet "x" "y" "x" "x") names_params with
  | Ok [d] => df_cols d = [T "x"; T "y"; T "x.2"; T "x.3"] /\ df_data d = [map float_of_Z [1; 5]; map float_of_Z [2; 6]; map float_of_Z [3; 7]; map float_of_Z [4; 8]]
  | _ => False end /\
  match alone demo_env (names_sheet "x" "x.2" "x" "x.2") names_params with
  | Ok [d] => df_cols d = [T "x"; T "x.2"; T "x.3"; T "x.2.2"]
  | _ => False end /\
  column_names [T "x"; T "y"; T "x"; T "x"] [T "x"; T "y"; T "x.2"; T "x.3"] /\ plain_names [T "x"; T "y"; T "x"; T "x"].
Proof.
  split; [vm_compute; repeat split|]. split; [vm_compute; repeat split|]. split.
  - apply (cns_snoc [T "x"; T "y"; T "x"] (T "x") [T "x"; T "y"; T "x.2"] (T "x.3")).
    apply (cns_snoc [T "x"; T "y"] (T "x") [T "x"; T "y"] (T "x.2")). apply (cns_snoc [T "x"] (T "y") [T "x"] (T "y")). apply (cns_snoc [] (T "x") [] (T "x")). constructor.
    + exists 1. split; [lia|]. split; [reflexivity|]. split; [cbn; tauto|lia].
    + exists 1. split; [lia|]. split; [reflexivity|]. split; [cbn; intuition discriminate|lia].
    + exists 2. split; [lia|]. split; [vm_compute; reflexivity|]. split; [cbn; intuition discriminate|]. intros j J. replace j with 1 by lia. left. reflexivity.
    + exists 3. split; [lia|]. split; [vm_compute; reflexivity|]. split; [cbn; intuition discriminate|]. intros j J. assert (D : j = 1 \/ j = 2) by lia. destruct D as [-> | ->]; vm_compute; auto.
  - intros a b i A B I E. assert (X : forall t, In t [T "x"; T "y"; T "x"; T "x"] -> List.length t = 1%nat) by (clear; cbn; intuition subst; reflexivity).
    apply X in A, B. rewrite E in A. unfold numbered in A. replace (i =? 1) with false in A by lia. rewrite app_length, B in A. cbn in A. lia.
Qed.

(** ** C36 Every series lands in the frame of its dates *)

(** every header contributes, and each of its pieces - one frequency, with its
    dates, name and values - is in exactly one frame, with those of the same
    frequency, first and last date and no others, in the order of the headers *)
Theorem C36_frames : forall e w p dfs w1 p1, alone e w p = Ok dfs -> clean_data e w p = (w1, p1, Ok tt) -> sorted_into e w1 p1 dfs.
Proof.
  intros e w p dfs w1 p1 A C. destruct (alone_parts _ _ _ _ A) as (w1' & p1' & w2 & C' & G). rewrite C in C'. injection C' as <- <-. eapply c36_frames; eauto.
Qed.
Print Assumptions C36_frames.
(** one piece for a single frequency *)
Theorem C36_one_column : forall e w s ps, single_frequency s -> contributes e w s ps -> exists pc, ps = [pc].
Proof. exact c36_one. Qed.
Print Assumptions C36_one_column.
(** one for each letter of several, all of them with the name of the header *)
Theorem C36_letters : forall e w s ps, contributes e w s ps ->
  (exists cs, letters_of (sp_freq s) (List.length (sp_freq s)) cs /\
   forall k pc, nth_error ps k = Some pc -> exists f nm, nth_error cs k = Some f /\ pandas_name (String f "") nm /\ pr_freq (fst pc) = T nm) /\
  exists n, forall pc, In pc ps -> fst (snd pc) = n.
Proof. intros e w s ps C. split; [exact (c36_letters e w s ps C)|exact (c36_same_name e w s ps C)]. Qed.
Print Assumptions C36_letters.
(** two monthly series with the same months, one with others, one quarterly *)
Definition mixed_sheet : worksheet := sheet_of (T "s")
  [[VStr (T "date"); VStr (T "a"); VStr (T "b"); VStr (T "date"); VStr (T "c"); VStr (T "date"); VStr (T "d")];
   [day 2000 1 1; VInt 1; VInt 2; day 2000 1 1; VInt 3; day 2000 2 1; VInt 4];
   [day 2000 2 1; VInt 5; VInt 6; day 2000 4 1; VInt 7; day 2000 3 1; VInt 8];
   [day 2000 3 1; VInt 9; VInt 0; day 2000 7 1; VInt 1; day 2000 4 1; VInt 2]].
Definition mixed_params : dict := full 2 ["B1"%string; "E1"%string; "G1"%string; "C1"%string] ["A1"%string; "D1"%string; "F1"%string; "A1"%string] ["M"%string; "Q"%string; "M"%string; "M"%string] false.
Example C36_case :
  match alone demo_env mixed_sheet mixed_params with
  | Ok [x; y; z] => df_cols x = [T "a"; T "b"] /\ df_cols y = [T "c"] /\ df_cols z = [T "d"] /\
      pr_freq (df_index x) = T "MS" /\ pr_freq (df_index y) = T "QS-JAN" /\ pr_dates (df_index z) = [first 2000 2 1; first 2000 3 1; first 2000 4 1]
  | _ => False end.
Proof. vm_compute. repeat split. Qed.
(** quarters and years in one column *)
Definition cycle_sheet : worksheet := sheet_of (T "s")
  [[VStr (T "date"); VStr (T "x")];
   [day 2000 1 1; VInt 1]; [day 2000 4 1; VInt 2]; [day 2000 7 1; VInt 3]; [day 2000 10 1; VInt 4]; [day 2000 1 1; VInt 10];
   [day 2001 1 1; VInt 5]; [day 2001 4 1; VInt 6]; [day 2001 7 1; VInt 7]; [day 2001 10 1; VInt 8]; [day 2001 1 1; VInt 26]].
Example C36_cycle_case :
  match alone demo_env cycle_sheet (full 2 ["B1"%string] ["A1"%string] ["QQQQA"%string] false) with
  | Ok [q; a] => df_cols q = [T "x"] /\ df_data q = [map float_of_Z [1; 2; 3; 4; 5; 6; 7; 8]] /\ df_cols a = [T "x"] /\ df_data a = [map float_of_Z [10; 26]] /\
      pr_dates (df_index a) = [first 2000 1 1; first 2001 1 1] /\ List.length (pr_dates (df_index q)) = 8%nat
  | _ => False end.
Proof. vm_compute. repeat split. Qed.

(** ** C37 The index lists every period between the first and last date *)

(** a series of one frequency, from the date of its first position to that of
    the last one.  A daily series may have working days instead *)
Theorem C37_index : forall e w p dfs w1 p1 i m s f a b en n vs, real_stamps e -> real_dates w -> alone e w p = Ok dfs -> clean_data e w p = (w1, p1, Ok tt) ->
  py_len (dgetN n_headers_coord p1) = Ok m -> (i < m)%nat -> series_sp p1 i = Ok s -> single_frequency s -> sp_freq s = T f ->
  sp_ends s = Some en -> holds s w1 (sp_starts s + sp_ta s) (VDate a) -> holds s w1 (en + sp_ta s) (VDate b) ->
  get_data e w1 s = Ok [(n, vs)] ->
  exists d, In d dfs /\ in_frame d n vs /\ rectangular d /\
  (covers f a b (df_index d) \/
   f = "D"%string /\ exists r x y, covers f a b r /\ (List.length (pr_dates (df_index d)) <> List.length (pr_dates r)) /\ hd_error (pr_dates r) = Some x /\ hd_error (rev (pr_dates r)) = Some y /\ covers_working x y (df_index d)).
Proof.
  intros e w p dfs w1 p1 i m s f a b en n vs RS R A C PL Hi SS SF FR EN HA HB GD. destruct (alone_parts _ _ _ _ A) as (w1' & p1' & w2 & C' & G). rewrite C in C'. injection C' as <- <-.
  pose proof (clean_data_real _ _ _ _ _ _ C R) as R1. apply (c37_index e w1 p1 w2 dfs i m s f a b n vs); auto. exists en. auto.
Qed.
Print Assumptions C37_index.
(** a series of several frequencies: for each letter, from the date of its
    first position to that of its last one, wherever the series stops *)
Theorem C37_several : forall e w p dfs w1 p1 i m s nvs en cs k n vs c q q' a b, real_stamps e -> real_dates w -> alone e w p = Ok dfs ->
  clean_data e w p = (w1, p1, Ok tt) ->
  py_len (dgetN n_headers_coord p1) = Ok m -> (i < m)%nat -> series_sp p1 i = Ok s -> (2 <= List.length (sp_freq s))%nat ->
  sp_ends s = Some en -> 1 <= sp_starts s -> en <= axis_max (sp_al s) w1 ->
  letters_of (sp_freq s) (List.length (sp_freq s)) cs -> nth_error cs k = Some c -> first_place s c q -> last_place s en c q' ->
  holds s w1 q (VDate a) -> holds s w1 q' (VDate b) -> get_data e w1 s = Ok nvs -> nth_error nvs k = Some (n, vs) ->
  exists d, In d dfs /\ in_frame d n vs /\ rectangular d /\
  (covers (String c EmptyString) a b (df_index d) \/
   c = "D"%char /\ exists r x y, covers "D" a b r /\ (List.length (pr_dates (df_index d)) <> List.length (pr_dates r)) /\ hd_error (pr_dates r) = Some x /\ hd_error (rev (pr_dates r)) = Some y /\ covers_working x y (df_index d)).
Proof.
  intros e w p dfs w1 p1 i m s nvs en cs k n vs c q q' a b RS R A C PL Hi SS NF EN S1 EX L K FP LP HA HB GD N.
  destruct (alone_parts _ _ _ _ A) as (w1' & p1' & w2 & C' & G). rewrite C in C'. injection C' as <- <-.
  pose proof (clean_data_real _ _ _ _ _ _ C R) as R1. apply (c37_multi e w1 p1 w2 dfs i m s nvs en cs k n vs c q q' a b); auto.
Qed.
Print Assumptions C37_several.
(** a series of several frequencies in columns gives frames only if its last
    cycle, whole or not, has all of its frequencies: otherwise the call raises *)
Theorem C37_last_cycle : forall e w p dfs w1 p1 i m s en c, real_stamps e -> real_dates w -> alone e w p = Ok dfs -> clean_data e w p = (w1, p1, Ok tt) ->
  py_len (dgetN n_headers_coord p1) = Ok m -> (i < m)%nat -> series_sp p1 i = Ok s -> (2 <= List.length (sp_freq s))%nat -> sp_al s = Vert ->
  sp_ends s = Some en -> 1 <= sp_starts s <= en -> en <= axis_max (sp_al s) w1 -> In c (sp_freq s) ->
  exists q, sp_starts s <= q <= en /\ (q - sp_starts s) / Z.of_nat (List.length (sp_freq s)) = (en - sp_starts s) / Z.of_nat (List.length (sp_freq s)) /\ position_letter s q = Some c.
Proof.
  intros e w p dfs w1 p1 i m s en c RS R A C PL Hi SS NF AV EN S1 EX I.
  destruct (alone_parts _ _ _ _ A) as (w1' & p1' & w2 & C' & G). rewrite C in C'. injection C' as <- <-.
  pose proof (clean_data_real _ _ _ _ _ _ C R) as R1. apply (c37_last e w1 p1 w2 dfs i m s en c); auto.
Qed.
Print Assumptions C37_last_cycle.
(** the first and last dates are dates pandas can hold: a table with others is
    refused *)
Theorem C37_representable : forall e w p dfs w1 p1 i m s f a b en, real_stamps e -> real_dates w -> alone e w p = Ok dfs -> clean_data e w p = (w1, p1, Ok tt) ->
  py_len (dgetN n_headers_coord p1) = Ok m -> (i < m)%nat -> series_sp p1 i = Ok s -> single_frequency s -> sp_freq s = T f ->
  sp_ends s = Some en -> holds s w1 (sp_starts s + sp_ta s) (VDate a) -> holds s w1 (en + sp_ta s) (VDate b) ->
  timestamp a /\ timestamp b.
Proof.
  intros e w p dfs w1 p1 i m s f a b en RS R A C PL Hi SS SF FR EN HA HB. destruct (alone_parts _ _ _ _ A) as (w1' & p1' & w2 & C' & G). rewrite C in C'. injection C' as <- <-.
  pose proof (clean_data_real _ _ _ _ _ _ C R) as R1. apply (c37_stamps e w1 p1 w2 dfs i m s f a b); auto. exists en. auto.
Qed.
Print Assumptions C37_representable.
(** two years up to 2262 are read, up to 2263 refused *)
Definition far_sheet (y : Z) : worksheet := sheet_of (T "s")
  [[VStr (T "date"); VStr (T "x")]; [day y 1 1; VInt 1]; [day (y + 1) 1 1; VInt 2]].
Example C37_representable_case :
  is_ok (alone demo_env (far_sheet 2261) (full 2 ["B1"%string] ["A1"%string] ["A"%string] true)) = true /\
  alone demo_env (far_sheet 2262) (full 2 ["B1"%string] ["A1"%string] ["A"%string] true) = Err EValue /\
  timestamp (mkdt 2262 1 1 0) /\ ~ timestamp (mkdt 2263 1 1 0).
Proof.
  split; [vm_compute; reflexivity|]. split; [vm_compute; reflexivity|]. split.
  - split; right; unfold earlier; cbn; lia.
  - intros [_ [H|H]]; [discriminate|]. unfold earlier in H. cbn in H. lia.
Qed.
(** the range of dates itself, for every first and last date *)
Theorem C37_range : forall f s en r, real_date s -> real_date en -> date_range s en (T f) = Ok r -> covers f s en r.
Proof. intros f s en r Rs Re H. exact (proj1 (range_covers f s en r Rs Re H)). Qed.
Print Assumptions C37_range.
Theorem C37_working_days : forall s en, real_date s -> real_date en -> dt_y s < 9999 -> dt_y en < 9999 -> covers_working s en (business_range s en).
Proof. exact business_covers. Qed.
Print Assumptions C37_working_days.
(** the index is determined by frequency and ends *)
Theorem C37_determined : forall f s en r r', covers f s en r -> covers f s en r' -> r = r'.
Proof. exact covers_one. Qed.
Print Assumptions C37_determined.
Example C37_case :
  match clean_data demo_env mixed_sheet mixed_params with
  | (w1, p1, Ok tt) => match series_sp p1 1 with
      | Ok s => single_frequency s /\ sp_freq s = T "Q" /\ sp_starts s + sp_ta s = 2 /\ sp_ends s = Some 4 /\ cell w1 2 4 = day 2000 1 1 /\ cell w1 4 4 = day 2000 7 1 /\
          get_data demo_env w1 s = Ok [(T "c", map float_of_Z [3; 7; 1])]
      | Err _ => False end
  | _ => False end /\
  match alone demo_env mixed_sheet mixed_params with
  | Ok [x; y; z] => pr_dates (df_index y) = [first 2000 1 1; first 2000 4 1; first 2000 7 1]
  | _ => False end.
Proof. split; vm_compute; repeat split. Qed.
(** from a Friday to a Tuesday: five days or three working days *)
Definition daily_sheet (vs : list (Z * Z)) : worksheet := sheet_of (T "s")
  ([VStr (T "date"); VStr (T "x")] :: map (fun v => [day 2000 9 (fst v); VInt (snd v)]) vs).
Example C37_daily_case :
  match alone demo_env (daily_sheet [(1, 10); (2, 20); (3, 30); (4, 40); (5, 50)]) (full 2 ["B1"%string] ["A1"%string] ["D"%string] true) with
  | Ok [d] => pr_freq (df_index d) = T "D" /\ map dt_d (pr_dates (df_index d)) = [1; 2; 3; 4; 5]
  | _ => False end /\
  match alone demo_env (daily_sheet [(1, 10); (4, 40); (5, 50)]) (full 2 ["B1"%string] ["A1"%string] ["D"%string] true) with
  | Ok [d] => pr_freq (df_index d) = T "B" /\ map dt_d (pr_dates (df_index d)) = [1; 4; 5]
  | _ => False end.
Proof. split; vm_compute; repeat split. Qed.
(** a series in columns that stops before the years of its last cycle raises *)
Definition short_cycle_sheet : worksheet := sheet_of (T "s")
  [[VStr (T "date"); VStr (T "x")];
   [day 2000 1 1; VInt 1]; [day 2000 4 1; VInt 2]; [day 2000 7 1; VInt 3]; [day 2000 10 1; VInt 4]; [day 2000 1 1; VInt 10];
   [day 2001 1 1; VInt 5]; [day 2001 4 1; VInt 6]].
Example C37_several_case :
  match clean_data demo_env cycle_sheet (full 2 ["B1"%string] ["A1"%string] ["QQQQA"%string] false) with
  | (w1, p1, Ok tt) => match series_sp p1 0 with
      | Ok s => sp_freq s = T "QQQQA" /\ sp_starts s = 2 /\ sp_ends s = Some 11 /\ sp_al s = Vert /\ axis_max Vert w1 = 12 /\
          map (position_letter s) [2; 6; 10; 11] = [Some "Q"; Some "A"; Some "Q"; Some "A"]%char /\
          cell w1 2 1 = day 2000 1 1 /\ cell w1 10 1 = day 2001 10 1 /\ cell w1 6 1 = day 2000 1 1 /\ cell w1 11 1 = day 2001 1 1 /\
          get_data demo_env w1 s = Ok [(T "x", map float_of_Z [1; 2; 3; 4; 5; 6; 7; 8]); (T "x", map float_of_Z [10; 26])]
      | Err _ => False end
  | _ => False end /\
  alone demo_env short_cycle_sheet (full 2 ["B1"%string] ["A1"%string] ["QQQQA"%string] false) = Err EValue.
Proof. split; vm_compute; repeat split. Qed.
(** years before their quarters: stopping within a cycle is no problem *)
Definition years_first_sheet : worksheet := sheet_of (T "s")
  [[VStr (T "date"); VStr (T "x")];
   [day 2000 1 1; VInt 10]; [day 2000 1 1; VInt 1]; [day 2000 4 1; VInt 2]; [day 2000 7 1; VInt 3]; [day 2000 10 1; VInt 4];
   [day 2001 1 1; VInt 11]; [day 2001 1 1; VInt 5]; [day 2001 4 1; VInt 6]].
Example C37_stops_case :
  match clean_data demo_env years_first_sheet (full 2 ["B1"%string] ["A1"%string] ["AQQQQ"%string] false) with
  | (w1, p1, Ok tt) => match series_sp p1 0 with
      | Ok s => sp_freq s = T "AQQQQ" /\ sp_starts s = 2 /\ sp_ends s = Some 9 /\ sp_al s = Vert /\ axis_max Vert w1 = 10 /\
          map (position_letter s) [2; 3; 7; 9] = [Some "A"; Some "Q"; Some "A"; Some "Q"]%char /\
          cell w1 3 1 = day 2000 1 1 /\ cell w1 9 1 = day 2001 4 1 /\
          get_data demo_env w1 s = Ok [(T "x", map float_of_Z [10; 11]); (T "x", map float_of_Z [1; 2; 3; 4; 5; 6])]
      | Err _ => False end
  | _ => False end /\
  match alone demo_env years_first_sheet (full 2 ["B1"%string] ["A1"%string] ["AQQQQ"%string] false) with
  | Ok [a; q] => pr_dates (df_index a) = [first 2000 1 1; first 2001 1 1] /\
      pr_dates (df_index q) = [first 2000 1 1; first 2000 4 1; first 2000 7 1; first 2000 10 1; first 2001 1 1; first 2001 4 1]
  | _ => False end.
Proof. split; vm_compute; repeat split. Qed.
