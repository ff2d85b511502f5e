(** C57: opening files. *)
From Verif Require Import Base Coord XlMethods Params ParseTime Scrape Xlseries Load SpecParams SpecScrape SpecLoad LoadProofs
  Demo PropsParams PropsScrape.
Local Open Scope Z_scope.

(** The extension decides how a file is opened. *)
Theorem C57_extension fuel xlsx xlrd name :
  load_wb fuel xlsx xlrd (name ++ T ".xlsx") = Some (xlsx (name ++ T ".xlsx")) /\
  (forall sheets, xlrd (name ++ T ".xls") = Ok sheets ->
     load_wb fuel xlsx xlrd (name ++ T ".xls") = open_sheets fuel sheets []) /\
  (forall path, (forall n, path <> n ++ T ".xlsx") -> (forall n, path <> n ++ T ".xls") ->
     load_wb fuel xlsx xlrd path = Some (Err EValue)).
Proof.
  assert (X : forall s, ends_with (T s) (name ++ T s) = true) by (intros s; apply ends_with_app; eauto).
  unfold load_wb, open_xls_as_xlsx. split; [rewrite (X ".xlsx"%string); auto|]. split.
  - intros sheets H. rewrite not_xlsx, (X ".xls"%string), H. auto.
  - intros path A B. destruct (ends_with (T ".xlsx") path) eqn:E1.
    + apply ends_with_app in E1 as [n E1]. exfalso. eapply A; eauto.
    + destruct (ends_with (T ".xls") path) eqn:E2; auto. apply ends_with_app in E2 as [n E2]. exfalso. eapply B; eauto.
Qed.
Print Assumptions C57_extension.

(** When every sheet of an .xls has cells, the opened workbook has the same
    sheets in the same order with the same contents. *)
Theorem C57_kept_partial k sheets : Forall usual_sheet sheets ->
  exists wb, open_sheets (S k) sheets [] = Some (Ok wb) /\ Forall2 kept_sheet sheets wb.
Proof. intros H. exact (open_kept k sheets [] H). Qed.
Print Assumptions C57_kept_partial.

(** Otherwise it is not opened at all: the call does not end, however long it
    is waited for. *)
Theorem C57_empty_sheet s1 s s2 : Forall usual_sheet s1 -> (xs_rows s = 0 \/ xs_cols s = 0)%nat ->
  forall fuel, open_sheets fuel (s1 ++ s :: s2) [] = None.
Proof. intros F E fuel. exact (open_waits s s2 E s1 [] fuel F). Qed.
Print Assumptions C57_empty_sheet.

(** The dates of an .xls are never dates in the opened workbook ... *)
Theorem C57_no_dates fuel sheets wb : open_sheets fuel sheets [] = Some (Ok wb) ->
  forall w r c d, In w wb -> cell w r c <> VDate d.
Proof.
  intros H w r c d I. pose proof (open_no_dates fuel sheets [] wb H (Forall_nil _)) as F. rewrite Forall_forall in F. apply F. auto.
Qed.
Print Assumptions C57_no_dates.

(** the loops of make_ws_copy and make_wb_copy do copy every cell (C50) *)
Theorem C50_copy_loop w : 1 <= max_row w -> 1 <= max_col w <= max_column -> (forall r c, usual_value (cell w r c)) -> bounded w ->
  exists w', copy_loop w = Ok w' /\ same_sheet w w'.
Proof.
  intros R C V B. destruct (copy_loop_same w R C V) as [w' [E S1]]. exists w'. split; auto.
  destruct (C50_sheet_copy w B) as (A1 & A2 & A3 & A4). destruct S1 as (S1 & S2 & S3 & S4).
  split; [congruence|]. split; [congruence|]. split; [congruence|]. intros r c. rewrite A4. apply S4.
Qed.
Print Assumptions C50_copy_loop.

(** the three months of [demo], as an .xls holds them *)
Definition f_ (z : Z) : spec_float := float_of_Z z.
Definition old_rows : list (list xls_cell) :=
  [[XText (T "Date"); XText (T "a"); XText (T "b"); XText (T "c")];
   [XDate (f_ 36526); XNumber (f_ 1); XNumber (f_ 2); XNumber (f_ 3)];
   [XDate (f_ 36557); XNumber (f_ 4); XNumber (f_ 5); XEmpty];
   [XDate (f_ 36586); XNumber (f_ 7); XBool true; XError 42]].
Definition old_sheet (name : string) (rows : list (list xls_cell)) : xls_sheet :=
  mkxls (T name) (List.length rows) (fold_right Nat.max 0%nat (map (@List.length _) rows))
    (fun r c => nth c (nth r rows []) XEmpty).

(** ... so a table of dates that is read from an .xlsx cannot be read from an
    .xls, with any of the four usual frequencies (nothing in [demo_env] takes a
    number for a date). *)
Definition months_only : list (list xls_cell) :=
  [[XText (T "Date"); XText (T "a"); XText (T "b"); XText (T "c")];
   [XDate (f_ 36526); XNumber (f_ 1); XNumber (f_ 2); XNumber (f_ 3)];
   [XDate (f_ 36557); XNumber (f_ 4); XNumber (f_ 5); XNumber (f_ 6)];
   [XDate (f_ 36586); XNumber (f_ 7); XNumber (f_ 8); XNumber (f_ 9)]].
Theorem C57_dates_refuted : exists sheets wb,
  Forall usual_sheet sheets /\ open_sheets 1 sheets [] = Some (Ok wb) /\
  (exists s, In s sheets /\ exists f, xs_cell s 1 0 = XDate f) /\
  Forall (fun f => raises (snd (get_data_frames demo_env (fun t => t) no_json (mkstore wb []) [0%nat]
    (UInput (PDict (sample_with "frequency" (VStr (T f))))) None false true))) ["A"; "Q"; "M"; "D"]%string.
Proof.
  exists [old_sheet "Data" months_only]. eexists. split; [|split; [vm_compute; reflexivity|split]].
  - constructor; [|constructor]. split; [split; cbn; lia|]. split; [cbn; lia|].
    intros r c Hr Hc. cbn in Hr, Hc.
    do 4 (destruct r as [|r]; [do 4 (destruct c as [|c]; [cbn; first [exact I|split;
      [cbn; lia|intros x Hx; vm_compute in Hx; repeat destruct Hx as [<-|Hx]; try contradiction; left; vm_compute; discriminate]]|]); lia|]); lia.
  - eexists. split; [left; reflexivity|]. eexists. reflexivity.
  - repeat constructor; eexists; vm_compute; reflexivity.
Qed.
Print Assumptions C57_dates_refuted.

(** the contents of an old file, and what is found after opening it *)
Example C57_case :
  match open_sheets 3 [old_sheet "Data" old_rows; old_sheet "More" months_only] [] with
  | Some (Ok [w; w']) =>
      title w = T "Data" /\ title w' = T "More" /\ max_row w = 4 /\ max_col w = 4 /\
      cell w 1 1 = VStr (T "Date") /\ cell w 2 1 = VFloat (f_ 36526) /\ cell w 3 4 = VStr [] /\
      cell w 4 3 = VInt 1 /\ cell w 4 4 = VInt 42 /\ cell w' 4 4 = VFloat (f_ 9) /\ cell w' 5 1 = VNone
  | _ => False
  end.
Proof. vm_compute. repeat split. Qed.
Example C57_extension_case :
  load_wb 3 (fun _ => Ok [demo]) (fun _ => Ok [old_sheet "Data" months_only]) (T "a.XLS") = Some (Err EValue) /\
  load_wb 3 (fun _ => Ok [demo]) (fun _ => Ok [old_sheet "Data" []]) (T "a.xls") = None /\
  is_ok (match load_wb 3 (fun _ => Ok [demo]) (fun _ => Ok [old_sheet "Data" months_only]) (T "a.xls") with Some r => r | None => Err EOther end) = true.
Proof. vm_compute. repeat split. Qed.
