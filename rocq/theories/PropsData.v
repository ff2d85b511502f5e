(** Theorems about the names and values of the series (C30 - C33, C53). *)
From Verif Require Import Base BaseFacts Cal Coord Params ParseTime TimeIndex GetData SpecCal CalFacts SpecCoord SpecCoordFacts SpecTime
  TimeProofs SpecData NumberFacts DataFacts DataProofs TextProofs Demo PropsTime.
From Coq Require Import Sorted.
Local Open Scope Z_scope.

(** *** sheets for the examples: dates in column A, values in column B *)
Definition table (rows : list (pyval * pyval)) : worksheet :=
  sheet_of (T "s") ([VStr (T "date"); VStr (T "x")] :: map (fun r => [fst r; snd r]) rows).
Definition data_series (ends : Z) (cont blanks missings : bool) (mv : list pyval) (f : string) : sp :=
  mksp Vert (VStr (T "x")) (T "B1") VNone VNone 2 (Some ends) cont blanks missings (VList mv) 0 false (ThStr (T "A1")) false (T f).
Ltac value_ := apply (in_series_iff _ _ 2); [reflexivity|vm_compute; reflexivity].
Ltac start_ L := match type of L with ?a <= _ <= _ => let b := eval vm_compute in a in change a with b in L end.
Ltac own_ := eexists; split; [reflexivity|]; match goal with |- cells_from _ _ _ ?a _ => let b := eval vm_compute in a in change a with b end; repeat (apply cf_cell; [lia|value_|]; cbn [Z.add Pos.add Pos.succ Pos.add_carry]); apply cf_end; lia.
Ltac dated_ := repeat (apply df_cell; [lia|value_|here|]); apply df_end; lia.
Ltac sheet_ := split; [exists 1, 2; apply cell_named_iff; reflexivity|]; intros ? ? E L; injection E as <-; split; [start_ L; lia|discriminate].
Ltac number_ := constructor; vm_compute; discriminate.
Ltac plain_ := eapply cv_number; [discriminate|apply sd_other; discriminate|discriminate|number_|].
Notation "'$' n" := (float_of_Z n) (at level 5).

(** ** C32 Numbers come from the series' own cells *)

(** for every sheet: what is returned are the values of the cells of the series
    between data_starts and data_ends, in order; blank cells may be skipped
    when blank rows are allowed, markers are NaN, the rest are numbers *)
Theorem C32_own_values : forall e w p r, single_frequency p -> not_implicit p -> get_data e w p = Ok r ->
  exists vs, values_read p w vs /\ (vs = [] /\ r = [] \/ exists name, r = [(name, vs)]).
Proof. exact c32_values. Qed.
Print Assumptions C32_own_values.
Theorem C32_values_returned : forall e w p vs n, single_frequency p -> not_implicit p -> series_name e w p n -> series_in_sheet p ->
  (sp_cont p = false -> index_in_sheet p) -> values_read p w vs -> vs <> [] -> get_data e w p = Ok [(n, vs)].
Proof. exact c32_accepts. Qed.
Print Assumptions C32_values_returned.
(** anything else in a cell of a continuous series raises *)
Theorem C32_not_a_number_raises : forall e w p cells v, sp_cont p = true -> marker_list p -> own_cells p w cells -> In v cells ->
  (v = VNone -> sp_blank p = false) -> (forall v', sp_missings p = true -> stripped v v' -> ~ marker p v') -> (forall f, ~ cell_number v f) ->
  exists ex, get_data e w p = Err ex.
Proof. exact c32_raises. Qed.
Print Assumptions C32_not_a_number_raises.
Definition c32_sheet : worksheet :=
  table [(month 2000 1, VInt 7); (VNone, VNone); (month 2000 2, VStr (T " NA ")); (month 2000 3, VStr (T "1_000.5e1")); (month 2000 4, VBool true)].
Definition c32_series : sp := data_series 6 true true true [VStr (T "NA")] "M".
Lemma not_na v : stripped (VStr (T "1_000.5e1")) v -> v = VStr (T "1_000.5e1").
Proof. intros H. apply stripped_iff in H. rewrite H. reflexivity. Qed.
Example C32_case :
  single_frequency c32_series /\ not_implicit c32_series /\ series_name demo_env c32_sheet c32_series (T "x") /\ series_in_sheet c32_series /\
  values_read c32_series c32_sheet [$7; S754_nan; $10005; $1] /\
  get_data demo_env c32_sheet c32_series = Ok [(T "x", [$7; S754_nan; $10005; $1])].
Proof.
  assert (MK : forall v, v <> VStr (T "NA") -> (exists t, v = VStr t) \/ (exists z, v = VInt z) \/ (exists b, v = VBool b) -> ~ marker c32_series v).
  { intros v N K H. apply (marker_iff c32_series [VStr (T "NA")] v eq_refl) in H. cbn in H. destruct K as [[t ->]|[[z ->]|[b ->]]]; try discriminate.
    cbn in H. rewrite orb_false_r in H. apply text_eqb_eq in H. apply N; rewrite H; reflexivity. }
  split; [reflexivity|]. split; [intros _; eexists; split; [reflexivity|intros [H|[]]; discriminate]|]. split; [apply sn_given; [reflexivity|discriminate]|]. split; [sheet_|]. split.
  - apply (vr_continuous _ _ [VInt 7; VNone; VStr (T " NA "); VStr (T "1_000.5e1"); VBool true]); [reflexivity|own_|].
    apply cv_number with (v' := VInt 7); [discriminate|apply sd_other; discriminate|intros _; apply MK; [discriminate|eauto]|number_|].
    apply cv_blank; [reflexivity|].
    apply cv_marker with (v' := VStr (T "NA")); [discriminate|reflexivity|apply stripped_iff; reflexivity|exists [VStr (T "NA")], (VStr (T "NA")); repeat split; left; auto|].
    apply cv_number with (v' := VStr (T "1_000.5e1")); [discriminate|apply stripped_iff; reflexivity|intros _; apply MK; [discriminate|eauto]| |].
    + apply cell_number_iff. vm_compute. reflexivity.
    + apply cv_number with (v' := VBool true); [discriminate|apply sd_other; discriminate|intros _; apply MK; [discriminate|eauto]|constructor|constructor].
  - vm_compute. reflexivity.
Qed.
Example C32_raises_case : let w := table [(month 2000 1, VInt 7); (month 2000 2, VStr (T "7,5"))] in
  let p := data_series 3 true true true [VStr (T "NA")] "M" in
  own_cells p w [VInt 7; VStr (T "7,5")] /\ (forall f, ~ cell_number (VStr (T "7,5")) f) /\
  (forall v', stripped (VStr (T "7,5")) v' -> ~ marker p v') /\ get_data demo_env w p = Err EOther.
Proof.
  cbv zeta. split; [own_|]. split; [intros f H; apply cell_number_iff in H; vm_compute in H; discriminate|]. split; [|vm_compute; reflexivity].
  intros v' H K. apply stripped_iff in H. subst v'. apply (marker_iff _ [VStr (T "NA")]) in K; [discriminate|reflexivity].
Qed.

(** ** C33 Non continuous series only take rows with a date *)

(** [loose_values]: a value is taken exactly when its cell is worth something
    (a number, or NaN for a marker) and the time cell beside it has a date *)
Theorem C33_dated_values : forall e w p r en, sp_cont p = false -> sp_ends p = Some en -> single_frequency p -> not_implicit p -> get_data e w p = Ok r ->
  exists pairs vs, dated_cells_from p w en (sp_starts p) pairs /\ loose_values p pairs vs /\ (vs = [] /\ r = [] \/ exists name, r = [(name, vs)]).
Proof.
  intros e w p r en CT EN SF NI H. destruct (c32_values e w p r SF NI H) as (vs & V & R).
  destruct V as [cells vs CT' _ _|en' pairs vs _ EN' D L]; [congruence|]. assert (en' = en) by congruence. subst. eauto.
Qed.
Print Assumptions C33_dated_values.
(** and nothing in the cells makes it raise *)
Theorem C33_never_raises : forall e w p n en, sp_cont p = false -> single_frequency p -> not_implicit p -> series_name e w p n -> sp_ends p = Some en ->
  series_in_sheet p -> index_in_sheet p -> exists r, get_data e w p = Ok r.
Proof. exact c33_total. Qed.
Print Assumptions C33_never_raises.
Definition c33_sheet : worksheet :=
  table [(month 2000 1, VInt 7); (VStr (T "see note"), VInt 8); (month 2000 2, VStr (T "n/a")); (month 2000 3, VInt 9)].
Definition c33_series : sp := data_series 5 false false false [] "M".
Example C33_case :
  sp_cont c33_series = false /\ single_frequency c33_series /\ not_implicit c33_series /\ series_name demo_env c33_sheet c33_series (T "x") /\
  series_in_sheet c33_series /\ index_in_sheet c33_series /\
  dated_cells_from c33_series c33_sheet 5 2 [(VInt 7, month 2000 1); (VInt 8, VStr (T "see note")); (VStr (T "n/a"), month 2000 2); (VInt 9, month 2000 3)] /\
  loose_values c33_series [(VInt 7, month 2000 1); (VInt 8, VStr (T "see note")); (VStr (T "n/a"), month 2000 2); (VInt 9, month 2000 3)] [$7; $9] /\
  get_data demo_env c33_sheet c33_series = Ok [(T "x", [$7; $9])].
Proof.
  split; [reflexivity|]. split; [reflexivity|]. split; [discriminate|]. split; [apply sn_given; [reflexivity|discriminate]|]. split; [sheet_|]. split.
  { split; [exists (T "A1"), 1, 1; split; [left; split; reflexivity|apply cell_named_iff; reflexivity]|].
    intros ? ? E L. injection E as <-. start_ L. change (sp_ta c33_series) with 0. split; [lia|discriminate]. }
  split; [dated_|]. split; [|vm_compute; reflexivity].
  assert (W : forall z, float_of_Z z <> S754_infinity (z <? 0) -> worth c33_series (VInt z) (float_of_Z z)) by (intros; apply wo_number; [discriminate|constructor; auto]).
  apply lv_taken; [eexists; reflexivity|apply W; vm_compute; discriminate|].
  apply lv_left; [left; intros [d E]; discriminate|].
  apply lv_left; [right; intros f H; inversion H as [v' Q _ _|f' _ Q]; [discriminate|apply cell_number_iff in Q; vm_compute in Q; discriminate]|].
  apply lv_taken; [eexists; reflexivity|apply W; vm_compute; discriminate|]. constructor.
Qed.

(** ** C30 Multi-frequency values follow the declared cycle *)
Theorem C30_cycle : forall e w p r, (2 <= List.length (sp_freq p))%nat -> marker_list p -> get_data e w p = Ok r ->
  exists name vs cs, values_read p w vs /\ letters_of (sp_freq p) (List.length vs) cs /\
    r = map (fun c => (name, values_of (sp_freq p) c 0 vs)) cs.
Proof. exact c30_cycle. Qed.
Print Assumptions C30_cycle.
Theorem C30_accepted : forall e w p n vs, (2 <= List.length (sp_freq p))%nat -> marker_list p -> series_name e w p n -> series_in_sheet p ->
  (sp_cont p = false -> index_in_sheet p) -> values_read p w vs ->
  exists cs, letters_of (sp_freq p) (List.length vs) cs /\ get_data e w p = Ok (map (fun c => (n, values_of (sp_freq p) c 0 vs)) cs).
Proof. exact c30_accepts. Qed.
Print Assumptions C30_accepted.
(** four quarters and their year, then a quarter more *)
Definition c30_sheet : worksheet :=
  table [(month 2000 1, VInt 1); (month 2000 4, VInt 2); (month 2000 7, VInt 3); (month 2000 10, VInt 4); (month 2000 1, VInt 10); (month 2001 1, VInt 5)].
Definition c30_series : sp := data_series 7 true false false [] "QQQQA".
Example C30_case :
  (2 <= List.length (sp_freq c30_series))%nat /\ marker_list c30_series /\ series_name demo_env c30_sheet c30_series (T "x") /\ series_in_sheet c30_series /\
  values_read c30_series c30_sheet [$1; $2; $3; $4; $10; $5] /\ letters_of (T "QQQQA") 6 (T "QA") /\
  get_data demo_env c30_sheet c30_series = Ok [(T "x", [$1; $2; $3; $4; $5]); (T "x", [$10])].
Proof.
  split; [cbn; lia|]. split; [discriminate|]. split; [apply sn_given; [reflexivity|discriminate]|]. split; [sheet_|]. split; [|split].
  - apply (vr_continuous _ _ [VInt 1; VInt 2; VInt 3; VInt 4; VInt 10; VInt 5]); [reflexivity|own_|]. do 6 plain_. constructor.
  - apply lo_old with (c := "Q"%char); [|reflexivity|left; reflexivity].
    apply (lo_new (T "QQQQA") 4 (T "Q") "A"%char); [|reflexivity|intros [H|[]]; discriminate].
    do 3 (apply lo_old with (c := "Q"%char); [|reflexivity|left; reflexivity]).
    apply (lo_new (T "QQQQA") 0 [] "Q"%char); [constructor|reflexivity|intros []].
  - vm_compute. reflexivity.
Qed.

(** ** C31 Implicit missings are filled in place *)

(** [g] is the grid of periods from the first date, the i-th row has the date
    of period [nth i ks].  Partial: the series has no skipped rows and its
    index is aligned with it *)
Theorem C31_filled_partial : forall e w p f ms cells vals g ks n th r c,
  sp_freq p = T f -> periodic f -> sp_missings p = true -> sp_mv p = VList ms -> In (VStr (T "Implicit")) ms ->
  sp_cont p = true -> sp_blank p = false ->
  own_cells p w cells -> continuous_values p cells vals -> vals <> [] ->
  StronglySorted lt ks -> hd_error ks = Some 0%nat -> List.length ks = List.length cells ->
  (forall k, (k <= S (List.last ks 0))%nat -> real_date (g k)) ->
  (forall k, (k <= List.last ks 0)%nat -> one_period f (g k) (g (S k))) ->
  (forall i k, nth_error ks i = Some k -> exists v, holds p w (sp_starts p + Z.of_nat i) v /\ time_in e v (g k)) ->
  series_name e w p n -> series_in_sheet p -> (sp_th p = ThStr th \/ exists ts, sp_th p = ThList (th :: ts)) -> cell_named th r c ->
  exists full, get_data e w p = Ok [(n, full)] /\ placed ks vals full.
Proof. exact c31_accepts. Qed.
Print Assumptions C31_filled_partial.
Theorem C31_in_place_partial : forall e w p f ms cells vals g ks r,
  sp_freq p = T f -> periodic f -> sp_missings p = true -> sp_mv p = VList ms -> In (VStr (T "Implicit")) ms ->
  sp_cont p = true -> sp_blank p = false ->
  own_cells p w cells -> continuous_values p cells vals -> vals <> [] ->
  StronglySorted lt ks -> hd_error ks = Some 0%nat -> List.length ks = List.length cells ->
  (forall k, (k <= List.last ks 0)%nat -> real_date (g k)) ->
  (forall k, (k < List.last ks 0)%nat -> one_period f (g k) (g (S k))) ->
  (forall i k, nth_error ks i = Some k -> exists v, holds p w (sp_starts p + Z.of_nat i) v /\ time_in e v (g k)) ->
  get_data e w p = Ok r -> exists name full, r = [(name, full)] /\ placed ks vals full.
Proof. exact c31_placed. Qed.
Print Assumptions C31_in_place_partial.
Definition c31_sheet : worksheet := table [(month 2000 11, VInt 1); (month 2001 2, VInt 2); (month 2001 3, VInt 3)].
Definition c31_series : sp := data_series 4 true false true [VStr (T "Implicit")] "M".
Definition c31_grid (k : nat) : datetime := mkdt ((24010 + Z.of_nat k) / 12) ((24010 + Z.of_nat k) mod 12 + 1) 1 0.
Example C31_case :
  own_cells c31_series c31_sheet [VInt 1; VInt 2; VInt 3] /\ continuous_values c31_series [VInt 1; VInt 2; VInt 3] [$1; $2; $3] /\
  (forall k, (k <= 5)%nat -> real_date (c31_grid k)) /\ (forall k, (k <= 4)%nat -> one_period "M" (c31_grid k) (c31_grid (S k))) /\
  (forall i k, nth_error [0; 3; 4]%nat i = Some k -> exists v, holds c31_series c31_sheet (2 + Z.of_nat i) v /\ time_in demo_env v (c31_grid k)) /\
  series_in_sheet c31_series /\ placed [0; 3; 4]%nat [$1; $2; $3] [$1; S754_nan; S754_nan; $2; $3] /\
  get_data demo_env c31_sheet c31_series = Ok [(T "x", [$1; S754_nan; S754_nan; $2; $3])].
Proof.
  assert (MK : forall z, ~ marker c31_series (VInt z)).
  { intros z H. apply (marker_iff c31_series [VStr (T "Implicit")] _ eq_refl) in H. discriminate. }
  split; [own_|]. split.
  { do 3 (eapply cv_number; [discriminate|apply sd_other; discriminate|intros _; apply MK|number_|]). constructor. }
  split. { intros k K. apply valid_real. do 6 (destruct k as [|k]; [reflexivity|]). lia. }
  split. { intros k K. do 5 (destruct k as [|k]; [apply step_period; [unfold periodic; cbn; tauto|apply valid_real; reflexivity|reflexivity]|]). lia. }
  split. { intros [|[|[|i]]] k H; [injection H as <-; eexists; split; [here|constructor]..|destruct i; discriminate]. }
  split; [sheet_|]. split; [|vm_compute; reflexivity].
  split; [reflexivity|]. split.
  - intros [|[|[|i]]] k v H1 H2; [injection H1 as <-; injection H2 as <-; reflexivity..|destruct i; discriminate].
  - intros k K N. do 5 (destruct k as [|k]; [try reflexivity; exfalso; apply N; cbn; tauto|]). cbn in K. lia.
Qed.
(** the same with the second date in a text arrow can read *)
Definition iso_env : env :=
  mkenv (fun _ => []) (fun _ => []) (fun _ => None) (fun _ _ => None)
    (fun v => match v with VStr t => if text_eqb t (T "2001-02-01") then Ok (mkdt 2001 2 1 0) else Err EOther | _ => Err EOther end) (fun _ => Err EOther).
Definition c31_text_sheet : worksheet := table [(month 2000 11, VInt 1); (VStr (T "2001-02-01"), VInt 2); (month 2001 3, VInt 3)].
Example C31_text_case :
  (forall i k, nth_error [0; 3; 4]%nat i = Some k -> exists v, holds c31_series c31_text_sheet (2 + Z.of_nat i) v /\ time_in iso_env v (c31_grid k)) /\
  get_data iso_env c31_text_sheet c31_series = Ok [(T "x", [$1; S754_nan; S754_nan; $2; $3])].
Proof.
  split; [|vm_compute; reflexivity]. intros [|[|[|i]]] k H; [injection H as <-..|destruct i; discriminate].
  - eexists. split; [here|constructor].
  - exists (VStr (T "2001-02-01")). split; [here|]. apply tn_other; [discriminate|vm_compute; reflexivity].
  - eexists. split; [here|constructor].
Qed.
(** with blank cells in the series the observations after them are put at
    earlier periods: the one of March is put in February *)
Theorem C31_blank_rows_refuted : exists e w p r, sp_freq p = T "M" /\ sp_missings p = true /\ sp_mv p = VList [VStr (T "Implicit")] /\
  sp_cont p = true /\ sp_blank p = true /\ get_data e w p = Ok [(T "x", r)] /\
  holds p w 2 (month 2000 1) /\ holds p w 3 (month 2000 2) /\ holds p w 4 (month 2000 3) /\
  in_series p w 2 (VInt 1) /\ in_series p w 3 VNone /\ in_series p w 4 (VInt 3) /\
  r = [$1; $3].
Proof.
  exists demo_env, (table [(month 2000 1, VInt 1); (month 2000 2, VNone); (month 2000 3, VInt 3)]), (data_series 4 true true true [VStr (T "Implicit")] "M"), [$1; $3].
  do 5 (split; [reflexivity|]). split; [vm_compute; reflexivity|].
  split; [here|]. split; [here|]. split; [here|]. split; [value_|]. split; [value_|]. split; [value_|]. reflexivity.
Qed.
Print Assumptions C31_blank_rows_refuted.

(** ** C53 Numbers stored as text are read as the same numbers *)
Theorem C53_same_number : forall t z, int_text t z -> forall f, cell_number (VInt z) f -> cell_number (VStr t) f.
Proof. exact c53_number. Qed.
Print Assumptions C53_same_number.
(** in particular the text that str() makes *)
Theorem C53_printed : forall z, int_text (Z_text z) z.
Proof. exact c53_printed. Qed.
Print Assumptions C53_printed.
(** and nothing changes in what is read from the sheet *)
Theorem C53_same_data : forall e w w' p, marker_list p -> text_stored p w w' -> get_data e w p = get_data e w' p.
Proof. exact c53_same_values. Qed.
Print Assumptions C53_same_data.
Example C53_case : let w := table [(month 2000 1, VInt 7); (month 2000 2, VInt (-8))] in
  let w' := table [(month 2000 1, VInt 7); (month 2000 2, VStr (T "-8"))] in
  let p := data_series 3 true false false [] "M" in
  text_stored p w w' /\ get_data demo_env w p = Ok [(T "x", [$7; $(-8)])] /\ get_data demo_env w' p = Ok [(T "x", [$7; $(-8)])].
Proof.
  cbv zeta. split; [|split; vm_compute; reflexivity]. split; [|split].
  - intros en q r c E L S. injection E as <-. cbn [sp_starts data_series] in L. inversion S as [r' c' _ N|r' c' A _]; [subst|discriminate].
    apply cell_named_iff in N. injection N as <- <-. assert (Q : r = 2 \/ r = 3) by lia. destruct Q as [-> | ->].
    + apply rt_same.
    + apply (rt_text _ (-8) (T "-8")); [apply (c53_printed (-8))|vm_compute; discriminate|discriminate].
  - intros r c [N|(cs & t & Q & _)]; [|discriminate]. apply cell_named_iff in N. injection N as <- <-. reflexivity.
  - intros q v. rewrite !(holds_iff (data_series 3 true false false [] "M") 1 _ _ _ eq_refl).
    unfold axis_val, axis_row, axis_col, table, sheet_of. cbn [cell sp_al data_series]. destruct ((1 <=? q) && (1 <=? 1)); [|tauto].
    destruct (Z.to_nat (q - 1)) as [|[|[|k]]]; cbn; try tauto.
Qed.

(** ** C54 Series are named after their headers *)

(** every column of a series has the name of the series: the one the user gave,
    or the contexts, the parent headers and the header, without the blanks
    around them *)
Theorem C54_name : forall e w p r n vs, get_data e w p = Ok r -> In (n, vs) r -> series_name e w p n.
Proof. exact c54_name. Qed.
Print Assumptions C54_name.
(** there is only one such name *)
Theorem C54_one : forall e w p n n', series_name e w p n -> series_name e w p n' -> n = n'.
Proof. intros e w p n n' H H'. apply name_iff in H, H'. congruence. Qed.
Print Assumptions C54_one.
(** a parent header that is not a text, blank ones included, raises *)
Theorem C54_parent_raises : forall e w p cs k r c, not_given (sp_name p) -> sp_comp p = VList cs -> In (VStr k) cs -> cell_named k r c ->
  (forall t, cell w r c <> VStr t) -> exists ex, get_data e w p = Err ex.
Proof.
  intros e w p cs k r c NG CS I N T. unfold get_data. destruct (get_name e w p) as [n|ex] eqn:G; [|exists ex; reflexivity]. exfalso.
  apply name_iff in G. destruct G as [n E NE|cs' ks ps qs t h n _ _ [l E|NL] PS _ _ _ _].
  - rewrite E in NG. inversion NG. congruence.
  - assert (l = cs) by congruence. subst l. clear - PS I N T. induction PS as [|x y l l' P PS IH]; [destruct I|]. destruct I as [->|I]; [|auto].
    destruct P as (k' & r' & c' & u & [= <-] & N' & V & _). apply cell_named_iff in N, N'. rewrite N in N'. injection N' as <- <-. eapply T; eauto.
  - rewrite CS in NL. inversion NL. subst. destruct I.
Qed.
Print Assumptions C54_parent_raises.
Definition c54_sheet : worksheet := sheet_of (T "s")
  [[VStr (T "date"); VStr (T " Exports")]; [VNone; VStr (T "Goods ")]; [VNone; VInt 2004]; [month 2000 1; VInt 7]].
Definition c54_series : sp :=
  mksp Vert VNone (T "B3") (VList [VStr (T "B1"); VStr (T "B2")]) (VList [VStr (T "Trade "); VStr (T "USD")]) 4 (Some 4) true false false (VList []) 0 false (ThStr (T "A1")) false (T "M").
Example C54_case :
  series_name demo_env c54_sheet c54_series (T "Trade - USD - Exports Goods 2004") /\
  get_data demo_env c54_sheet c54_series = Ok [(T "Trade - USD - Exports Goods 2004", [$7])].
Proof.
  split; [|vm_compute; reflexivity].
  apply (sn_headers _ _ _ [VStr (T "B1"); VStr (T "B2")] [VStr (T "Trade "); VStr (T "USD")] [T "Exports"; T "Goods"] [T "Trade"; T "USD"] (T "2004") (T "Exports Goods 2004")).
  - constructor.
  - exists 3, 2, (T "2004"). split; [apply cell_named_iff; reflexivity|]. split; [apply (wa_int demo_env 2004)|apply stripped_iff; reflexivity].
  - apply en_list. reflexivity.
  - constructor; [|constructor; [|constructor]].
    + exists (T "B1"), 1, 2, (T " Exports"). split; [reflexivity|]. split; [apply cell_named_iff; reflexivity|]. split; [reflexivity|apply stripped_iff; reflexivity].
    + exists (T "B2"), 2, 2, (T "Goods "). split; [reflexivity|]. split; [apply cell_named_iff; reflexivity|]. split; [reflexivity|apply stripped_iff; reflexivity].
  - apply (jo_more " " (T "Exports")), (jo_more " " (T "Goods")), jo_one.
  - apply en_list. reflexivity.
  - constructor; [|constructor; [|constructor]]; eexists; (split; [reflexivity|apply stripped_iff; reflexivity]).
  - apply (jo_more " - " (T "Trade")), (jo_more " - " (T "USD")), jo_one.
Qed.
