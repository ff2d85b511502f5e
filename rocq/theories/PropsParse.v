(** Theorems about the reading of composed time indexes and of simple dates
    (C40 - C45). *)
From Verif Require Import Base BaseFacts Cal Coord Params ParseTime TimeIndex SpecCal CalFacts SpecCoord SpecCoordFacts SpecTime SpecData SpecParse SpecSimple
  NumberFacts DataFacts TimeProofs ParseFacts MonthProofs PoolProofs ComposedProofs SimpleProofs2 TwoDigits Demo PropsTime.
Local Open Scope Z_scope.

(** *** for the examples *)

(** some month names *)
Definition es_env : env :=
  mkenv (fun _ => []) (fun _ => [])
    (fun t => if text_eqb t (T "Ene") then Some 1 else if text_eqb t (T "Feb") then Some 2 else if text_eqb t (T "Marzo") then Some 3 else None)
    (fun _ t => if text_eqb (lower t) (T "feb") then Some 2 else if text_eqb (lower t) (T "mar") then Some 3 else None)
    (fun _ => Err EOther) (fun _ => Err EOther).
Definition composed (f : string) (missings : bool) : sp :=
  mksp Vert (VStr (T "x")) (T "B1") VNone VNone 2 None true false missings (VList [VStr (T "NA")]) 0 false (ThStr (T "A1")) true (T f).
Definition says_ (s : string) : pyval := VStr (T s).
(** the column after the cleaning *)
Definition shown (e : env) (w : worksheet) (p : sp) (n : Z) : res Z * list pyval :=
  let c := clean_time_index e w p in (snd c, map (fun r => cell (fst c) r 1) (zrange 2 n)).
(** dates of the rows from 2 on *)
Definition dates (l : list (Z * Z)) (q : Z) : datetime :=
  let '(y, m) := nth (Z.to_nat (q - 2)) l (1, 1) in mkdt y m 1 0.
Ltac chars := repeat (apply Forall_cons; [cbn; unfold white, digit; cbn; intuition (discriminate || lia)|]); apply Forall_nil.
Ltac dec := apply decimal_iff; split; reflexivity.
Ltac whole_cell := constructor; apply stripped_iff; reflexivity.
Lemma text_here p w q t : write_line (sp_al p) (sp_th p) = Ok 1 -> axis_val (sp_al p) w 1 q = t -> holds p w q t.
Proof. intros W H. apply (holds_iff _ 1); auto. Qed.
Ltac index_ := split; [reflexivity|]; split; [exists (T "A1"), 1, 1; split; [reflexivity|apply cell_named_iff; reflexivity]|]; split; [reflexivity|];
  split; [eexists; split; [apply lo_rows; reflexivity|left; reflexivity]|]; split; [vm_compute; intuition discriminate|]; split; vm_compute; intuition discriminate.
(** ** C40 Composed quarter texts are read correctly *)

(** A text in one of the four styles denotes the first month of its quarter and
    its year, or the year of the date before when it has none; the blanks around
    it do not matter, whatever the cells before and after say.  The parser that
    reads it depends on the style only, and it reads it both when the parser is
    still to be chosen and when it was chosen before.  Partial: "(1) IV 01" is
    excluded, see below. *)
Theorem C40_quarter_partial : forall e st v last next d, quarter_cell st v last d -> real_last last ->
  reads e "Q" (quarter_strat st) v last next d.
Proof. exact quarter_reads. Qed.
Print Assumptions C40_quarter_partial.
Example C40_texts :
  quarter_text QPlain (T "1986 1o trim.") (Some 1986) 1 /\ quarter_text QPlain (T "III * (2) *") None 3 /\
  quarter_text QDotted (T "III.1963 (1)") (Some 1963) 3 /\ quarter_text QWord (T "2o Trim 07") (Some 2007) 2 /\
  quarter_text QShort (T "IV 01") (Some 2001) 4.
Proof.
  split; [|split; [|split; [|split]]].
  - apply (qt_year [] (T "1986") (T " ") (T "1") (T "o trim.") 1986 1); [chars|constructor; [reflexivity|dec|lia]|chars|right; constructor|].
    apply notes_0. chars.
  - apply (qt_plain [] (T "III") (T " * (2) *") 3); [chars|left; constructor|]. apply (notes_1 (T " * ") (T "(2)") (T " *")); [chars| |chars].
    apply (note_of (T "2")); [cbn; lia|chars].
  - apply (qt_dotted [] (T "III") (T ".") (T "1963") (T " (1)") 1963 3); [constructor|constructor| |constructor; [reflexivity|dec|lia]|].
    + split; [chars|]. intros (c & r & E & N). inversion E; subst. apply N. cbn. auto.
    + apply (tail_note (T " ") (T "(1)") [] []); [chars| |chars|cbn; unfold short; cbn; lia]. apply (note_of (T "1")); [cbn; lia|chars].
  - apply (qt_word [] [] (T "2") (T "o") (T " ") (T "Trim") (T " ") (T "07") [] 2007 2); try chars; try discriminate; auto.
    + constructor.
    + constructor; [reflexivity|dec|lia].
    + apply (tail_plain [] []); [constructor|unfold short; cbn; lia].
  - apply (qt_short [] (T "IV") (T " ") (T "01") [] 2001 4); auto; try constructor; auto; try dec; try lia.
    + chars.
    + intros (c & r & E & N). inversion E; subst. apply N. cbn. auto.
    + apply (tail_plain [] []); [constructor|unfold short; cbn; lia].
    + intros (c & r & E & N). discriminate.
Qed.

(** and an index of such texts, in one style, one quarter after the other (or
    just in order, with missings), becomes the index of their dates: it ends at
    the last text, and nothing else in the sheet changes *)
Theorem C40_index_partial : forall e w p st d last, plain_index p w "Q" last -> sp_composed p = true -> sequence p "Q" d last ->
  (forall q, sp_starts p <= q <= last -> exists v, holds p w q v /\ quarter_cell st v (previous p d q) (d q)) ->
  cleaned e w p d last.
Proof. exact c40_index. Qed.
Print Assumptions C40_index_partial.
Example C40_index_case :
  let w := column "date" [says_ " 1986 3o trim."; says_ "IV"; says_ "1987 1o (1)"] in
  cleaned es_env w (composed "Q" false) (dates [(1986, 7); (1986, 10); (1987, 1)]) 4.
Proof.
  cbv zeta. apply (C40_index_partial es_env _ _ QPlain).
  - index_.
  - reflexivity.
  - split.
    + intros q I. cbn in I. assert (C : q = 2 \/ q = 3 \/ q = 4) by lia. destruct C as [->|[->| ->]]; (split; [apply valid_real; reflexivity|reflexivity]).
    + right. split; [reflexivity|]. intros q I. cbn in I. assert (C : q = 3 \/ q = 4) by lia.
      destruct C as [->| ->]; (apply (op_months "Q" _ _ 3); [reflexivity|]); (split; [reflexivity|]); (split; [vm_compute; intuition discriminate|]); (split; [reflexivity|]); exists 31;
        (split; [apply ml_31; cbn; auto 8|reflexivity]).
  - intros q I. cbn in I. assert (C : q = 2 \/ q = 3 \/ q = 4) by lia. destruct C as [->|[->| ->]].
    + exists (says_ " 1986 3o trim."). split; [apply text_here; reflexivity|]. exists (T "1986 3o trim."), (Some 1986), 3, 7.
      split; [whole_cell|]. split; [|split; [reflexivity|constructor]].
      apply (qt_year [] (T "1986") (T " ") (T "3") (T "o trim.") 1986 3); [chars|constructor; [reflexivity|dec|lia]|chars|right; constructor|]. apply notes_0. chars.
    + exists (says_ "IV"). split; [apply text_here; reflexivity|]. exists (T "IV"), None, 4, 10. split; [whole_cell|]. split; [|split; [reflexivity|]].
      * apply (qt_plain [] (T "IV") [] 4); [chars|left; constructor|]. apply notes_0. chars.
      * exact (mo_last 10 (mkdt 1986 7 1 0)).
    + exists (says_ "1987 1o (1)"). split; [apply text_here; reflexivity|]. exists (T "1987 1o (1)"), (Some 1987), 1, 1. split; [whole_cell|].
      split; [|split; [reflexivity|constructor]].
      apply (qt_year [] (T "1987") (T " ") (T "1") (T "o (1)") 1987 1); [chars|constructor; [reflexivity|dec|lia]|chars|right; constructor|].
      apply (notes_1 (T "o ") (T "(1)") []); [chars| |chars]. apply (note_of (T "1")); [cbn; lia|chars].
Qed.

(** a note before the short form is taken for the quarter: "(1) IV 01" is read
    as the first quarter *)
Theorem C40_leading_note_refuted : exists e t next d, t = T "(1) IV 01" /\
  parse_with_pool e (mktp true (T "Q")) None (VStr t) None next = (Some SQuarter3, Ok d) /\ d = mkdt 2001 1 1 0.
Proof. exists demo_env, (T "(1) IV 01"), VNone, (mkdt 2001 1 1 0). split; [reflexivity|]. split; vm_compute; reflexivity. Qed.
Print Assumptions C40_leading_note_refuted.
(** and a change of style in the index is misread: after "II 63" the year of
    "III.1963" is 19 *)
Theorem C40_mixed_styles_refuted : exists w, w = column "date" [says_ "II 18"; says_ "III.1963"] /\
  shown demo_env w (composed "Q" true) 3 = (Ok 3, [month 2018 4; month 2019 7]).
Proof. exists (column "date" [says_ "II 18"; says_ "III.1963"]). split; [reflexivity|]. vm_compute. reflexivity. Qed.
Print Assumptions C40_mixed_styles_refuted.

(** ** C41 Composed month texts are read correctly *)

(** whatever follows a month name (other letters aside) or a year and a month;
    partial: only symbols after a lone month number, see below *)
Theorem C41_month_partial : forall e st v last next d, month_cell e st v last d -> real_last last ->
  reads e "M" (month_strat st) v last next d.
Proof. exact month_reads. Qed.
Print Assumptions C41_month_partial.
Lemma a_name e t m : (3 <= List.length t <= 50)%nat -> forallb is_letter t = true -> month_lookup e (capitalize t) = Some m -> 1 <= m <= 12 -> month_name e t m.
Proof. intros L F K B. constructor; auto. rewrite forallb_forall in F. apply Forall_forall. intros c I. apply letter_iff. auto. Qed.
Example C41_texts :
  month_text es_env MName (T "1991 Ene") (Some 1991) 1 /\ month_text es_env MName (T "MARZO.  (3)  91") (Some 1991) 3 /\
  month_text es_env MName (T "feb *") None 2 /\ month_text es_env MNumber (T "1991-05 prov.") (Some 1991) 5 /\
  month_text es_env MNumber (T "5/1991") (Some 1991) 5 /\ month_text es_env MNumber (T "05*") None 5.
Proof.
  split; [|split; [|split; [|split; [|split]]]].
  - apply (mt_year_name es_env (T "1991") (T " ") (T "Ene") [] 1991 1); [left; constructor; [reflexivity|dec|lia]| | |].
    + apply jm_none, joint_blank. chars.
    + apply a_name; try reflexivity; cbn; lia.
    + intros (c & r & E & _). discriminate.
  - apply (mt_name_year es_env (T "MARZO") (T ".") (T "  (3)  ") (T "91") [] 1991 3).
    + apply a_name; try reflexivity; cbn; lia.
    + constructor.
    + apply (jm_note (T "  ") (T "(3)") (T "  ")); [chars| |apply joint_blank; chars]. apply (note_of (T "3")); [cbn; lia|chars].
    + right. split; [constructor; [reflexivity|dec|lia]|]. intros (c & r & E & _). discriminate.
  - apply (mt_name es_env (T "feb") (T " *") 2); [apply a_name; try reflexivity; cbn; lia|chars|].
    intros (c & r & E & L). inversion E; subst. apply letter_iff in L. discriminate.
  - apply (mt_year_number es_env (T "1991") (T "-") (T "05") (T " prov.") 1991 5); [constructor; [reflexivity|dec|lia]| |constructor; [cbn; lia|dec|lia]|left; reflexivity].
    apply Forall_cons; [|constructor]. split; [unfold digit; cbn; lia|]. split; [intros L; apply letter_iff in L; discriminate|cbn; intuition discriminate].
  - apply (mt_number_year es_env (T "5") (T "/") (T "1991") [] 1991 5); [constructor; [cbn; lia|dec|lia]| |discriminate|constructor; [reflexivity|dec|lia]].
    apply Forall_cons; [|constructor]. split; [unfold digit; cbn; lia|]. split; [intros L; apply letter_iff in L; discriminate|cbn; intuition discriminate].
  - apply (mt_number es_env (T "05") (T "*") 5); [constructor; [cbn; lia|dec|lia]|].
    apply Forall_cons; [|constructor]. split; [unfold digit; cbn; lia|]. split; [intros L; apply letter_iff in L; discriminate|cbn; intuition discriminate].
Qed.

Theorem C41_index_partial : forall e w p st d last, plain_index p w "M" last -> sp_composed p = true -> sequence p "M" d last ->
  (forall q, sp_starts p <= q <= last -> exists v, holds p w q v /\ month_cell e st v (previous p d q) (d q)) ->
  cleaned e w p d last.
Proof. exact c41_index. Qed.
Print Assumptions C41_index_partial.
(** the numbers of the months, after the first one as whole numbers *)
Example C41_index_case :
  let w := column "date" [says_ "2001/11"; VInt 12; says_ "2002.1"] in
  cleaned es_env w (composed "M" false) (dates [(2001, 11); (2001, 12); (2002, 1)]) 4.
Proof.
  cbv zeta. assert (SY : forall s, In s ["/"; "."]%string -> symbols (T s)).
  { intros s [<-|[<-|[]]]; (apply Forall_cons; [|constructor]); (split; [unfold digit; cbn; lia|]); (split; [intros L; apply letter_iff in L; discriminate|cbn; intuition discriminate]). }
  apply (C41_index_partial es_env _ _ MNumber).
  - index_.
  - reflexivity.
  - split.
    + intros q I. cbn in I. assert (C : q = 2 \/ q = 3 \/ q = 4) by lia. destruct C as [->|[->| ->]]; (split; [apply valid_real; reflexivity|reflexivity]).
    + right. split; [reflexivity|]. intros q I. cbn in I. assert (C : q = 3 \/ q = 4) by lia.
      destruct C as [->| ->]; (apply (op_months "M" _ _ 1); [reflexivity|]); (split; [reflexivity|]); (split; [vm_compute; intuition discriminate|]); (split; [reflexivity|]); exists 31;
        (split; [apply ml_31; cbn; auto 8|reflexivity]).
  - intros q I. cbn in I. assert (C : q = 2 \/ q = 3 \/ q = 4) by lia. destruct C as [->|[->| ->]].
    + exists (says_ "2001/11"). split; [apply text_here; reflexivity|]. exists (T "2001/11"), (Some 2001), 11. split; [whole_cell|]. split; [|constructor].
      apply (mt_year_number es_env (T "2001") (T "/") (T "11") [] 2001 11); [constructor; [reflexivity|dec|lia]|apply SY; cbn; auto|constructor; [cbn; lia|dec|lia]|left; reflexivity].
    + exists (VInt 12). split; [apply text_here; reflexivity|]. exists (T "12"), None, 12. split; [apply sy_number; [dec|discriminate]|]. split.
      * apply (mt_number es_env (T "12") [] 12); [constructor; [cbn; lia|dec|lia]|constructor].
      * exact (mo_last 12 (mkdt 2001 11 1 0)).
    + exists (says_ "2002.1"). split; [apply text_here; reflexivity|]. exists (T "2002.1"), (Some 2002), 1. split; [whole_cell|]. split; [|constructor].
      apply (mt_year_number es_env (T "2002") (T ".") (T "1") [] 2002 1); [constructor; [reflexivity|dec|lia]|apply SY; cbn; auto|constructor; [cbn; lia|dec|lia]|].
      right. intros (c & r & E & _). discriminate.
Qed.

(** with a word after it a month number is taken for a year *)
Theorem C41_trailing_text_refuted : exists e t last d, t = T "04 prov" /\ last = Some (mkdt 1991 3 1 0) /\
  parse_with_pool e (mktp true (T "M")) None (VStr t) last VNone = (Some SMonth1, Ok d) /\ d = mkdt 2004 3 1 0.
Proof. exists es_env, (T "04 prov"), (Some (mkdt 1991 3 1 0)), (mkdt 2004 3 1 0). repeat split; vm_compute; reflexivity. Qed.
Print Assumptions C41_trailing_text_refuted.

(** ** C42 Year texts are read correctly *)

(** texts, whole numbers and numbers with decimals *)
Theorem C42_year : forall e st v last next d, year_cell st v d -> real_last last -> reads e "A" (year_strat st) v last next d.
Proof. exact year_reads. Qed.
Print Assumptions C42_year.
Example C42_texts :
  year_text YOne (T "(2) 1991 *") 1991 /\ year_text YRange (T "1995/96 (1)") 1995 /\ year_cell YOne (VFloat (S754_finite false 15937 (-3))) (mkdt 1992 1 1 0).
Proof.
  split; [|split].
  - apply (yt_one (T "(2) ") (T "1991") (T " *") 1991); [right|constructor; [reflexivity|dec|lia]|left; chars].
    apply (nd_note [] (T "(2)") (T " ")); [chars| |chars]. apply (note_of (T "2")); [cbn; lia|chars].
  - apply (yt_range [] (T "1995") "9" "6" (T " (1)") 1995); [auto|constructor; [reflexivity|dec|lia]|unfold digit; cbn; lia|unfold digit; cbn; lia|right].
    apply (nd_note (T " ") (T "(1)") []); [chars| |chars]. apply (note_of (T "1")); [cbn; lia|chars].
  - apply yc_float; [apply wh_small; lia|lia].
Qed.
Theorem C42_index : forall e w p st d last, plain_index p w "A" last -> sp_composed p = true -> sequence p "A" d last ->
  (forall q, sp_starts p <= q <= last -> exists v, holds p w q v /\ ~ no_time p v /\ year_cell st v (d q)) ->
  cleaned e w p d last.
Proof. exact c42_index. Qed.
Print Assumptions C42_index.
Example C42_index_case :
  let w := column "date" [says_ "(1) 1991"; VInt 1992; VFloat (S754_finite false 1993 0)] in
  cleaned demo_env w (composed "A" false) (dates [(1991, 1); (1992, 1); (1993, 1)]) 4.
Proof.
  cbv zeta. apply (C42_index demo_env _ _ YOne).
  - index_.
  - reflexivity.
  - split.
    + intros q I. cbn in I. assert (C : q = 2 \/ q = 3 \/ q = 4) by lia. destruct C as [->|[->| ->]]; (split; [apply valid_real; reflexivity|reflexivity]).
    + right. split; [reflexivity|]. intros q I. cbn in I. assert (C : q = 3 \/ q = 4) by lia.
      destruct C as [->| ->]; (apply (op_months "A" _ _ 12); [reflexivity|]); (split; [reflexivity|]); (split; [vm_compute; intuition discriminate|]); (split; [reflexivity|]); exists 31;
        (split; [apply ml_31; cbn; auto 8|reflexivity]).
  - intros q I. cbn in I. assert (C : q = 2 \/ q = 3 \/ q = 4) by lia. destruct C as [->|[->| ->]].
    + exists (says_ "(1) 1991"). split; [apply text_here; reflexivity|]. split.
      * intros N. inversion N as [|t W E|]; subst. inversion W; subst. unfold white in *. cbn in *. intuition lia.
      * apply (yc_text YOne _ (T "(1) 1991") 1991); [whole_cell|]. apply (yt_one (T "(1) ") (T "1991") [] 1991); [right|constructor; [reflexivity|dec|lia]|left; chars].
        apply (nd_note [] (T "(1)") (T " ")); [chars| |chars]. apply (note_of (T "1")); [cbn; lia|chars].
    + exists (VInt 1992). split; [apply text_here; reflexivity|]. split; [intros N; inversion N|].
      apply (yc_text YOne _ (T "1992") 1992); [apply sy_number; [dec|discriminate]|].
      apply (yt_one [] (T "1992") [] 1992); [left; chars|constructor; [reflexivity|dec|lia]|left; chars].
    + exists (VFloat (S754_finite false 1993 0)). split; [apply text_here; reflexivity|]. split; [intros N; inversion N; subst; cbn in *; congruence|].
      apply yc_float; [apply (wh_big 1993 0); lia|lia].
Qed.

(** ** C43 Two digit years map to 1969-2068 *)

(** in every form that takes a two digit year: quarters, months before and after,
    semesters, simple dates *)
Theorem C43_two_digits : forall e a b v, digit a -> digit b -> SpecData.decimal [a; b] v ->
  let y := full_year v in let yy := [a; b] in
  (forall k q last next, roman k q -> real_last last ->
     reads e "Q" SQuarter4 (VStr (k ++ T " " ++ yy)) last next (mkdt y (3 * q - 2) 1 0)) /\
  (forall k q last next, number4 k q -> real_last last ->
     reads e "Q" SQuarter3 (VStr (k ++ T "o Trim " ++ yy)) last next (mkdt y (3 * q - 2) 1 0)) /\
  (forall t m last next, month_name e t m -> real_last last ->
     reads e "M" SMonth1 (VStr (t ++ T " " ++ yy)) last next (mkdt y m 1 0)) /\
  (forall t m last next, month_name e t m -> real_last last ->
     reads e "M" SMonth1 (VStr (yy ++ T " " ++ t)) last next (mkdt y m 1 0)) /\
  (forall k q last next, roman k q -> q <= 2 -> real_last last ->
     reads e "S" SSemester (VStr (k ++ T " " ++ yy)) last next (mkdt y (6 * q - 5) 1 0)) /\
  (forall f t d m s s' td tm, periodic f -> trimmed t (td ++ s :: tm ++ s' :: yy) -> separates s -> separates s' -> unseparated td -> unseparated tm ->
     day_part td d -> month_part e false tm m -> real_date (mkdt y m d 0) ->
     parse_with_pool e (mktp false (T f)) None (VStr t) None VNone = (Some SSimple, Ok (mkdt y m d 0))).
Proof. exact c43_two_digits. Qed.
Print Assumptions C43_two_digits.
Example C43_cases :
  shown es_env (column "date" [says_ "I 68"; says_ "II 68"]) (composed "Q" false) 3 = (Ok 3, [month 2068 1; month 2068 4]) /\
  shown es_env (column "date" [says_ "69 Ene"; says_ "Feb 69"]) (composed "M" false) 3 = (Ok 3, [month 1969 1; month 1969 2]).
Proof. split; vm_compute; reflexivity. Qed.

(** ** C44 Semester series *)

(** The texts are read as the first month of the semester... *)
Theorem C44_semester : forall e v last next d, semester_cell v last d -> real_last last -> reads e "S" SSemester v last next d.
Proof. exact semester_reads. Qed.
Print Assumptions C44_semester.
(** ... and with missings=True an index of semesters becomes that of their
    dates.  Partial: not with missings=False, as a semester is moved by a
    second. *)
Theorem C44_index_partial : forall e w p d last, plain_index p w "S" last -> sp_composed p = true -> sp_missings p = true -> sequence p "S" d last ->
  (forall q, sp_starts p <= q <= last -> exists v, holds p w q v /\ semester_cell v (previous p d q) (d q)) ->
  cleaned e w p d last.
Proof. intros e w p d last PI CO _. exact (c44_index e w p d last PI CO). Qed.
Print Assumptions C44_index_partial.
Example C44_index_case :
  let w := column "date" [says_ "I 01"; says_ "II"; says_ "I/02 (1)"] in
  cleaned demo_env w (composed "S" true) (dates [(2001, 1); (2001, 7); (2002, 1)]) 4.
Proof.
  cbv zeta. apply C44_index_partial.
  - index_.
  - reflexivity.
  - reflexivity.
  - split.
    + intros q I. cbn in I. assert (C : q = 2 \/ q = 3 \/ q = 4) by lia. destruct C as [->|[->| ->]]; (split; [apply valid_real; reflexivity|reflexivity]).
    + left. split; [reflexivity|]. split; [discriminate|]. intros q I. cbn in I. assert (C : q = 3 \/ q = 4) by lia. destruct C as [->| ->]; apply ltb_earlier; reflexivity.
  - intros q I. cbn in I. assert (C : q = 2 \/ q = 3 \/ q = 4) by lia. destruct C as [->|[->| ->]].
    + exists (says_ "I 01"). split; [apply text_here; reflexivity|]. exists (T "I 01"), (Some 2001), 1, 1. split; [whole_cell|]. split; [|split; [reflexivity|constructor]].
      apply (st_year [] (T "I") (T " ") (T "01") [] 2001 1); [constructor|constructor|lia| |constructor; [reflexivity|dec|lia]|].
      * split; [chars|]. intros (c & r & E & N). inversion E; subst. apply N. cbn. auto.
      * apply (tail_plain [] []); [constructor|unfold short; cbn; lia].
    + exists (says_ "II"). split; [apply text_here; reflexivity|]. exists (T "II"), None, 2, 7. split; [whole_cell|]. split; [|split; [reflexivity|exact (mo_last 7 (mkdt 2001 1 1 0))]].
      apply (st_plain [] (T "II") [] 2); [constructor|constructor|lia|]. split; [constructor|]. intros (c & r & E & _). discriminate.
    + exists (says_ "I/02 (1)"). split; [apply text_here; reflexivity|]. exists (T "I/02 (1)"), (Some 2002), 1, 1. split; [whole_cell|]. split; [|split; [reflexivity|constructor]].
      apply (st_year [] (T "I") (T "/") (T "02") (T " (1)") 2002 1); [constructor|constructor|lia| |constructor; [reflexivity|dec|lia]|].
      * split; [chars|]. intros (c & r & E & N). inversion E; subst. apply N. cbn. auto.
      * apply (tail_note (T " ") (T "(1)") [] []); [chars| |chars|cbn; unfold short; cbn; lia]. apply (note_of (T "1")); [cbn; lia|chars].
Qed.
(** without missings consecutive semesters are rewritten, a second apart *)
Theorem C44_consecutive_refuted : exists w p w', w = column "date" [says_ "I 01"; says_ "II 01"; says_ "I 02"] /\ p = composed "S" false /\
  clean_time_index demo_env w p = (w', Ok 4) /\ holds p w' 3 (VDate (mkdt 2001 1 1 1)) /\ holds p w' 4 (VDate (mkdt 2001 1 1 2)).
Proof.
  set (w := column "date" [says_ "I 01"; says_ "II 01"; says_ "I 02"]). set (p := composed "S" false). exists w, p, (fst (clean_time_index demo_env w p)).
  split; [reflexivity|]. split; [reflexivity|]. split; [apply pair_snd; vm_compute; reflexivity|]. split; here.
Qed.
Print Assumptions C44_consecutive_refuted.

(** ** C45 Simple dates are disambiguated by their neighbours *)

(** A text read as a date denotes it in one of the three orders, it is a date of
    the calendar, after the previous one and at most 20 periods after it; when
    there is something in the next cell that can be read as a date after this
    one, at most 20 periods after it. *)
Theorem C45_simple : forall e f chosen c t last next d, periodic f -> real_last last -> (forall n, next = VDate n -> real_date n) ->
  chosen = None \/ chosen = Some SSimple ->
  parse_with_pool e (mktp false (T f)) chosen (VStr t) last next = (c, Ok d) ->
  may_denote e t d /\ (forall l, last = Some l -> soon_after f l d) /\
  (~ nothing next -> exists n, next_date e next n /\ soon_after f d n).
Proof. exact c45_sound. Qed.
Print Assumptions C45_simple.
(** "03-02-2000" is the third of February after the second, the second of March
    after the first of it *)
Example C45_case :
  snd (parse_with_pool demo_env (mktp false (T "D")) None (says_ "03-02-2000") (Some (mkdt 2000 2 2 0)) (says_ "04-02-2000")) = Ok (mkdt 2000 2 3 0) /\
  snd (parse_with_pool demo_env (mktp false (T "D")) None (says_ "03-02-2000") (Some (mkdt 2000 3 1 0)) (says_ "03-03-2000")) = Ok (mkdt 2000 3 2 0).
Proof. split; vm_compute; reflexivity. Qed.

(** dates written day-month-year, or with a four digit year year-month-day, are
    read as written: each of them, *)
Theorem C45_read : forall e f chosen v last next d, periodic f -> real_last last -> chosen = None \/ chosen = Some SSimple ->
  written e v d -> dt_y d < 9979 -> (forall l, last = Some l -> soon_after f l d /\ dt_y l < 9979) ->
  nothing next \/ (exists n, written e next n /\ soon_after f d n) ->
  parse_with_pool e (mktp false (T f)) chosen v last next = (Some SSimple, Ok d).
Proof. exact c45_read. Qed.
Print Assumptions C45_read.
(** and a whole index of them, when nothing follows it *)
Theorem C45_index : forall e w p f d last, periodic f -> plain_index p w f last -> sp_composed p = false -> near_sequence p f d last ->
  (forall q, sp_starts p <= q <= last -> exists v, holds p w q v /\ written e v (d q)) ->
  (exists v, holds p w (last + 1) v /\ nothing v) ->
  cleaned e w p d last.
Proof. exact c45_index. Qed.
Print Assumptions C45_index.
Example C45_index_case :
  let w := column "date" [says_ "1-01-2000"; says_ "2000/2/1 "; says_ "01.Mar.00"] in
  cleaned es_env w (series Vert None false false 0 "M") (dates [(2000, 1); (2000, 2); (2000, 3)]) 4.
Proof.
  cbv zeta. apply (C45_index es_env _ _ "M").
  - cbn. tauto.
  - index_.
  - reflexivity.
  - split.
    + intros q I. cbn in I. assert (C : q = 2 \/ q = 3 \/ q = 4) by lia. destruct C as [->|[->| ->]]; reflexivity.
    + right. split; [reflexivity|]. intros q I. cbn in I. assert (C : q = 3 \/ q = 4) by lia.
      destruct C as [->| ->]; (apply (op_months "M" _ _ 1); [reflexivity|]); (split; [reflexivity|]); (split; [vm_compute; intuition discriminate|]); (split; [reflexivity|]).
      * exists 29. split; [|reflexivity]. apply ml_feb_leap. split; [exists 500; reflexivity|right; exists 5; reflexivity].
      * exists 31. split; [apply ml_31; cbn; auto 8|reflexivity].
  - intros q I. cbn in I. assert (C : q = 2 \/ q = 3 \/ q = 4) by lia. destruct C as [->|[->| ->]].
    + exists (says_ "1-01-2000"). split; [apply text_here; reflexivity|].
      apply (wr_dmy _ _ (T "1-01-2000") (T "1") (T "01") (T "2000") 1 1 2000); [apply stripped_iff; reflexivity| | | | |apply valid_real; reflexivity].
      * apply (parts_of (T "1") "-" (T "01") "-" (T "2000")); try chars; cbn; auto.
      * apply dp_number; [cbn; lia|dec].
      * apply mp_number; [cbn; lia|dec].
      * apply yp_four; [reflexivity|dec].
    + exists (says_ "2000/2/1 "). split; [apply text_here; reflexivity|].
      apply (wr_ymd _ _ (T "2000/2/1") (T "2000") (T "2") (T "1") 1 2 2000); [apply stripped_iff; reflexivity| | | | |apply valid_real; reflexivity].
      * apply (parts_of (T "2000") "/" (T "2") "/" (T "1")); try chars; cbn; auto.
      * constructor; [reflexivity|dec|lia].
      * apply mp_number; [cbn; lia|dec].
      * apply dp_number; [cbn; lia|dec].
    + exists (says_ "01.Mar.00"). split; [apply text_here; reflexivity|].
      apply (wr_dmy _ _ (T "01.Mar.00") (T "01") (T "Mar") (T "00") 1 3 2000); [apply stripped_iff; reflexivity| | | | |apply valid_real; reflexivity].
      * apply (parts_of (T "01") "." (T "Mar") "." (T "00")); try chars; cbn; auto.
      * apply dp_number; [cbn; lia|dec].
      * apply mp_name; [cbn; lia|intros F; inversion F as [|? ? F1 F2]; unfold digit in F1; cbn in F1; lia|reflexivity].
      * apply yp_two. constructor; [reflexivity|dec|lia].
  - exists VNone. split; [apply text_here; reflexivity|]. cbn. auto.
Qed.

(** Month-day-year is not read as written when day-month-year fits: the second
    of January, February and March, in a monthly series *)
Theorem C45_month_first_refuted : exists w, w = column "date" [says_ "01-02-2000"; says_ "02-02-2000"; says_ "03-02-2000"] /\
  shown demo_env w (series Vert None false true 0 "M") 4 = (Ok 4, [day 2000 2 1; day 2000 2 2; day 2000 2 3]).
Proof. eexists. split; [reflexivity|]. vm_compute. reflexivity. Qed.
Print Assumptions C45_month_first_refuted.
(** with a note below, the last date is lost *)
Theorem C45_note_refuted : exists w, w = column "date" [says_ "15-01-2000"; says_ "15-02-2000"; says_ "15-03-2000"; says_ "Source: x"] /\
  shown demo_env w (series Vert None false false 0 "M") 4 = (Ok 3, [day 2000 1 15; day 2000 2 15; says_ "15-03-2000"]).
Proof. eexists. split; [reflexivity|]. vm_compute. reflexivity. Qed.
Print Assumptions C45_note_refuted.
(** and after a cell with a date, a text with a month name is read as a composed
    month: the fifteenth of February of 2000 as February of 2015 *)
Theorem C45_after_date_refuted : exists w, w = column "date" [day 2000 1 15; says_ "15-feb-2000"; says_ "15-feb-2016"] /\
  shown es_env w (series Vert None false true 0 "M") 3 = (Ok 3, [day 2000 1 15; day 2015 2 1]).
Proof. eexists. split; [reflexivity|]. vm_compute. reflexivity. Qed.
Print Assumptions C45_after_date_refuted.
