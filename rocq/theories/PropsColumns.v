(** Theorems about time indexes in several columns or rows (C64). *)
From Verif Require Import Base BaseFacts Cal Coord Params ParseTime TimeIndex SpecCal CalFacts SpecCoord SpecCoordFacts SpecTime SpecData SpecParse
  NumberFacts DataFacts TimeProofs ParseFacts MonthProofs PoolProofs SpecColumns ColumnProofs Demo PropsTime PropsParse.
Local Open Scope Z_scope.

(** ** C64 A time index in several columns is read as the texts of its cells put together *)

(** The cells of a row, in the order of the headers given, with a blank between
    them and the empty ones left out, say the date of the row, in one of the
    styles of quarters, months and years (C40 - C42).  The index becomes the
    index of those dates, written under the first header; nothing else in the
    sheet changes, the other columns included. *)
Theorem C64_columns : forall e w p st d m, columns_index p w (style_letter st) m -> sp_composed p = true -> sequence p (style_letter st) d m ->
  (forall q, sp_starts p <= q <= m -> exists v, lines_say p w q v /\ style_cell e st v (previous p d q) (d q)) -> cleaned e w p d m.
Proof. exact c64_index. Qed.
Print Assumptions C64_columns.

Definition two_columns : sp :=
  mksp Vert (VStr (T "x")) (T "C1") VNone VNone 2 None true false false (VList [VStr (T "NA")]) 0 true (ThList [T "A1"; T "B1"]) true (T "Q").
Definition years_and_quarters : worksheet := sheet_of (T "hoja")
  [[says_ "year"; says_ "quarter"; says_ "x"];
   [says_ "1986 "; says_ "3o trim."; VInt 10];
   [VNone; says_ "IV"; VInt 11];
   [VInt 1987; says_ "1o (1)"; VInt 12];
   [VNone; says_ "  "; VNone];
   [says_ "Source: here"; VNone; VNone]].
Ltac cells_ := exists [T "A1"; T "B1"]; eexists [_; _]; eexists [_; _]; split; [reflexivity|];
  split; [constructor; [eapply lc_column; [reflexivity|apply cell_named_iff; reflexivity]|constructor; [eapply lc_column; [reflexivity|apply cell_named_iff; reflexivity]|constructor]]|].
Example C64_case : cleaned es_env years_and_quarters two_columns (dates [(1986, 7); (1986, 10); (1987, 1)]) 4.
Proof.
  apply (C64_columns es_env _ _ (StQuarter QPlain)).
  - split; [reflexivity|]. split; [exists (T "A1"), [T "B1"]; split; [reflexivity|]|].
    { constructor; [exists 1, 1; apply cell_named_iff; reflexivity|constructor; [exists 1, 2; apply cell_named_iff; reflexivity|constructor]]. }
    split; [reflexivity|]. split; [|split; [vm_compute; intuition discriminate|split; vm_compute; intuition discriminate]].
    exists 6. split; [apply lo_rows; reflexivity|]. right. split; [reflexivity|]. split; [lia|]. left. split; [|split].
    + cells_. split; [constructor; [apply pc_none|constructor; [apply (pc_white (T "  ")); [discriminate|chars]|constructor]]|].
      apply (sd_nothing _ (T "  ")); [apply jn_one|chars].
    + intros hs h v H I L. inversion H; subst hs. destruct I as [<-|[<-|[]]]; inversion L as [r c A CN|r c A CN]; try discriminate;
        apply cell_named_iff in CN; vm_compute in CN; inversion CN; subst; vm_compute; constructor.
    + intros [T1|T1]; discriminate.
  - reflexivity.
  - split.
    + intros q I. cbn in I. assert (C : q = 2 \/ q = 3 \/ q = 4) by lia. destruct C as [->|[->| ->]]; (split; [apply valid_real; reflexivity|reflexivity]).
    + right. split; [reflexivity|]. intros q I. cbn in I. assert (C : q = 3 \/ q = 4) by lia.
      destruct C as [->| ->]; (apply (op_months "Q" _ _ 3); [reflexivity|]); (split; [reflexivity|]); (split; [vm_compute; intuition discriminate|]); (split; [reflexivity|]); exists 31;
        (split; [apply ml_31; cbn; auto 8|reflexivity]).
  - intros q I. cbn in I. assert (C : q = 2 \/ q = 3 \/ q = 4) by lia. destruct C as [->|[->| ->]].
    + exists (says_ "1986 3o trim."). split.
      * cells_. split; [constructor; [apply (pc_digits [] (T " ") 1986 "1"%char (T "986")); [chars|chars|dec|discriminate]|constructor; [|constructor]]|].
        { apply (pc_words (T "3o trim.") "o"%char); [cbn; tauto|split; [unfold white; cbn; intuition discriminate|cbn; intuition discriminate]|discriminate]. }
        apply (sd_text _ (T "1986 3o trim.") "1"%char); [apply (jn_more (T "1986") [T "3o trim."] (T "3o trim.")); [discriminate|constructor]|cbn; tauto|unfold white; cbn; intuition discriminate].
      * exists (T "1986 3o trim."), (Some 1986), 3, 7. split; [whole_cell|]. split; [|split; [reflexivity|constructor]].
        apply (qt_year [] (T "1986") (T " ") (T "3") (T "o trim.") 1986 3); [chars|constructor; [reflexivity|dec|lia]|chars|right; constructor|]. apply notes_0. chars.
    + exists (says_ "IV"). split.
      * cells_. split; [constructor; [apply pc_none|constructor; [|constructor]]|].
        { apply (pc_words (T "IV") "I"%char); [cbn; tauto|split; [unfold white; cbn; intuition discriminate|cbn; intuition discriminate]|discriminate]. }
        apply (sd_text _ (T "IV") "I"%char); [apply jn_one|cbn; tauto|unfold white; cbn; intuition discriminate].
      * exists (T "IV"), None, 4, 10. split; [whole_cell|]. split; [|split; [reflexivity|]].
        -- apply (qt_plain [] (T "IV") [] 4); [chars|left; constructor|]. apply notes_0. chars.
        -- exact (mo_last 10 (mkdt 1986 7 1 0)).
    + exists (says_ "1987 1o (1)"). split.
      * cells_. split; [constructor; [apply (pc_number 1987 "1"%char (T "987")); [dec|discriminate]|constructor; [|constructor]]|].
        { apply (pc_words (T "1o (1)") "o"%char); [cbn; tauto|split; [unfold white; cbn; intuition discriminate|cbn; intuition discriminate]|discriminate]. }
        apply (sd_text _ (T "1987 1o (1)") "1"%char); [apply (jn_more (T "1987") [T "1o (1)"] (T "1o (1)")); [discriminate|constructor]|cbn; tauto|unfold white; cbn; intuition discriminate].
      * exists (T "1987 1o (1)"), (Some 1987), 1, 1. split; [whole_cell|]. split; [|split; [reflexivity|constructor]].
        apply (qt_year [] (T "1987") (T " ") (T "1") (T "o (1)") 1987 1); [chars|constructor; [reflexivity|dec|lia]|chars|right; constructor|].
        apply (notes_1 (T "o ") (T "(1)") []); [chars| |chars]. apply (note_of (T "1")); [cbn; lia|chars].
Qed.
