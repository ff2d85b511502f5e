(** Time indexes in several columns or rows (C64). *)
From Coq Require Import ZifyBool ZifyNat ZifyN.
From Verif Require Import Base BaseFacts CoordFacts Coord Params Cal CalFacts CalProofs Peg ParseTime TimeIndex SpecCal SpecCoord SpecCoordFacts SpecTime SpecData SpecParse TimeFacts TimeProofs
  TimeProofs2 NumberFacts DataFacts TextProofs ParseFacts ParseFacts2 QuarterProofs MonthProofs YearProofs PoolProofs IndexWalk IndexTexts ComposedProofs SpecColumns.
Local Open Scope Z_scope.

(** ** What a cell adds *)
Lemma white_iff c : white c <-> is_space c = true.
Proof. apply white_space. Qed.
Lemma strip_keeps t c : In c t -> is_space c = false -> In c (strip t).
Proof.
  intros I N. destruct (strip_split t) as (a & b & E & A & B & _). rewrite E in I. apply in_app_iff in I as [I|I].
  - rewrite forallb_forall in A. rewrite A in N by auto. discriminate.
  - apply in_app_iff in I as [I|I]; auto. rewrite forallb_forall in B. rewrite B in N by auto. discriminate.
Qed.
Lemma under_chars t : forall b ds c, strip_underscores b t = Some ds -> In c t -> is_digit c = true \/ c = "_"%char.
Proof.
  induction t as [|x t IH]; intros b ds c H I; [destruct I|]. cbn [strip_underscores] in H. destruct (is_digit x) eqn:D.
  - destruct (strip_underscores true t) eqn:S; [|discriminate]. destruct I as [<-|I]; eauto.
  - destruct (ch_eqb x "_"%char && b) eqn:E; [|discriminate]. apply andb_prop in E as [E _]. apply ch_eqb_eq in E. destruct I as [<-|I]; eauto.
Qed.
Lemma word_no_int t c : In c t -> word_char c -> py_int_of_text t = Err EValue.
Proof.
  intros I [NW NA]. assert (S : is_space c = false). { destruct (is_space c) eqn:E; auto. destruct NW. apply white_iff. auto. }
  apply (strip_keeps t c I) in S. unfold py_int_of_text.
  assert (G : forall body, In c body -> strip_underscores false body = None).
  { intros body J. destruct (strip_underscores false body) eqn:U; auto. destruct NA. destruct (under_chars _ _ _ _ U J) as [D|D].
    - clear - D. unfold among. destruct c as [[] [] [] [] [] [] [] []]; vm_compute in D; try discriminate; vm_compute; tauto.
    - subst c. vm_compute. tauto. }
  destruct (strip t) as [|x r]; [destruct S|]. cbn [take_sign].
  assert (NP : ch_eqb c "-"%char = false /\ ch_eqb c "+"%char = false).
  { split; (destruct (ch_eqb c _) eqn:E; auto; apply ch_eqb_eq in E; subst c; destruct NA; vm_compute; tauto). }
  destruct (ch_eqb x "-"%char) eqn:M; [|destruct (ch_eqb x "+"%char) eqn:P].
  - rewrite G; auto. destruct S as [<-|S]; auto. destruct NP. congruence.
  - rewrite G; auto. destruct S as [<-|S]; auto. destruct NP. congruence.
  - rewrite G; auto.
Qed.
Lemma piece_adds e v ts : piece v ts -> is_date v = false /\
  (if truthy v && negb (py_eq v (str_ "None")) then do t <- safe_str e v; Ok [t] else Ok []) = Ok ts.
Proof.
  intros [| |t NE W|t c I W NN|z c u D N|a b z c u A B D N]; (split; [reflexivity|]); try reflexivity.
  - assert (T1 : truthy (VStr t) = true) by (destruct t; [congruence|reflexivity]). rewrite T1.
    assert (T2 : py_eq (VStr t) (str_ "None") = false).
    { destruct (py_eq _ _) eqn:E; auto. cbn in E. apply text_eqb_eq in E. subst t. inversion W as [|x l X _]; subst. vm_compute in X. intuition discriminate. }
    rewrite T2. cbn [negb andb]. unfold safe_str, py_int, py_int_of_text.
    assert (ST : strip t = []).
    { apply strip_blank in W. destruct (strip t); [reflexivity|discriminate]. }
    rewrite ST. reflexivity.
  - assert (T1 : truthy (VStr t) = true) by (destruct t; [destruct I|reflexivity]). rewrite T1.
    assert (T2 : py_eq (VStr t) (str_ "None") = false).
    { destruct (py_eq _ _) eqn:E; auto. cbn in E. apply text_eqb_eq in E. exfalso. apply NN. exact E. }
    rewrite T2. cbn [negb andb]. unfold safe_str, py_int. rewrite (word_no_int t c); auto.
  - assert (NZ : z <> 0).
    { intros ->. pose proof (number_text 0 c u D N) as Q. vm_compute in Q. injection Q as Q _. apply N. symmetry. exact Q. }
    unfold truthy. replace (z =? 0) with false by lia. rewrite <- (number_text z c u D N). reflexivity.
  - pose proof (number_text z c u D N) as Q. apply decimal_iff in D as [D V].
    assert (SP : strip (a ++ (c :: u) ++ b) = c :: u).
    { apply strip_around.
      - apply forallb_forall. intros x X. apply white_iff. rewrite Forall_forall in A. auto.
      - apply forallb_forall. intros x X. apply white_iff. rewrite Forall_forall in B. auto.
      - pose proof (strip_digits (c :: u) D) as S0. destruct (strip_split (c :: u)) as (_ & _ & _ & _ & _ & TT). rewrite S0 in TT. auto. }
    assert (PI : py_int_of_text (a ++ (c :: u) ++ b) = Ok z).
    { unfold py_int_of_text. rewrite SP. assert (DC : is_digit c = true) by (cbn in D; apply andb_prop in D; tauto).
      cbn [take_sign]. replace (ch_eqb c "-"%char) with false; [replace (ch_eqb c "+"%char) with false|].
      - assert (U : forall t b, forallb is_digit t = true -> t <> [] \/ b = true -> strip_underscores b t = Some t).
        { induction t as [|x t IH]; intros b0 F G; [destruct G; [congruence|subst; reflexivity]|]. cbn in F. apply andb_prop in F as [F1 F2].
          cbn [strip_underscores]. rewrite F1, IH; auto. }
        rewrite U; auto; [|left; discriminate]. f_equal. exact V.
      - symmetry. destruct (ch_eqb c _) eqn:E; auto. apply ch_eqb_eq in E. subst c. discriminate.
      - symmetry. destruct (ch_eqb c _) eqn:E; auto. apply ch_eqb_eq in E. subst c. discriminate. }
    assert (T1 : truthy (VStr (a ++ (c :: u) ++ b)) = true) by (destruct a; reflexivity). rewrite T1.
    assert (T2 : py_eq (VStr (a ++ (c :: u) ++ b)) (str_ "None") = false).
    { destruct (py_eq _ _) eqn:E; auto. unfold py_eq, str_ in E. apply text_eqb_eq in E. rewrite E in PI. vm_compute in PI. discriminate. }
    rewrite T2. cbn [negb andb]. unfold safe_str, py_int. rewrite PI, Q. reflexivity.
Qed.
Lemma joined_join ts t : joined ts t -> join (T " ") ts = t.
Proof.
  intros H. induction H as [|t|t ts u N H IH]; auto. destruct ts as [|x ts]; [congruence|]. cbn [join]. rewrite <- IH. reflexivity.
Qed.

(** ** The lines at a position *)
Section Lines.
Variables (e : env) (al : align) (w : worksheet) (q : Z).
Lemma many_says ls vs tss v : Forall2 (fun l x => axis_read al w l q = Ok x) ls vs -> Forall2 piece vs tss -> said (List.concat tss) v ->
  many_value e al w ls q = Ok v.
Proof.
  intros R P S. unfold many_value. match goal with |- bind (foldM ?f _ _) _ = _ => set (step := f) end.
  assert (FO : forall acc, foldM step ls acc = Ok (acc ++ List.concat tss)).
  { clear S. revert tss P. induction R as [|l x ls vs R1 _ IH]; intros tss P acc; inversion P as [|y ts vs' tss' P1 P2]; subst.
    - cbn. rewrite app_nil_r. auto.
    - cbn [foldM]. destruct (piece_adds e x ts P1) as [D A]. unfold step at 1. rewrite R1. cbn [bind]. rewrite D. cbn [negb assert_ bind].
      destruct (truthy x && negb (py_eq x (str_ "None"))).
      + destruct (safe_str e x) as [t|]; [|discriminate]. cbn [bind] in A |- *. inversion A; subst. rewrite (IH _ P2). cbn [List.concat]. rewrite <- app_assoc. auto.
      + inversion A; subst. cbn [bind]. rewrite (IH _ P2). cbn [List.concat app]. auto. }
  rewrite FO. cbn [app bind]. destruct S as [t c J I N|t J W]; rewrite (joined_join _ _ J).
  - assert (ST : In c (strip t)). { apply strip_keeps; auto. destruct (is_space c) eqn:E; auto. destruct N. apply white_iff. auto. }
    destruct (strip t); [destruct ST|reflexivity].
  - apply strip_blank in W. rewrite W. reflexivity.
Qed.
Lemma many_plain ls : (forall l, In l ls -> exists x, axis_read al w l q = Ok x /\ plain_cell x) -> exists v, many_value e al w ls q = Ok v.
Proof.
  intros H. unfold many_value. match goal with |- context [bind (foldM ?f _ _) _] => set (step := f) end.
  assert (FO : forall acc, exists ts, foldM step ls acc = Ok ts).
  { induction ls as [|l ls IH]; intros acc; cbn [foldM]; eauto. destruct (H l (or_introl eq_refl)) as (x & R & P).
    unfold step at 1. rewrite R. cbn [bind].
    assert (D : is_date x = false) by (destruct P; reflexivity). rewrite D. cbn [negb assert_ bind].
    assert (SS : exists t, safe_str e x = Ok t).
    { unfold safe_str. destruct (py_int x); eauto. destruct P; cbn; eauto. destruct b; eauto. }
    destruct SS as [t SS]. rewrite SS. destruct (_ && _); cbn [bind]; apply IH; intros; apply H; right; auto. }
  destruct (FO []) as [ts ->]. cbn [bind]. destruct (Nat.ltb _ _); eauto.
Qed.
End Lines.

(** what the lines give *)
Lemma columns_reading e w p h hs : sp_multi p = true -> sp_th p = ThList (h :: hs) -> Forall (fun t => exists r c, cell_named t r c) (h :: hs) ->
  exists ls wl, time_lines (sp_al p) (sp_th p) (sp_multi p) = Ok (ManyLines ls) /\ write_line (sp_al p) (sp_th p) = Ok wl /\
    (forall q, 1 <= q -> (sp_al p = Horiz -> q <= 18278) -> cell_ok (axis_row (sp_al p) wl q) (axis_col (sp_al p) wl q) = true) /\
    (forall q v, lines_say p w q v -> 1 <= q -> (sp_al p = Horiz -> q <= 18278) -> many_value e (sp_al p) w ls q = Ok v) /\
    (forall q, no_dates_at p w q -> 1 <= q -> (sp_al p = Horiz -> q <= 18278) -> exists v, many_value e (sp_al p) w ls q = Ok v).
Proof.
  intros MU TH NM.
  assert (LS : exists ls, mapM (coord_line (sp_al p)) (h :: hs) = Ok ls /\
    Forall2 (fun t l => exists r c, cell_named t r c /\ l = match sp_al p with Vert => c | Horiz => r end) (h :: hs) ls).
  { clear - NM. induction NM as [|t ts (r & c & CN) _ (ls & M & F)]; [exists []; split; [reflexivity|constructor]|].
    exists ((match sp_al p with Vert => c | Horiz => r end) :: ls). split; [|constructor; eauto].
    cbn [mapM]. unfold coord_line at 1. pose proof CN as CN'. apply cell_named_iff in CN'. rewrite CN'. cbn [bind fst snd]. rewrite M. reflexivity. }
  destruct LS as (ls & LM & LF).
  assert (WL : exists wl rest, ls = wl :: rest /\ write_line (sp_al p) (sp_th p) = Ok wl /\ exists r c, cell_named h r c /\ wl = match sp_al p with Vert => c | Horiz => r end).
  { inversion LF as [|? wl ? rest (r & c & CN & ->) _]; subst. do 2 eexists. split; [reflexivity|]. rewrite TH. cbn [write_line]. unfold coord_line.
    pose proof CN as CN'. apply cell_named_iff in CN'. rewrite CN'. cbn [bind fst snd]. split; [reflexivity|]. eauto. }
  destruct WL as (wl & rest & EL & WL & r0 & c0 & CN0 & WE).
  assert (TL : time_lines (sp_al p) (sp_th p) (sp_multi p) = Ok (ManyLines ls)).
  { rewrite TH, MU. cbn [time_lines]. rewrite LM. reflexivity. }
  (* reading a line *)
  assert (OKL : forall t r c q, cell_named t r c -> 1 <= q -> (sp_al p = Horiz -> q <= 18278) ->
    cell_ok (axis_row (sp_al p) (match sp_al p with Vert => c | Horiz => r end) q) (axis_col (sp_al p) (match sp_al p with Vert => c | Horiz => r end) q) = true).
  { intros t r c q CN Q1 Q2. apply cell_named_iff, parse_range in CN. unfold cell_ok, max_column, axis_row, axis_col. destruct (sp_al p); [lia|]. specialize (Q2 eq_refl). lia. }
  assert (LC : forall t l v q, (exists r c, cell_named t r c /\ l = match sp_al p with Vert => c | Horiz => r end) -> line_cell p w q t v ->
    1 <= q -> (sp_al p = Horiz -> q <= 18278) -> axis_read (sp_al p) w l q = Ok v).
  { intros t l v q (r & c & CN & ->) L Q1 Q2. unfold axis_read, read. rewrite (OKL t r c q CN Q1 Q2).
    pose proof CN as CN'. apply cell_named_iff in CN'.
    destruct L as [r' c' A CN2|r' c' A CN2]; apply cell_named_iff in CN2; rewrite CN' in CN2; inversion CN2; subst; rewrite A; reflexivity. }
  assert (SAYS : forall q v, lines_say p w q v -> 1 <= q -> (sp_al p = Horiz -> q <= 18278) -> many_value e (sp_al p) w ls q = Ok v).
  { intros q v (hs' & vs & tss & TH' & V & P & SD) Q1 Q2. rewrite TH in TH'. inversion TH'; subst hs'.
    apply (many_says e (sp_al p) w q ls vs tss); auto. clear - LF V LC Q1 Q2. revert vs V. induction LF as [|t l ts ls' TL _ IH]; intros vs V; inversion V; subst; constructor; eauto. }
  assert (PLAIN : forall q, no_dates_at p w q -> 1 <= q -> (sp_al p = Horiz -> q <= 18278) -> exists v, many_value e (sp_al p) w ls q = Ok v).
  { intros q ND Q1 Q2. apply many_plain. intros l I.
    assert (EX : exists t, In t (h :: hs) /\ exists r c, cell_named t r c /\ l = match sp_al p with Vert => c | Horiz => r end).
    { clear - LF I. induction LF as [|t l' ts ls' TL _ IH]; [destruct I|]. destruct I as [<-|I]; [exists t; split; [left; auto|auto]|].
      destruct (IH I) as (t' & I' & X). exists t'. split; [right; auto|auto]. }
    destruct EX as (t & IT & r & c & CN & E).
    assert (LCV : line_cell p w q t (axis_val (sp_al p) w l q)).
    { subst l. unfold axis_val, axis_row, axis_col. destruct (sp_al p) eqn:A; [eapply lc_column|eapply lc_row]; eauto. }
    exists (axis_val (sp_al p) w l q). split; [eapply LC; eauto|]. eapply ND; eauto. }
  exists ls, wl. split; auto. split; auto. split; [intros q Q1 Q2; rewrite WE; apply (OKL h); auto|]. auto.
Qed.

(** ** The whole index *)
Section Index.
Variables (e : env) (w : worksheet) (p : sp) (f : string) (s : strat) (d : Z -> datetime) (m : Z).
Hypothesis CI : columns_index p w f m.
Hypothesis FL : frequency_letter f.
Hypothesis CO : sp_composed p = true.
Hypothesis SQ : sequence p f d m.
Hypothesis READ : forall q, sp_starts p <= q <= m -> exists v, lines_say p w q v /\ ~ no_time p v /\
  forall next, real_last (previous p d q) -> reads e f s v (previous p d q) next (d q).

Lemma columns_cleaned : cleaned e w p d m.
Proof.
  destruct CI as (MU & (h & hs & TH & NM) & FQ & (last & LO & EN) & WS & L1 & L2). apply last_one_iff in LO. set (lp := last_position p w) in *. subst last.
  destruct SQ as [RD SEQ].
  destruct (columns_reading e w p h hs MU TH NM) as (ls & wl & TL & WL & OKW & SAYS & PLAIN).
  destruct WS as [WS1 WS2].
  assert (HZ : sp_al p = Horiz -> m < 18278) by (intros A; rewrite A in WS2; auto).
  assert (RE : exists reach, (reach = lp \/ reach = m + 1 /\ m + 1 <= lp /\ tolerant p = false) /\ m <= reach <= lp /\
    (forall q, m < q <= reach -> many_value e (sp_al p) w ls q = Ok VNone) /\ (exists v, many_value e (sp_al p) w ls (reach + 1) = Ok v) /\ (sp_al p = Vert \/ m = lp)).
  { destruct EN as [(E & ND)|(A & L & [(B & ND & NTO)|(B & ND)])].
    - exists lp. split; [auto|]. split; [lia|]. split; [intros; lia|]. split; auto. apply PLAIN; [rewrite <- E; auto|lia|intros AH; specialize (HZ AH); lia].
    - exists (m + 1). split; [right; split; [auto|]; split; [lia|]; unfold tolerant, tolerates_blanks in *; destruct (sp_cont p), (sp_blank p); auto; exfalso; apply NTO; auto|].
      split; [lia|]. split; [intros q Q; replace q with (m + 1) by lia; apply SAYS; auto; [lia|congruence]|]. split; auto.
      replace (m + 1 + 1) with (m + 2) by lia. apply PLAIN; auto; [lia|congruence].
    - exists lp. split; [auto|]. split; [lia|]. split; [intros q Q; apply SAYS; auto; [lia|congruence]|]. split; auto. apply PLAIN; auto; [lia|congruence]. }
  destruct RE as (reach & R1 & R2 & R3 & R4 & R5).
  set (v := fun q => match many_value e (sp_al p) w ls q with Ok x => x | Err _ => VNone end).
  assert (READV : forall q, sp_starts p <= q <= m -> many_value e (sp_al p) w ls q = Ok (v q) /\ ~ no_time p (v q) /\
    forall next, real_last (previous p d q) -> reads e f s (v q) (previous p d q) next (d q)).
  { intros q Q. destruct (READ q Q) as (x & LS & NT & R). assert (M : many_value e (sp_al p) w ls q = Ok x).
    { apply SAYS; auto; [lia|]. intros A. specialize (HZ A). lia. }
    assert (VQ : v q = x) by (unfold v; rewrite M; auto). rewrite VQ. auto. }
  unfold cleaned. apply (walk_lines e w p (ManyLines ls) wl s d v m reach); auto.
  - rewrite FQ. destruct FL as [<-|[<-|[<-|[<-|[<-|[<-|[]]]]]]]; discriminate.
  - intros q Q. cbn [time_value]. destruct (Z_le_gt_dec q m); [apply READV; lia|].
    destruct (Z.eq_dec q (reach + 1)) as [->|NE]; [destruct R4 as [x X]; unfold v; rewrite X; auto|].
    unfold v. rewrite R3 by lia. auto.
  - intros q Q. apply OKW; [lia|]. intros A. specialize (HZ A). destruct R5 as [R5|R5]; [congruence|lia].
  - intros q Q. unfold v. rewrite R3 by lia. constructor.
  - intros q Q. destruct (READV q Q) as (_ & NT & R). split; auto. intros st S1 S2.
    apply (read_step e p f s m v d); auto.
    + intros q' Q'. destruct (READV q' Q') as (_ & _ & R'). rewrite CO. unfold before. unfold previous in R'. destruct (q' =? sp_starts p) eqn:B.
      * apply R'; [|auto]. intros l E. discriminate.
      * apply R'; [|auto]. intros l E. injection E as <-. apply RD. lia.
    + destruct SEQ as [(_ & _ & E)|(_ & E)]; auto. intros q' I. specialize (E q' I).
      apply (increment_earlier (d (q' - 1)) 1 (T f)); try lia; [apply RD; lia|]. apply period_step; auto; apply RD; lia.
    + destruct SEQ as [(E1 & E2 & _)|(E1 & E2)]; [left; split; auto; apply explicit_ok; auto|right; split; auto].
      intros q' I. apply period_step; [apply RD; lia|apply RD; lia|auto].
  - lia.
Qed.
End Index.

Lemma c64_index e w p st d m : columns_index p w (style_letter st) m -> sp_composed p = true -> sequence p (style_letter st) d m ->
  (forall q, sp_starts p <= q <= m -> exists v, lines_say p w q v /\ style_cell e st v (previous p d q) (d q)) -> cleaned e w p d m.
Proof.
  intros CI CO SQ H. destruct st as [st|st|st]; cbn [style_letter style_cell] in *.
  - apply (columns_cleaned e w p "Q" (quarter_strat st)); auto; [cbn; tauto|].
    intros q I. destruct (H q I) as (v & HV & C). exists v. split; auto. split; [|intros; apply quarter_reads; auto].
    destruct C as (u & y & k & m' & SV & Q & _). eapply says_time; eauto. eapply quarter_full; eauto.
  - apply (columns_cleaned e w p "M" (month_strat st)); auto; [cbn; tauto|].
    intros q I. destruct (H q I) as (v & HV & C). exists v. split; auto. split; [|intros; apply month_reads; auto].
    destruct C as (u & y & m' & SV & Q & _). eapply says_time; eauto. eapply month_full; eauto.
  - apply (columns_cleaned e w p "A" (year_strat st)); auto; [cbn; tauto|].
    intros q I. destruct (H q I) as (v & HV & C). exists v. split; auto. split; [|intros; apply year_reads; auto].
    destruct HV as (hs & vs & tss & _ & _ & _ & SD). destruct SD as [t c J IN NW|t J W].
    + intros NT. inversion NT as [|t' W E|]; subst. rewrite Forall_forall in W. apply NW. auto.
    + inversion C as [st' v' u y SV Q|]; subst. inversion SV.
Qed.
