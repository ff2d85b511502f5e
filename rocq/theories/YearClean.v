(** Cleaning a time index of written years and quarters (C78). *)
From Coq Require Import Sorted ZifyBool ZifyNat.
From Verif Require Import Base BaseFacts Cal Coord CoordFacts XlMethods Params ParseTime TimeIndex GetData PeriodRange Attempts DataFrame Scrape
  SpecCal CalFacts CalProofs SpecCoord SpecCoordFacts SpecParams BuildFacts BuildInv ParamsFacts ParamsProofs
  TimeFacts SpecTime SpecData DataFacts SpecFrames SpecScrape ScrapeFacts TextProofs FrameProofs FrameProofs2 DataProofs ScrapeProofs2 TimeProofs TimeProofs2 SpecParse SpecEnd RangeExact TimeEnd
  EndFacts EndProofs EndAttempt ComposedProofs IndexWalk IndexTexts SpecCycles CycleClean SpecYears YearTexts.
Local Open Scope Z_scope.

(** ** The dates of the rows *)
Definition row_month (f : string) (b : nat) : Z :=
  if string_dec f "AQQQQ" then match b with O => 1 | S j => 3 * Z.of_nat j + 1 end
  else if Nat.eqb b 4 then 1 else 3 * Z.of_nat b + 1.
Definition row_letter (f : string) (b : nat) : ascii :=
  if string_dec f "AQQQQ" then if Nat.eqb b 0 then "A"%char else "Q"%char
  else if Nat.eqb b 4 then "A"%char else "Q"%char.
Definition row_date (f : string) (y0 : Z) (k : nat) : datetime := mkdt (row_year y0 k) (row_month f (k mod 5)) 1 0.
Lemma mod5 k : (k mod 5 = 0 \/ k mod 5 = 1 \/ k mod 5 = 2 \/ k mod 5 = 3 \/ k mod 5 = 4)%nat.
Proof. pose proof (Nat.mod_upper_bound k 5). lia. Qed.
Lemma first_day_is y o d : first_day y o d -> d = mkdt y (match o with None => 1 | Some q => 3 * q - 2 end) 1 0.
Proof. intros [|q m M]; auto. unfold quarter_month in M. subst m. reflexivity. Qed.
Lemma row_is f y0 ds k d : row_dates f y0 ds -> nth_error ds k = Some d -> d = row_date f y0 k.
Proof.
  intros R N. destruct (R k d N) as (o & P & D). unfold row_date, row_month.
  apply first_day_is in D. subst d. destruct P as [-> B| -> B| -> B| -> B]; f_equal; repeat (destruct (string_dec _ _); try congruence).
  - rewrite B. reflexivity.
  - destruct (k mod 5)%nat as [|j] eqn:Q; lia.
  - replace (Nat.eqb (k mod 5) 4) with false by (symmetry; apply Nat.eqb_neq; lia). lia.
  - rewrite B. reflexivity.
Qed.
Lemma row_letter_is f k : years_freq f -> cycle_letter (T f) k = Some (row_letter f (k mod 5)).
Proof.
  intros F. unfold cycle_letter. replace (List.length (T f)) with 5%nat by (destruct F as [-> | ->]; reflexivity).
  destruct F as [-> | ->]; destruct (mod5 k) as [-> |[-> |[-> |[-> | ->]]]]; reflexivity.
Qed.
Lemma row_month_range f b : years_freq f -> (b < 5)%nat -> 1 <= row_month f b <= 12.
Proof. intros F B. destruct F as [-> | ->]; do 5 (destruct b as [|b]; [cbn; lia|]); lia. Qed.
Lemma row_real f y0 k : years_freq f -> 1 <= row_year y0 k <= 9999 -> real_date (row_date f y0 k).
Proof.
  intros F Y. pose proof (row_month_range f (k mod 5) F (Nat.mod_upper_bound k 5 ltac:(lia))) as M. unfold real_date, row_date. cbn [dt_y dt_m dt_d dt_s].
  split; auto. split; [lia|]. exists (days_in_month (row_year y0 k) (row_month f (k mod 5))). assert (L := proj1 (dim_spec (row_year y0 k) _ _ M) eq_refl). split; auto. apply month_length_range in L. lia.
Qed.
Lemma row_period f y0 j k c n : (c = "Q"%char /\ n = 3 \/ c = "A"%char /\ n = 12) -> years_freq f ->
  row_year y0 k * 12 + row_month f (k mod 5) = row_year y0 j * 12 + row_month f (j mod 5) + n ->
  one_period (letter c) (row_date f y0 j) (row_date f y0 k).
Proof.
  intros C F E. pose proof (row_month_range f (k mod 5) F (Nat.mod_upper_bound k 5 ltac:(lia))) as M.
  apply op_months with n; [destruct C as [[-> ->]|[-> ->]]; reflexivity|]. unfold months_after, row_date. cbn [dt_y dt_m dt_d dt_s]. split; auto. split; auto. split; auto.
  exists (days_in_month (row_year y0 k) (row_month f (k mod 5))). assert (L := proj1 (dim_spec (row_year y0 k) _ _ M) eq_refl). split; auto. apply month_length_range in L. lia.
Qed.

(** ** Each letter goes period by period *)
Lemma last_back f ds i c y0 : years_freq f -> row_dates f y0 ds -> (i < List.length ds)%nat ->
  last_of (T f) c ds (S i) = if ascii_dec (row_letter f (i mod 5)) c then Some (row_date f y0 i) else last_of (T f) c ds i.
Proof.
  intros F R L. destruct (nth_error ds i) as [x|] eqn:N; [|apply nth_error_None in N; lia].
  rewrite (last_next (T f) c ds i x _ N (row_letter_is f i F)). rewrite (row_is f y0 ds i x R N). reflexivity.
Qed.
Lemma back_mod i b : (i mod 5 = S b -> exists j, i = S j /\ j mod 5 = b /\ j / 5 = i / 5)%nat.
Proof. intros B. exists (i - 1)%nat. pose proof (Nat.div_mod i 5). pose proof (Nat.mod_upper_bound i 5). assert (i - 1 = 5 * (i / 5) + b)%nat by lia.
  split; [lia|]. split; [symmetry; apply (Nat.mod_unique (i - 1) 5 (i / 5) b); lia|symmetry; apply (Nat.div_unique (i - 1) 5 (i / 5) b); lia]. Qed.
Lemma back_zero i : (i mod 5 = 0 -> i = 0 \/ exists j, i = S j /\ j mod 5 = 4 /\ S (j / 5) = i / 5)%nat.
Proof. intros B. destruct i as [|j]; [auto|right]. exists j. pose proof (Nat.div_mod (S j) 5). assert (j = 5 * (S j / 5 - 1) + 4)%nat by lia.
  split; [lia|]. split; [symmetry; apply (Nat.mod_unique j 5 (S j / 5 - 1) 4); lia|]. replace (j / 5)%nat with (S j / 5 - 1)%nat by (apply (Nat.div_unique j 5 (S j / 5 - 1) 4); lia). lia. Qed.
Ltac months_ := repeat match goal with |- context [row_month ?f ?b] => let v := eval vm_compute in (row_month f b) in change (row_month f b) with v end; lia.
Lemma row_step f y0 ds i c x y : years_freq f -> row_dates f y0 ds -> nth_error ds i = Some y -> cycle_letter (T f) i = Some c -> last_of (T f) c ds i = Some x ->
  one_period (letter c) x y /\ (c = "A"%char -> dt_m x = 1 /\ dt_d x = 1 /\ dt_s x = 0 /\ dt_y x + 1 = dt_y y).
Proof.
  intros F R N C L. assert (IL : (i < List.length ds)%nat) by (apply nth_error_Some; congruence).
  rewrite (row_letter_is f i F) in C. assert (C' : row_letter f (i mod 5) = c) by congruence. clear C. rename C' into C. rewrite (row_is f y0 ds i y R N). clear N y.
  assert (SKIP : forall j, (S j <= i)%nat -> row_letter f (j mod 5) <> c -> last_of (T f) c ds (S j) = last_of (T f) c ds j).
  { intros j J NE. rewrite (last_back f ds j c y0 F R) by lia. destruct (ascii_dec _ c); [contradiction|auto]. }
  assert (TAKE : forall j, (S j <= i)%nat -> row_letter f (j mod 5) = c -> last_of (T f) c ds (S j) = Some (row_date f y0 j)).
  { intros j J E. rewrite (last_back f ds j c y0 F R) by lia. destruct (ascii_dec _ c); [auto|contradiction]. }
  assert (NIL : last_of (T f) c ds 0 = None) by reflexivity.
  assert (ALL : exists j, x = row_date f y0 j /\ ((c = "Q"%char /\ row_year y0 i * 12 + row_month f (i mod 5) = row_year y0 j * 12 + row_month f (j mod 5) + 3) \/
    (c = "A"%char /\ row_year y0 i = row_year y0 j + 1 /\ row_month f (i mod 5) = 1 /\ row_month f (j mod 5) = 1))).
  { unfold row_year. destruct F as [-> | ->]; destruct (mod5 i) as [B|[B|[B|[B|B]]]]; rewrite B in C; cbn in C; subst c; rewrite ?B.
    - (* a year *) destruct (back_zero i B) as [-> |(j & -> & B1 & D1)]; [congruence|].
      rewrite SKIP in L by (auto; rewrite B1; discriminate). pose proof (back_mod j 3 B1) as (j2 & -> & B2 & D2).
      rewrite SKIP in L by (try lia; rewrite B2; discriminate). pose proof (back_mod j2 2 B2) as (j3 & -> & B3 & D3).
      rewrite SKIP in L by (try lia; rewrite B3; discriminate). pose proof (back_mod j3 1 B3) as (j4 & -> & B4 & D4).
      rewrite SKIP in L by (try lia; rewrite B4; discriminate). pose proof (back_mod j4 0 B4) as (j5 & -> & B5 & D5).
      rewrite TAKE in L by (try lia; rewrite B5; reflexivity). exists j5. split; [congruence|]. right. split; auto. rewrite B5. months_.
    - pose proof (back_mod i 0 B) as (j & -> & B1 & D1). rewrite SKIP in L by (try lia; rewrite B1; discriminate).
      destruct (back_zero j B1) as [-> |(j2 & -> & B2 & D2)]; [congruence|]. rewrite TAKE in L by (try lia; rewrite B2; reflexivity).
      exists j2. split; [congruence|]. left. split; auto. rewrite B2. months_.
    - pose proof (back_mod i 1 B) as (j & -> & B1 & D1). rewrite TAKE in L by (try lia; rewrite B1; reflexivity). exists j. split; [congruence|]. left. split; auto. rewrite B1. months_.
    - pose proof (back_mod i 2 B) as (j & -> & B1 & D1). rewrite TAKE in L by (try lia; rewrite B1; reflexivity). exists j. split; [congruence|]. left. split; auto. rewrite B1. months_.
    - pose proof (back_mod i 3 B) as (j & -> & B1 & D1). rewrite TAKE in L by (try lia; rewrite B1; reflexivity). exists j. split; [congruence|]. left. split; auto. rewrite B1. months_.
    - destruct (back_zero i B) as [-> |(j & -> & B1 & D1)]; [congruence|]. rewrite SKIP in L by (try lia; rewrite B1; discriminate).
      pose proof (back_mod j 3 B1) as (j2 & -> & B2 & D2). rewrite TAKE in L by (try lia; rewrite B2; reflexivity).
      exists j2. split; [congruence|]. left. split; auto. rewrite B2. months_.
    - pose proof (back_mod i 0 B) as (j & -> & B1 & D1). rewrite TAKE in L by (try lia; rewrite B1; reflexivity). exists j. split; [congruence|]. left. split; auto. rewrite B1. months_.
    - pose proof (back_mod i 1 B) as (j & -> & B1 & D1). rewrite TAKE in L by (try lia; rewrite B1; reflexivity). exists j. split; [congruence|]. left. split; auto. rewrite B1. months_.
    - pose proof (back_mod i 2 B) as (j & -> & B1 & D1). rewrite TAKE in L by (try lia; rewrite B1; reflexivity). exists j. split; [congruence|]. left. split; auto. rewrite B1. months_.
    - pose proof (back_mod i 3 B) as (j2 & -> & B2 & D2). rewrite SKIP in L by (try lia; rewrite B2; discriminate).
      pose proof (back_mod j2 2 B2) as (j3 & -> & B3 & D3). rewrite SKIP in L by (try lia; rewrite B3; discriminate).
      pose proof (back_mod j3 1 B3) as (j4 & -> & B4 & D4). rewrite SKIP in L by (try lia; rewrite B4; discriminate).
      pose proof (back_mod j4 0 B4) as (j5 & -> & B5 & D5). rewrite SKIP in L by (try lia; rewrite B5; discriminate).
      destruct (back_zero j5 B5) as [-> |(j6 & -> & B6 & D6)]; [congruence|]. rewrite TAKE in L by (try lia; rewrite B6; reflexivity).
      exists j6. split; [congruence|]. right. split; auto. rewrite B6. months_. }
  destruct ALL as (j & -> & [[-> E]|(-> & E1 & E2 & E3)]).
  - split; [apply (row_period f y0 j i _ 3); auto|discriminate].
  - split; [apply (row_period f y0 j i _ 12); auto; lia|]. intros _. cbn [dt_m dt_d dt_s dt_y row_date]. lia.
Qed.
Lemma consecutive_snoc f x y : forall l, consecutive f (l ++ [x]) -> one_period f x y -> consecutive f ((l ++ [x]) ++ [y]).
Proof.
  induction l as [|a l IH]; cbn [app]; intros H P; [repeat constructor; auto|]. specialize (IH) .
  destruct l as [|b l]; cbn [app] in *; inversion H; subst; constructor; auto.
Qed.
Lemma share_consecutive fr c ds : (forall i x y, nth_error ds i = Some y -> cycle_letter fr i = Some c -> last_of fr c ds i = Some x -> one_period (letter c) x y) ->
  share fr c 0 ds <> [] -> consecutive (letter c) (share fr c 0 ds).
Proof.
  intros H NE. assert (G : forall n, (n <= List.length ds)%nat -> share fr c 0 (firstn n ds) = [] \/ consecutive (letter c) (share fr c 0 (firstn n ds))).
  { induction n as [|n IH]; intros L; [left; reflexivity|]. destruct (nth_error ds n) as [y|] eqn:N; [|apply nth_error_None in N; lia].
    destruct (first_next _ _ _ N) as (A1 & _ & A3). specialize (IH ltac:(lia)). specialize (H n). rewrite A1, share_app, A3. cbn [Nat.add share].
    destruct (cycle_letter fr n) as [b|]; [|rewrite app_nil_r; auto]. destruct (ascii_dec b c) as [-> |NB]; [|rewrite app_nil_r; auto]. right.
    unfold last_of in H. destruct (share fr c 0 (firstn n ds)) as [|x l _] using rev_ind; [constructor|].
    destruct IH as [IH|IH]; [destruct l; discriminate|]. apply consecutive_snoc; auto. apply H; auto. rewrite rev_app_distr. reflexivity. }
  destruct (G (List.length ds) (le_n _)) as [E|E]; rewrite firstn_all in E; [contradiction|auto].
Qed.

(** ** The walk *)
Lemma period_inv f k o : period_row f k o -> match o with
  | Some q => f = "AQQQQ"%string /\ q = Z.of_nat (k mod 5) \/ f = "QQQQA"%string /\ (k mod 5 < 4)%nat /\ q = Z.of_nat (k mod 5) + 1
  | None => f = "AQQQQ"%string /\ (k mod 5 = 0)%nat \/ f = "QQQQA"%string /\ (k mod 5 = 4)%nat end.
Proof. intros []; auto. Qed.
Definition date_at_row (f : string) (y0 z q : Z) : datetime := row_date f y0 (Z.to_nat (q - z)).
Section Years.
Variables (e : env) (w : worksheet) (al : align) (f : string) (t : text) (r c z y0 : Z) (ds : list datetime) (s0 : sp).
Let m := z + Z.of_nat (List.length ds) - 1.
Let F := T f.
Hypothesis freq : f = "AQQQQ"%string /\ sp_missings s0 = false \/ f = "QQQQA"%string.
Hypothesis rows : row_dates f y0 ds.
Hypothesis years : 1678 <= y0 /\ row_year y0 (List.length ds) <= 2261.
Hypothesis two : (2 <= List.length ds)%nat.
Hypothesis named : cell_named t r c.
Hypothesis low : 1 <= z.
Hypothesis high : al = Horiz -> m < 18278.
Hypothesis O0 : open_series al t F z m s0.
Hypothesis composed : sp_composed s0 = true.
Hypothesis index : forall k, (k < List.length ds)%nat -> exists v u, holds s0 w (z + Z.of_nat k) v /\ SpecParse.says v u /\ row_text f y0 k u.
Hypothesis ends : index_ends s0 w m.

Lemma year_freq : years_freq f.
Proof. destruct freq as [[-> _]| ->]; [left|right]; auto. Qed.
Lemma row_range k : (k < List.length ds)%nat -> 1678 <= row_year y0 k <= 2261.
Proof.
  intros K. unfold row_year in *. pose proof (Nat.div_le_mono k (List.length ds) 5 ltac:(lia) ltac:(lia)). lia.
Qed.
Lemma date_row k : (k < List.length ds)%nat -> nth_error ds k = Some (row_date f y0 k).
Proof.
  intros K. destruct (nth_error ds k) as [x|] eqn:N; [|apply nth_error_None in N; lia]. f_equal. apply (row_is f y0 ds); auto.
Qed.
Lemma years_real : Forall real_date ds /\ Forall (fun x => 1678 <= dt_y x <= 2261) ds.
Proof.
  split; apply Forall_forall; intros x X; apply In_nth_error in X as [k K]; pose proof (row_is f y0 ds k x rows K) as ->;
    assert (KL : (k < List.length ds)%nat) by (apply nth_error_Some; congruence); pose proof (row_range k KL).
  - apply row_real; [apply year_freq|lia].
  - cbn. lia.
Qed.

Definition before_row (q : Z) (k : option strat) (lasts : ascii -> option datetime) (lf : text) : Prop :=
  (k = None \/ k = Some (year_strategy f)) /\ before_cycle f z ds q k lasts lf.

(** the date read from the text: that of the row, but for the month of a year
    after another one *)
Lemma row_read k v u next : (k < List.length ds)%nat -> SpecParse.says v u -> row_text f y0 k u ->
  exists d, reads e f (year_strategy f) v (match k with O => None | S j => Some (row_date f y0 j) end) next d /\
    (d = row_date f y0 k \/ f = "AQQQQ"%string /\ (k mod 5 = 0)%nat /\ k <> 0%nat /\ d = mkdt (row_year y0 k) 10 1 0).
Proof.
  intros K SA RT. pose proof year_freq as YF.
  assert (RL : forall j, k = S j -> real_date (row_date f y0 j)).
  { intros j E. apply row_real; auto. pose proof (row_range j ltac:(lia)). lia. }
  destruct RT as [B Y|q B P Q|B P NS].
  - eexists. split; [apply (reads_year e f v u (row_year y0 k)); auto|].
    { intros l E. destruct k as [|j]; [discriminate|]. injection E as <-. auto. }
    destruct k as [|j]; [left; unfold row_date; f_equal; destruct YF as [-> | ->]; reflexivity|].
    destruct (back_zero (S j) B) as [|(j' & E & B1 & D1)]; [discriminate|]. injection E as <-. cbn [month_before row_date dt_m]. unfold row_date. rewrite B, B1.
    destruct YF as [-> | ->]; [right; auto|left; reflexivity].
  - destruct k as [|j]; [cbn in B; lia|]. eexists. split; [apply (reads_quarter e f v u q (row_date f y0 j)); auto|]. left.
    destruct ((S j) mod 5)%nat as [|b] eqn:SB; [lia|]. destruct (back_mod (S j) b SB) as (j' & E & B1 & D1). injection E as <-.
    unfold row_date. rewrite SB. cbn [dt_y]. unfold row_year. rewrite D1. f_equal.
    apply period_inv in P. unfold row_month. destruct P as [[-> ->]|(-> & P & ->)]; rewrite ?SB in *.
    + destruct (string_dec _ _); [lia|congruence].
    + destruct (string_dec _ _); [discriminate|]. replace (Nat.eqb (S b) 4) with false by (symmetry; apply Nat.eqb_neq; lia). lia.
  - destruct k as [|j]; [cbn in B; lia|]. apply period_inv in P. destruct P as [[_ P]|[-> E2]]; [lia|].
    destruct (back_mod (S j) 3 E2) as (j' & E & B1 & D1). injection E as <-.
    eexists. split; [apply (reads_nothing e v u (row_date "QQQQA" y0 j)); auto|].
    { unfold row_date. cbn [dt_m]. rewrite B1. reflexivity. }
    left. unfold row_date. cbn [dt_y]. unfold row_year. rewrite D1, E2. reflexivity.
Qed.

Lemma row_time k u v : row_text f y0 k u -> SpecParse.says v u -> ~ no_time s0 v.
Proof.
  intros RT SA. apply (says_time s0 v u SA). destruct RT as [_ [a yt b y A Y B]|q _ _ [a k' s q' A K N]|_ _ NS].
  - destruct (ParseFacts.year4_facts yt y Y) as (_ & _ & _ & _ & NE). destruct a, yt; cbn; congruence.
  - destruct (ParseFacts.roman_facts k' q' K) as (_ & _ & _ & _ & NE & _). destruct a, k'; cbn; congruence.
  - apply read_nothing in NS. tauto.
Qed.

Lemma year_step q st v u nv : z <= q <= m -> SpecParse.says v u -> row_text f y0 (Z.to_nat (q - z)) u ->
  cs_last st = (if q =? z then None else Some (date_at_row f y0 z (q - 1))) -> before_row q (cs_parser st) (cs_lasts st) (cs_lf st) ->
  exists k lasts lf, process_value e s0 st v nv = (k, Ok (date_at_row f y0 z q, lasts, lf)) /\ before_row (q + 1) k lasts lf.
Proof.
  intros Q SA RT LA [PK [B1 B2]]. pose proof O0 as (O1 & O2 & O3 & O4 & O5 & O6 & O7 & O9). pose proof year_freq as YF. set (i := Z.to_nat (q - z)) in *.
  assert (IL : (i < List.length ds)%nat) by (unfold i; lia). pose proof (date_row i IL) as N. change (date_at_row f y0 z q) with (row_date f y0 i).
  assert (LF : List.length F = 5%nat) by (unfold F; destruct YF as [-> | ->]; reflexivity).
  assert (NF : F <> []) by (intros X; rewrite X in LF; discriminate).
  destruct (next_cycle F i NF) as (b & CB & NX).
  assert (LI : cs_last st = match i with O => None | S j => Some (row_date f y0 j) end).
  { rewrite LA. unfold i. destruct (q =? z) eqn:QZ; [replace (Z.to_nat (q - z)) with 0%nat by lia; reflexivity|].
    replace (Z.to_nat (q - z)) with (S (Z.to_nat (q - 1 - z))) by lia. reflexivity. }
  destruct (row_read i v u nv IL SA RT) as (d & RD & DD).
  unfold process_value. rewrite composed, O6, LI. pose proof (RD _ PK) as RP. change (T f) with F in RP. rewrite RP. cbn [bind].
  unfold correct_state. rewrite O6. rewrite LF. cbn [Nat.eqb].
  rewrite B1. fold i F. rewrite NX. cbn [bind fst snd].
  assert (CP : correct_progression (cs_lasts st b) d [b] (sp_missings s0) (sp_mv s0) = Ok (row_date f y0 i)).
  { rewrite B2. fold i F. destruct (last_of F b ds i) as [x|] eqn:LX.
    - cbn [correct_progression]. destruct (row_step f y0 ds i b x _ YF rows N CB LX) as (OP & AA).
      assert (RX : real_date x). { pose proof (proj1 years_real) as real. rewrite Forall_forall in real. apply real. unfold last_of in LX. rewrite <- (firstn_skipn i ds). apply in_or_app. left.
        apply (share_in F b x (firstn i ds) 0). apply in_rev. destruct (rev (share F b 0 (firstn i ds))); [discriminate|]. injection LX as ->. left. auto. }
      assert (RI : real_date (row_date f y0 i)) by (apply row_real; auto; pose proof (row_range i IL); lia).
      change [b] with (T (letter b)). rewrite (period_step _ _ _ RX RI OP). cbn [bind].
      destruct DD as [-> |(FA & M0 & I0 & ->)]; [rewrite (proj2 (dt_eqb_eq _ _) eq_refl); reflexivity|].
      assert (MS : sp_missings s0 = false) by (destruct freq as [[_ H]|H]; [auto|congruence]).
      assert (BA : b = "A"%char). { unfold F in CB. rewrite (row_letter_is f i YF) in CB. rewrite M0, FA in CB. cbn in CB. congruence. }
      destruct (AA BA) as (A1 & A2 & A3 & A4). unfold row_date. rewrite M0, FA. cbn [row_month string_dec] . 
      cbn [dt_y row_date] in A4. destruct x as [xy xm xd xs]. cbn [dt_y dt_m dt_d dt_s] in *. subst xm xd xs.
      replace (dt_eqb _ _) with false.
      2:{ symmetry. destruct (dt_eqb _ _) eqn:X; auto. apply dt_eqb_eq in X. injection X as X. discriminate. }
      unfold dt_ltb. cbn [dt_y dt_m dt_d dt_s]. replace (row_year y0 i <? xy) with false by lia. replace (row_year y0 i =? xy) with false by lia. replace (xy <? row_year y0 i) with true by lia.
      rewrite MS. cbn [orb andb negb]. unfold time_value_typo. cbn [dt_y dt_m dt_d dt_s]. rewrite !Z.eqb_refl. reflexivity.
    - cbn [correct_progression]. destruct DD as [-> |(FA & M0 & I0 & ->)]; auto. exfalso.
      assert (BA : b = "A"%char). { unfold F in CB. rewrite (row_letter_is f i YF) in CB. rewrite M0, FA in CB. cbn in CB. congruence. }
      unfold last_of in LX. assert (IN : In (row_date f y0 0) (share F b 0 (firstn i ds))).
      { unfold F. rewrite BA, FA. destruct i as [|i']; [congruence|]. pose proof (date_row 0 ltac:(lia)) as N0. destruct ds as [|d0 l]; [discriminate|]. injection N0 as N0. left. rewrite <- FA. exact N0. }
      destruct (rev (share F b 0 (firstn i ds))) eqn:RV; [|discriminate]. apply in_rev in IN. rewrite RV in IN. destruct IN. }
  rewrite CP. cbn [bind fst]. rewrite andb_false_r. eexists _, _, _. split; [reflexivity|].
  split; [right; reflexivity|]. unfold before_cycle. replace (Z.to_nat (q + 1 - z)) with (S i) by lia. split; auto. intros a. unfold set_last. fold F. rewrite (last_next F a ds i _ b N CB), B2. fold i F.
  destruct (ch_eqb a b) eqn:E; destruct (ascii_dec b a) as [EQ|NE]; auto.
  - apply ch_eqb_eq in E. congruence.
  - subst b. rewrite (proj2 (ch_eqb_eq a a) eq_refl) in E. discriminate.
Qed.

Lemma years_cleaned : exists w', clean_time_index e w s0 = (w', Ok m) /\
  (forall q, z <= q <= m -> holds s0 w' q (VDate (date_at_row f y0 z q))) /\
  (forall i j, (forall q, z <= q <= m -> ~ index_cell s0 q i j) -> cell w' i j = cell w i j).
Proof.
  pose proof O0 as (O1 & O2 & O3 & O4 & O5 & O6 & O7 & O9). assert (ML : z < m) by (unfold m; lia).
  pose proof (walk_index_inv before_row e w s0 t r c (date_at_row f y0 z) m) as WI. rewrite O3, O5, Z.sub_0_r in WI. apply WI; auto.
  - rewrite O6. unfold F. destruct year_freq as [-> | ->]; discriminate.
  - split; [lia|]. rewrite O1. destruct al; auto.
  - split; auto. unfold before_cycle. replace (Z.to_nat (z - z)) with 0%nat by lia. split; reflexivity.
  - intros q Q. assert (LT : (Z.to_nat (q - z) < List.length ds)%nat) by (unfold m in Q; lia).
    destruct (index _ LT) as (v & u & HV & SA & RT). replace (z + Z.of_nat (Z.to_nat (q - z))) with q in HV by lia.
    destruct (line_known s0 t r c O2 named) as [wl WL].
    exists v, (axis_val (sp_al s0) w wl (q + 1)). split; auto. split; [eapply row_time; eauto|]. split; [apply (holds_iff _ _ _ _ _ WL); auto|].
    intros st LA B. apply (year_step q st v u); auto. rewrite LA. unfold before. rewrite O3. reflexivity.
  - lia.
Qed.
End Years.

(** cleaning keeps the values of a sheet inside its extent *)
Lemma touch_time_bounded al tl q w : bounded w -> bounded (touch_time al tl q w).
Proof.
  destruct tl as [l|ls]; cbn [touch_time]; [apply touch_bounded|]. revert w. induction ls as [|l ls IH]; intros w B; cbn [fold_left]; auto. apply IH. apply touch_bounded. auto.
Qed.
Lemma loop_bounded e p tl wl : 1 <= wl -> forall positions prev st w' r, Forall (fun q => 1 <= q) positions -> bounded (cs_ws st) ->
  clean_loop e p tl wl positions prev st = (w', r) -> bounded w'.
Proof.
  intros WL. induction positions as [|pos rest IH]; intros prev st w' r PS B H; cbn [clean_loop] in H.
  - destruct prev; inversion H; subst; auto.
  - inversion PS as [|? ? P1 P2]; subst. destruct (do c <- _; _) as [[curr next]|x]; [|inversion H; subst; auto].
    set (w1 := axis_touch _ wl pos _) in H.
    assert (C1 : bounded w1) by (unfold w1, axis_touch; apply touch_bounded; apply touch_time_bounded; apply touch_time_bounded; auto).
    assert (WR : forall v, bounded (axis_write (sp_al p) wl pos v w1)).
    { intros v. unfold axis_write, axis_row, axis_col. destruct (sp_al p); apply write_bounded; auto. }
    destruct (must_be_time _ curr).
    + destruct (process_value _ _ _ _ _) as [sticky [[[d lasts] lf]|x]].
      * eapply IH; [exact P2| |exact H]; cbn [cs_ws]; auto.
      * destruct (_ || _).
        -- eapply IH; [exact P2| |exact H]; cbn [cs_ws]; auto.
        -- destruct (_ && _); inversion H; subst; auto.
    + destruct (_ && _).
      * eapply IH; [exact P2| |exact H]; cbn [cs_ws]; auto.
      * inversion H; subst. auto.
Qed.
Lemma clean_bounded e w p w' r t i j : sp_th p = ThStr t -> cell_named t i j -> 1 <= sp_starts p -> bounded w -> clean_time_index e w p = (w', r) -> bounded w'.
Proof.
  intros TH CN LO B H. destruct (clean_split _ _ _ _ _ H) as [[-> _]|(L & tl & wl & TL & WL & C)]; auto.
  eapply loop_bounded; [| | |exact C]; auto.
  - rewrite TH in WL. cbn [write_line] in WL. unfold coord_line in WL. apply cell_named_iff in CN. pose proof (parse_range _ _ _ CN). rewrite CN in WL. cbn [bind fst snd] in WL. destruct (sp_al p); inversion WL; subst; lia.
  - apply Forall_forall. intros q Q. apply zrange_In in Q. lia.
Qed.
