(** A request with the critical parameters only (C38). *)
From Coq Require Import ZifyBool ZifyNat.
From Verif Require Import Base BaseFacts Cal Coord CoordFacts XlMethods Params ParseTime TimeIndex GetData PeriodRange Attempts DataFrame Scrape Xlseries
  SpecCal SpecCoord SpecParams SpecAttempts SpecTime SpecData SpecFrames SpecScrape FrameProofs SpecEnd EndCall.
Local Open Scope Z_scope.

Lemma absent_not_given d k : only_critical d -> text_in k critical_names = false -> ~ given k d.
Proof.
  intros O N (v & E & _). assert (I : In k (map fst d)).
  { clear O N. induction d as [|[a b] d IH]; cbn in E; [discriminate|]. cbn. destruct (text_eqb k a) eqn:K.
    - left. symmetry. apply text_eqb_eq. auto.
    - right. auto. }
  apply O in I. apply text_in_In in I. congruence.
Qed.
Lemma critical_to_request d cells time z m f : critical_request d cells time z f -> exists l,
  request d cells time z m f (mkset Vert true false false l false).
Proof.
  intros [c1 c2 c3 c4 c5 c6 c7]. eexists. constructor; cbn [se_align se_continuity se_blanks se_missings se_markers se_composed]; auto.
  - intros k K. apply c2 in K. apply text_in_In in K. apply text_in_In. unfold critical_names in K. cbn in K.
    repeat (apply Bool.orb_prop in K as [K|K]); [..|discriminate]; apply text_eqb_eq in K; subst k; reflexivity.
  - left. apply absent_not_given; auto.
  - apply ly_default; auto. apply absent_not_given; auto.
  - right. split; [apply absent_not_given; auto|]. eexists. do 1 right. left. reflexivity.
  - right. split; [apply absent_not_given; auto|]. eexists. do 2 right. left. reflexivity.
  - right. split; [apply absent_not_given; auto|]. eexists. do 3 right. left. reflexivity.
  - apply mk_default. apply absent_not_given; auto.
  - right. split; [apply absent_not_given; auto|]. eexists. do 4 right. left. reflexivity.
  - right. split; [apply absent_not_given; auto|]. eexists. do 6 right. left. reflexivity.
  - left. apply absent_not_given; auto.
  - apply absent_not_given; auto.
  - apply absent_not_given; auto.
Qed.
Lemma columns_to_table d w cells time z f l ds data : ~ given (pname "data_ends") d -> clean_columns w cells time z f ds data ->
  clean_table d w cells time z (z + Z.of_nat (List.length ds) - 1) f (mkset Vert true false false l false) ds data.
Proof.
  intros G [c1 [c2 c3] c4 c5 c6 c7 [c8 c9] c10]. constructor; cbn [se_align se_continuity se_blanks se_missings se_markers se_composed along line_of depth_of]; auto.
  - split; auto. discriminate.
  - exists (max_row w). split; [apply (li_sheet d w Vert); auto|].
    destruct (Z.eq_dec (z + Z.of_nat (List.length ds) - 1) (max_row w)) as [E|E]; [left; auto|right]. split; auto. split; [lia|]. left.
    replace (z + Z.of_nat (List.length ds) - 1 + 1) with (z + Z.of_nat (List.length ds)) by lia. split; auto. split; auto. apply c9. lia.
  - eapply F2_imp; [|exact c10]. intros rc vs (L & V). split; auto. intros k x K. apply sf_number; auto. discriminate.
Qed.
Lemma names_distinct names cols : column_names names cols -> NoDup names -> cols = names.
Proof.
  induction 1 as [|ns n cols col C IH N]; intros D; auto. apply NoDup_remove in D as [D1 D2]. rewrite app_nil_r in D1, D2.
  specialize (IH D1). subst cols. destruct N as (i & I1 & I2 & I3 & I4). f_equal. f_equal.
  destruct (Z.eq_dec i 1) as [->|NE]; [subst col; reflexivity|]. exfalso. apply D2. specialize (I4 1). apply I4. lia.
Qed.
Lemma c38_critical e uni json st wb q preserve name i d cells time z f names ds data :
  wb_ok st wb -> resolves uni strip (names_of st wb) q name -> first_such (fun i => title (sheet st i) = name) wb i ->
  bounded (sheet st i) -> real_dates (sheet st i) -> periodic f ->
  critical_request d cells time z f -> clean_columns (sheet st i) cells time z f ds data ->
  Forall2 (fun rc n => cell (sheet st i) (fst rc) (snd rc) = VStr n /\ stripped (VStr n) (VStr n)) cells names -> NoDup names ->
  exists n pid, pandas_name f n /\
    snd (get_data_frames e uni json st wb (UInput (PDict d)) q false preserve) = Ok (DF (mkdf (mkpr (T n) ds) names data), name, pid).
Proof.
  intros WB RES FS BO RD PER CR CC NM ND. destruct (critical_to_request d cells time z (z + Z.of_nat (List.length ds) - 1) f CR) as (l & RQ).
  assert (G : forall k, text_in k critical_names = false -> ~ given k d) by (intros k; apply absent_not_given, CR).
  destruct (c38 e uni json st wb q preserve name i d cells time z _ f _ names ds data WB RES FS BO RD RQ PER) as (n & cols & pid & P1 & P2 & P3).
  - discriminate.
  - apply columns_to_table; auto.
  - apply tn_headers; auto. eapply F2_imp; [|exact NM]. intros rc u [E S0]. exists u. rewrite E. split; auto. constructor.
  - exists n, pid. split; auto. rewrite P3. rewrite (names_distinct _ _ P2 ND). reflexivity.
Qed.
