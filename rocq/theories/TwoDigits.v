(** Two digit years in every form (C43). *)
From Coq Require Import ZifyBool ZifyNat ZifyN.
From Verif Require Import Base BaseFacts Cal Coord Params ParseTime TimeIndex SpecCal CalFacts SpecCoord SpecTime SpecData SpecParse SpecSimple
  NumberFacts DataFacts TimeProofs ParseFacts MonthProofs YearProofs PoolProofs ComposedProofs SimpleProofs SimpleProofs2.
Local Open Scope Z_scope.

Lemma year2_of a b v : digit a -> digit b -> decimal [a; b] v -> year2 [a; b] (full_year v).
Proof.
  intros A B D. pose proof D as D'. apply decimal_iff in D' as [D1 V].
  assert (R : 0 <= v <= 99). { rewrite <- V. clear - D1. cbn in D1. unfold digits_val, digit_val, is_digit in *. cbn [fold_left]. lia. }
  assert (M : full_year v mod 100 = v /\ 1969 <= full_year v <= 2068).
  { unfold full_year. destruct (Z.leb_spec v 68).
    - replace (2000 + v) with (v + 20 * 100) by lia. rewrite Z.mod_add, Z.mod_small by lia. lia.
    - replace (1900 + v) with (v + 19 * 100) by lia. rewrite Z.mod_add, Z.mod_small by lia. lia. }
  constructor; [reflexivity|rewrite (proj1 M); auto|apply M].
Qed.
Lemma ends_tight c t a b : is_space c = false -> is_space b = false -> trimmed (c :: t ++ [a; b]) (c :: t ++ [a; b]).
Proof.
  intros C B. apply stripped_iff. cbn [strip_val]. f_equal. symmetry. apply strip_tight. split; [auto|].
  change (c :: t ++ [a; b]) with ((c :: t) ++ [a; b]). rewrite rev_app_distr. cbn. auto.
Qed.
Lemma c43_two_digits : forall e a b v, digit a -> digit b -> decimal [a; b] v ->
  let y := full_year v in let yy := [a; b] in
  (forall k q last next, roman k q -> real_last last ->
     reads e "Q" SQuarter4 (VStr (k ++ T " " ++ yy)) last next (mkdt y (3 * q - 2) 1 0)) /\
  (forall k q last next, number4 k q -> real_last last ->
     reads e "Q" SQuarter3 (VStr (k ++ T "o Trim " ++ yy)) last next (mkdt y (3 * q - 2) 1 0)) /\
  (forall t m last next, month_name e t m -> real_last last ->
     reads e "M" SMonth1 (VStr (t ++ T " " ++ yy)) last next (mkdt y m 1 0)) /\
  (forall t m last next, month_name e t m -> real_last last ->
     reads e "M" SMonth1 (VStr (yy ++ T " " ++ t)) last next (mkdt y m 1 0)) /\
  (forall k q last next, roman k q -> q <= 2 -> real_last last ->
     reads e "S" SSemester (VStr (k ++ T " " ++ yy)) last next (mkdt y (6 * q - 5) 1 0)) /\
  (forall f t d m s s' td tm, periodic f -> trimmed t (td ++ s :: tm ++ s' :: yy) -> separates s -> separates s' -> unseparated td -> unseparated tm ->
     day_part td d -> month_part e false tm m -> real_date (mkdt y m d 0) ->
     parse_with_pool e (mktp false (T f)) None (VStr t) None VNone = (Some SSimple, Ok (mkdt y m d 0))).
Proof.
  intros e a b v A B D y yy. pose proof (year2_of a b v A B D) as Y2. fold y yy in Y2.
  assert (DS : forall c, is_digit c = true -> is_space c = false) by bytes.
  assert (LS : forall c, is_letter c = true -> is_space c = false) by bytes.
  apply decimal_iff in D as [D _]. assert (Da : is_digit a = true) by (cbn in D; destruct (is_digit a); auto; discriminate).
  assert (Db : is_digit b = true) by (cbn in D; rewrite Da in D; destruct (is_digit b); auto; discriminate).
  assert (NB : ~ begins digit []) by (intros (c & r & E & _); discriminate).
  assert (TL : tail []) by (apply (tail_plain [] []); [constructor|unfold short; cbn; lia]).
  assert (SPC : Forall white (T " ")) by (apply Forall_cons; [unfold white; cbn; tauto|constructor]).
  assert (SEP : forall s, In " "%char (T s) -> separator s (T " ")).
  { intros s I. split; [apply Forall_cons; [exact I|constructor]|]. intros (c & r & E & N). inversion E; subst. apply N. cbn. auto. }
  split; [|split; [|split; [|split; [|split]]]].
  - intros k q last next K RL. apply (quarter_reads e QShort); auto. exists (k ++ T " " ++ yy), (Some y), q, (3 * q - 2).
    split; [|split; [|split; [reflexivity|constructor]]].
    + constructor. destruct K; [apply (ends_tight "I" (T " "))|apply (ends_tight "I" (T "I "))|apply (ends_tight "I" (T "II "))|apply (ends_tight "I" (T "V "))]; auto.
    + pose proof (qt_short [] k (T " ") yy [] y q (or_introl eq_refl) K (SEP "-/.T "%string ltac:(cbn; tauto)) Y2 TL NB) as H. rewrite app_nil_r in H. exact H.
  - intros k q last next K RL. apply (quarter_reads e QWord); auto. exists (k ++ T "o Trim " ++ yy), (Some y), q, (3 * q - 2).
    split; [|split; [|split; [reflexivity|constructor]]].
    + constructor. destruct K; [apply (ends_tight "1" (T "o Trim "))|apply (ends_tight "2" (T "o Trim "))|apply (ends_tight "3" (T "o Trim "))|apply (ends_tight "4" (T "o Trim "))]; auto.
    + pose proof (qt_word [] [] k (T "o") (T " ") (T "Trim") (T " ") yy [] y q) as H. cbn [app] in H. rewrite app_nil_r in H.
      assert (G : quarter_text QWord (k ++ T "o" ++ T " " ++ T "Trim" ++ T " " ++ yy) (Some y) q); [|exact G].
      apply H; auto; try discriminate; try (repeat (apply Forall_cons; [cbn; unfold white; cbn; intuition (discriminate || lia)|]); apply Forall_nil).
  - intros t m last next N RL. apply (month_reads e MName); auto. exists (t ++ T " " ++ yy), (Some y), m. split; [|split; [|constructor]].
    + destruct (name_facts e t m N) as (L & _ & _ & NE & _). destruct t as [|c t]; [congruence|]. cbn [forallb] in L. apply andb_prop in L as [L _].
      constructor. replace ((c :: t) ++ T " " ++ yy) with (c :: (t ++ T " ") ++ [a; b]) by (cbn [app]; rewrite <- app_assoc; reflexivity). apply ends_tight; auto.
    + pose proof (mt_name_year e t [] (T " ") yy [] y m N dot_none (jm_none _ (joint_blank _ SPC)) (or_intror (conj Y2 NB))) as H. rewrite app_nil_r in H. exact H.
  - intros t m last next N RL. apply (month_reads e MName); auto. exists (yy ++ T " " ++ t), (Some y), m. split; [|split; [|constructor]].
    + destruct (name_facts e t m N) as (L & _ & _ & NE & _). constructor. apply stripped_iff. cbn [strip_val]. f_equal. symmetry. apply strip_tight. split; [cbn; auto|].
      change (yy ++ T " " ++ t) with ([a; b; " "%char] ++ t). rewrite rev_app_distr. destruct (rev t) as [|c r] eqn:R.
      * apply (f_equal (@rev _)) in R. rewrite rev_involutive in R. cbn in R. congruence.
      * cbn [app]. apply LS. rewrite forallb_forall in L. apply L. apply in_rev. rewrite R. left. auto.
    + pose proof (mt_year_name e yy (T " ") t [] y m (or_intror Y2) (jm_none _ (joint_blank _ SPC)) N) as H. rewrite app_nil_r in H. apply H.
      intros (c & r & E & _). discriminate.
  - intros k q last next K Q RL. apply semester_reads; auto. exists (k ++ T " " ++ yy), (Some y), q, (6 * q - 5).
    split; [|split; [|split; [reflexivity|constructor]]].
    + constructor. destruct K; [apply (ends_tight "I" (T " "))|apply (ends_tight "I" (T "I "))|apply (ends_tight "I" (T "II "))|apply (ends_tight "I" (T "V "))]; auto.
    + pose proof (st_year [] k (T " ") yy [] y q mark_none K Q (SEP "-/.S "%string ltac:(cbn; tauto)) Y2 TL) as H. rewrite app_nil_r in H. exact H.
  - intros f t d m s s' td tm P TR S1 S2 U1 U2 DP MP R. apply c45_read; auto.
    + intros l E. discriminate.
    + apply (wr_dmy e t (td ++ s :: tm ++ s' :: yy) td tm yy d m y); auto.
      * constructor; auto. apply digit_unseparated. auto.
      * apply yp_two. auto.
    + cbn. destruct Y2 as [? ? _ _ Y2]. lia.
    + intros l E. discriminate.
    + left. cbn. auto.
Qed.
