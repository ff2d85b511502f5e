(** Property C41, continued: the name of a month is read the same in capital
    letters, in small letters or in both. *)
From Verif Require Import Base BaseFacts Cal ParseTime TimeIndex SpecCal CalFacts SpecTime SpecData SpecParse ParseFacts DataFacts
  NumberFacts ComposedProofs PropsParse.
Local Open Scope Z_scope.

(** ** Specification: one capital letter followed by small ones, and the same
    letter whatever its case *)
Definition capital (c : ascii) : Prop := (65 <= nat_of_ascii c <= 90)%nat.
Definition small (c : ascii) : Prop := (97 <= nat_of_ascii c <= 122)%nat.
Inductive proper : text -> Prop := pp c t : capital c -> Forall small t -> proper (c :: t).
Definition same_letter (a b : ascii) : Prop :=
  letter a /\ letter b /\
  (a = b \/ nat_of_ascii a = (nat_of_ascii b + 32)%nat \/ nat_of_ascii b = (nat_of_ascii a + 32)%nat).

Lemma nat_inj a b : nat_of_ascii a = nat_of_ascii b -> a = b.
Proof. intros H. rewrite <- (ascii_nat_embedding a), <- (ascii_nat_embedding b), H. reflexivity. Qed.
Lemma up_nat b : nat_of_ascii (up_ch b) = if (97 <=? nat_of_ascii b)%nat && (nat_of_ascii b <=? 122)%nat then (nat_of_ascii b - 32)%nat else nat_of_ascii b.
Proof. destruct b as [[] [] [] [] [] [] [] []]; reflexivity. Qed.
Lemma low_nat b : nat_of_ascii (low_ch b) = if (65 <=? nat_of_ascii b)%nat && (nat_of_ascii b <=? 90)%nat then (nat_of_ascii b + 32)%nat else nat_of_ascii b.
Proof. destruct b as [[] [] [] [] [] [] [] []]; reflexivity. Qed.
Lemma up_capital a b : same_letter a b -> capital a -> up_ch b = a.
Proof.
  intros (_ & B & M) C. apply nat_inj. rewrite up_nat. unfold capital in C.
  assert (V : (65 <= nat_of_ascii b <= 90)%nat \/ (97 <= nat_of_ascii b <= 122)%nat) by (destruct B; auto).
  destruct ((97 <=? nat_of_ascii b)%nat && (nat_of_ascii b <=? 122)%nat) eqn:E; destruct M as [->|M]; lia.
Qed.
Lemma low_small a b : same_letter a b -> small a -> low_ch b = a.
Proof.
  intros (_ & B & M) C. apply nat_inj. rewrite low_nat. unfold small in C.
  assert (V : (65 <= nat_of_ascii b <= 90)%nat \/ (97 <= nat_of_ascii b <= 122)%nat) by (destruct B; auto).
  destruct ((65 <=? nat_of_ascii b)%nat && (nat_of_ascii b <=? 90)%nat) eqn:E; destruct M as [->|M]; lia.
Qed.
Lemma capitalize_proper cap t : proper cap -> Forall2 same_letter cap t -> capitalize t = cap.
Proof.
  intros [c u C U] F. inversion F as [|? b ? t' E G]; subst. unfold capitalize, lower. f_equal; [apply (up_capital c b); assumption|].
  clear F E C c b. revert U. induction G as [|x y u v E G IH]; intros U; [reflexivity|]. inversion U; subst.
  cbn [map]. f_equal; [apply (low_small x y); assumption|auto].
Qed.
Lemma same_len (a b : text) : Forall2 same_letter a b -> List.length a = List.length b /\ Forall letter b.
Proof. induction 1 as [|x y a b E G [IH1 IH2]]; [split; [reflexivity|constructor]|]. split; [cbn; congruence|]. constructor; [apply E|exact IH2]. Qed.
Lemma any_case_name e cap t m : proper cap -> Forall2 same_letter cap t -> (3 <= List.length cap <= 50)%nat ->
  month_lookup e cap = Some m -> 1 <= m <= 12 -> month_name e t m.
Proof.
  intros P F L K B. destruct (same_len _ _ F) as [LN LT]. constructor; [lia|exact LT| |exact B].
  rewrite (capitalize_proper cap t P F). exact K.
Qed.

Lemma solid_text (a b c : text) : a <> [] -> c <> [] -> Forall (fun x => ~ white x) a -> Forall (fun x => ~ white x) c -> says (VStr (a ++ b ++ c)) (a ++ b ++ c).
Proof.
  intros A C FA FC. constructor. pose proof (sd_text [] (a ++ b ++ c) []) as H. cbn [app] in H. rewrite app_nil_r in H.
  apply H; [constructor|constructor|..].
  - intros x r E. destruct a as [|y a]; [congruence|]. injection E as <- _. inversion FA; assumption.
  - intros x r E. destruct (exists_last C) as (c' & z & ->). rewrite !app_assoc in E.
    apply app_inj_tail in E as [_ <-]. apply Forall_app in FC as [_ FC]. inversion FC; assumption.
Qed.
Lemma letters_solid t : Forall letter t -> Forall (fun x => ~ white x) t.
Proof. intros H. eapply Forall_impl; [|exact H]. intros c L W. unfold white in W. cbn in W. destruct L; lia. Qed.
Lemma year_solid yt y : year4 yt y -> yt <> [] /\ Forall (fun x => ~ white x) yt.
Proof.
  intros [u k L D _]. split; [destruct u; [discriminate|congruence]|]. apply decimal_iff in D as [D _].
  apply Forall_forall. intros c I W. rewrite forallb_forall in D. specialize (D c I). apply digit_iff in D. unfold white, digit in *. cbn in W. lia.
Qed.

(** ** C41 *)

(** [cap] is a name arrow knows, written with one capital letter, and [t] the same
    letters in any case: next to a year, before or after it, and alone, [t] is
    that month *)
Theorem C41_any_case e cap t m yt y last next : proper cap -> Forall2 same_letter cap t ->
  (3 <= List.length cap <= 50)%nat -> month_lookup e cap = Some m -> 1 <= m <= 12 ->
  year4 yt y -> real_last last ->
  reads e "M" SMonth1 (VStr (yt ++ T " " ++ t)) last next (mkdt y m 1 0) /\
  reads e "M" SMonth1 (VStr (t ++ T "-" ++ yt)) last next (mkdt y m 1 0) /\
  (forall l, last = Some l -> reads e "M" SMonth1 (VStr t) last next (mkdt (dt_y l) m 1 0)).
Proof.
  intros P F L K B Y R. pose proof (any_case_name e cap t m P F L K B) as N.
  destruct (same_len _ _ F) as [LN LT]. assert (NT : t <> []) by (destruct t; [cbn in LN; lia|discriminate]).
  pose proof (letters_solid t LT) as ST. destruct (year_solid yt y Y) as [NY SY].
  assert (NB : ~ begins letter []) by (intros (c & r & E & _); discriminate).
  split; [|split].
  - apply (month_reads e MName); [|exact R]. exists (yt ++ T " " ++ t), (Some y), m. split; [apply solid_text; assumption|].
    split; [|constructor]. rewrite <- (app_nil_r t) at 1.
    apply mt_year_name; [left; exact Y|apply jm_none, joint_blank; chars|exact N|exact NB].
  - apply (month_reads e MName); [|exact R]. exists (t ++ T "-" ++ yt), (Some y), m. split; [apply solid_text; assumption|].
    split; [|constructor]. rewrite <- (app_nil_r yt) at 1.
    apply (mt_name_year e t [] (T "-") yt []); [exact N|constructor| |left; exact Y].
    apply jm_none. apply (joint_sep [] "-"%char []); [constructor|cbn; tauto|constructor].
  - intros l E. apply (month_reads e MName); [|exact R]. exists t, None, m. split; [|split].
    + constructor. pose proof (sd_text [] t []) as H. cbn [app] in H. rewrite app_nil_r in H.
      apply H; [constructor|constructor|..].
      * intros x r X. subst t. inversion ST; assumption.
      * intros x r X. subst t. apply Forall_app in ST as [_ ST]. inversion ST; assumption.
    + rewrite <- (app_nil_r t). apply mt_name; [exact N|constructor|exact NB].
    + rewrite E. constructor.
Qed.
Print Assumptions C41_any_case.

Example C41_any_case_example :
  proper (T "Marzo") /\ Forall2 same_letter (T "Marzo") (T "mARzO") /\ month_lookup es_env (T "Marzo") = Some 3 /\
  parse_with_pool es_env (mktp true (T "M")) None (VStr (T "1991 mARzO")) None VNone = (Some SMonth1, Ok (mkdt 1991 3 1 0)).
Proof.
  split; [constructor; [unfold capital; cbn; lia|]; repeat (apply Forall_cons; [unfold small; cbn; lia|]); constructor|].
  split; [|split; vm_compute; reflexivity].
  repeat (apply Forall2_cons; [split; [apply letter_iff; reflexivity|]; split; [apply letter_iff; reflexivity|cbn; auto]|]); constructor.
Qed.
