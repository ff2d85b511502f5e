(** Facts about the parsing expressions of Peg.v and the characters of the
    time texts. *)
From Coq Require Import ZifyBool ZifyNat ZifyN.
From Verif Require Import Base BaseFacts CoordFacts Cal Peg ParseTime TimeIndex SpecCal SpecTime SpecData SpecParse TimeProofs NumberFacts DataFacts TextProofs.
Local Open Scope Z_scope.

(** ** Repetitions *)

(** the text does not begin with a character of the class *)
Definition stops (f : ascii -> bool) (t : text) : bool := match t with c :: _ => negb (f c) | [] => true end.
Lemma take_stops f t : stops f t = true -> take_while f t = [].
Proof. destruct t as [|c t]; cbn; auto. destruct (f c); cbn; [discriminate|auto]. Qed.
Lemma drop_stops f t : stops f t = true -> drop_while f t = t.
Proof. destruct t as [|c t]; cbn; auto. destruct (f c); cbn; [discriminate|auto]. Qed.
Lemma drop_app f a b : forallb f a = true -> drop_while f (a ++ b) = drop_while f b.
Proof. induction a as [|c a IH]; cbn; auto. destruct (f c); cbn; [auto|discriminate]. Qed.
Lemma take_app f a b : forallb f a = true -> take_while f (a ++ b) = a ++ take_while f b.
Proof. induction a as [|c a IH]; cbn; auto. destruct (f c); cbn; [intros; f_equal; auto|discriminate]. Qed.
Lemma drop_ends f t : stops f (drop_while f t) = true.
Proof. induction t as [|c t IH]; cbn; auto. destruct (f c) eqn:E; auto. cbn. rewrite E. auto. Qed.
Lemma drop_suffix f t : exists a, t = a ++ drop_while f t /\ forallb f a = true.
Proof.
  induction t as [|c t (a & E & A)]; cbn; [exists []; auto|]. destruct (f c) eqn:F; [|exists []; auto].
  exists (c :: a). cbn. rewrite F, <- E. auto.
Qed.
Lemma pmany_app f a b : forallb f a = true -> stops f b = true -> pmany f (a ++ b) = POk a b.
Proof. intros A B. unfold pmany. rewrite take_app, drop_app, take_stops, drop_stops, app_nil_r by auto. auto. Qed.
Lemma pmany_stops f t : stops f t = true -> pmany f t = POk [] t.
Proof. intros B. exact (pmany_app f [] t eq_refl B). Qed.
Lemma pws_app a b : forallb is_space a = true -> stops is_space b = true -> pws (a ++ b) = POk a b.
Proof. apply pmany_app. Qed.
Lemma pws_stops b : stops is_space b = true -> pws b = POk [] b.
Proof. apply pmany_stops. Qed.

Lemma span_app f a : forall n b, forallb f a = true -> (List.length a <= n)%nat -> (List.length a = n \/ stops f b = true) ->
  span_max n f (a ++ b) = (a, b).
Proof.
  induction a as [|c a IH]; intros n b A L E.
  - cbn. destruct n as [|n]; [destruct b; auto|]. destruct E as [E|E]; [discriminate|]. destruct b as [|x b]; cbn in *; auto.
    destruct (f x); [discriminate|auto].
  - cbn in A. apply andb_true_iff in A as [F A]. destruct n as [|n]; cbn in L; [lia|]. cbn. rewrite F.
    rewrite IH; auto; [lia|]. destruct E as [E|E]; [left; cbn in E; lia|auto].
Qed.
Lemma prep_app lo hi f a b : forallb f a = true -> (lo <= List.length a <= hi)%nat -> (List.length a = hi \/ stops f b = true) ->
  prep lo hi f (a ++ b) = POk a b.
Proof. intros A L E. unfold prep. rewrite span_app by (auto; lia). replace (Nat.leb lo (List.length a)) with true by lia. auto. Qed.
Lemma prep_short lo hi f a b : forallb f a = true -> (List.length a < lo)%nat -> (lo <= hi)%nat -> stops f b = true -> prep lo hi f (a ++ b) = PFail.
Proof. intros A L H E. unfold prep. rewrite span_app by (auto; lia). replace (Nat.leb lo (List.length a)) with false by lia. auto. Qed.
Lemma prep_stops lo hi f b : stops f b = true -> (0 < lo <= hi)%nat -> prep lo hi f b = PFail.
Proof. intros E H. apply (prep_short lo hi f [] b); cbn; auto; lia. Qed.
Lemma prep0 n t : (List.length t <= n)%nat -> prep 0 n anything t = POk t [].
Proof.
  intros L. rewrite <- (app_nil_r t) at 1. apply prep_app; auto; [|lia]. clear L. induction t; cbn; auto.
Qed.
Lemma plit_head c t : plit c (c :: t) = POk c t.
Proof. unfold plit, pch. replace (ch_eqb c c) with true; auto. symmetry. apply ch_eqb_eq. auto. Qed.
Lemma plit_stops c t : stops (fun x => ch_eqb x c) t = true -> plit c t = PFail.
Proof. unfold plit, pch. destruct t as [|x t]; cbn; auto. destruct (ch_eqb x c); [discriminate|auto]. Qed.
Lemma pch_stops f t : stops f t = true -> pch f t = PFail.
Proof. unfold pch. destruct t as [|x t]; cbn; auto. destruct (f x); [discriminate|auto]. Qed.

(** ** Characters *)
Lemma implb_out p q : implb p q = true -> p = true -> q = true.
Proof. destruct p, q; auto. Qed.
Ltac bytes := let x := fresh in let H := fresh in
  match goal with |- forall c, @?P c = true -> @?Q c = false =>
    intros x H; apply negb_true_iff; revert H; apply implb_out;
    exact (byte_check (fun c => implb (P c) (negb (Q c))) ltac:(vm_compute; reflexivity) x)
  | |- forall c, @?P c = true -> @?Q c = true =>
    intros x; apply implb_out;
    exact (byte_check (fun c => implb (P c) (Q c)) ltac:(vm_compute; reflexivity) x)
  end.
Lemma stops_app f g a b : forallb g a = true -> a <> [] -> (forall c, g c = true -> f c = false) -> stops f (a ++ b) = true.
Proof. destruct a as [|c a]; [congruence|]. cbn. intros A _ H. apply andb_true_iff in A as [A _]. rewrite (H c A). auto. Qed.
Lemma stops_app2 f g a b : forallb g a = true -> (forall c, g c = true -> f c = false) -> stops f b = true -> stops f (a ++ b) = true.
Proof. intros A H B. destruct a as [|c a]; auto. apply (stops_app f g); auto. discriminate. Qed.
Lemma forallb_imp (f g : ascii -> bool) t : (forall c, f c = true -> g c = true) -> forallb f t = true -> forallb g t = true.
Proof. intros H. rewrite !forallb_forall. auto. Qed.

Lemma ch_in_iff c t : ch_in c t = true <-> In c t.
Proof.
  unfold ch_in. rewrite existsb_exists. split.
  - intros (x & I & E). apply ch_eqb_eq in E. subst. auto.
  - intros I. exists c. split; auto. apply ch_eqb_eq. auto.
Qed.
Lemma in_set_iff s c : in_set s c = true <-> among s c.
Proof. apply ch_in_iff. Qed.
Lemma not_in_iff s c : not_in s c = true <-> ~ among s c.
Proof. unfold not_in, among. rewrite negb_true_iff, <- not_true_iff_false, ch_in_iff. tauto. Qed.
Lemma letter_iff c : letter c <-> is_letter c = true.
Proof.
  unfold is_letter, is_upper, is_lower, code. rewrite orb_true_iff, !andb_true_iff, !Z.leb_le. unfold nat_of_ascii. split.
  - intros [x L|x L]; unfold nat_of_ascii in L; [left|right]; lia.
  - intros [L|L]; [apply lt_upper|apply lt_lower]; unfold nat_of_ascii; lia.
Qed.
Lemma forall_b (P : ascii -> Prop) f t : (forall c, P c <-> f c = true) -> Forall P t <-> forallb f t = true.
Proof. intros H. rewrite Forall_forall, forallb_forall. split; intros K c I; apply H; auto. Qed.
Lemma begins_stops (P : ascii -> Prop) f t : (forall c, P c <-> f c = true) -> ~ begins P t <-> stops f t = true.
Proof.
  intros H. destruct t as [|c t]; cbn.
  - split; auto. intros _ (c & r & Q & _). discriminate.
  - rewrite negb_true_iff, <- not_true_iff_false, <- H. split.
    + intros N C. apply N. exists c, t. auto.
    + intros N (x & r & Q & C). inversion Q; subst. auto.
Qed.

Definition filler_b := forallb not_d_or_q.
Lemma filler_iff t : filler t <-> filler_b t = true.
Proof. apply forall_b. intros c. symmetry. apply not_in_iff. Qed.
Lemma plain_iff t : plain t <-> forallb not_d_or_p t = true.
Proof. apply forall_b. intros c. symmetry. apply not_in_iff. Qed.
Lemma nodigit_iff t : no_digit t <-> forallb not_digit t = true.
Proof.
  apply forall_b. intros c. rewrite digit_iff. revert c.
  intros c. pose proof (byte_check (fun c => Bool.eqb (negb (is_digit c)) (not_digit c)) ltac:(vm_compute; reflexivity) c) as H. cbv beta in H.
  destruct (is_digit c), (not_digit c); cbn in H; try discriminate; split; congruence.
Qed.

(** ** Years, numerals *)
Lemma year4_facts t y : year4 t y -> forallb is_digit t = true /\ List.length t = 4%nat /\ int_of t = y /\ 1 <= y <= 9999 /\ t <> [].
Proof.
  intros [u z L D Y]. apply NumberFacts.decimal_iff in D as [D V]. split; [auto|]. split; [auto|]. split; [exact V|]. split; [|destruct u; [discriminate|congruence]].
  split; auto. rewrite <- V. destruct u as [|a [|b [|c [|d [|x u]]]]]; try discriminate. cbn in D. unfold digits_val, digit_val, is_digit in *.
  cbn [fold_left]. lia.
Qed.
Lemma year2_facts t y : year2 t y -> forallb is_digit t = true /\ List.length t = 2%nat /\ dob_year_to_four t = Ok (Some y) /\ 1969 <= y <= 2068 /\ t <> [].
Proof.
  intros [u z L D Y]. apply NumberFacts.decimal_iff in D as [D V]. split; [auto|]. split; [auto|]. split; [|split; [lia|destruct u; [discriminate|congruence]]].
  destruct u as [|a [|b [|x u]]]; try discriminate. cbn in D. cbn [dob_year_to_four].
  destruct (is_digit a); [|discriminate]. destruct (is_digit b); [|discriminate]. cbn [andb]. rewrite V.
  do 2 f_equal. pose proof (Z.div_mod z 100 ltac:(lia)). pose proof (Z.mod_pos_bound z 100 ltac:(lia)).
  destruct (Z.leb_spec (z mod 100) 68); assert (z / 100 = 19 \/ z / 100 = 20) by (Z.div_mod_to_equations; lia); lia.
Qed.
Lemma year4_dob t y : year4 t y -> dob_year_to_four t = Ok (Some y).
Proof.
  intros Y. destruct (year4_facts t y Y) as (D & L & V & B & _). destruct t as [|a [|b [|c [|d [|x t]]]]]; try discriminate.
  cbn [dob_year_to_four].
  assert (Q : py_int_of_text [a; b; c; d] = Ok y); [|rewrite Q; cbn; unfold nz; destruct (Z.eqb_spec y 0); [lia|auto]].
  unfold py_int_of_text. rewrite strip_tight.
  - cbn in D. unfold take_sign.
    assert (N : ch_eqb a "-" = false /\ ch_eqb a "+" = false) by (destruct (is_digit a) eqn:E; [|discriminate]; clear -E; revert a E;
      split; revert a E; bytes).
    destruct N as [N1 N2]. rewrite ?N1, ?N2.
    assert (U : digits [a; b; c; d] [a; b; c; d]).
    { apply digits_of; auto. discriminate. }
    apply under_false in U. rewrite U. unfold int_of in V. rewrite V. reflexivity.
  - cbn in D. unfold tight. cbn. destruct (is_digit a) eqn:Ea, (is_digit b) eqn:Eb, (is_digit c) eqn:Ec, (is_digit d) eqn:Ed; try discriminate.
    assert (S : forall c, is_digit c = true -> is_space c = false) by bytes. auto.
Qed.
Lemma roman_facts t q : roman t q -> forallb is_IV t = true /\ (1 <= List.length t <= 3)%nat /\ q_to_m t = Ok (Some (3 * q - 2)) /\
  (q <= 2 -> s_to_m t = Ok (Some (6 * q - 5))) /\ t <> [] /\ 1 <= q <= 4.
Proof. intros []; (split; [reflexivity|]); (split; [cbn; lia|]); (split; [vm_compute; reflexivity|]); (split; [intros; try lia; vm_compute; reflexivity|]); (split; [discriminate|lia]). Qed.
Lemma number4_facts t q : number4 t q -> exists c, t = [c] /\ is_digit c = true /\ in_set "1234" c = true /\ digit_val c = q /\ q_to_m_int q = Some (3 * q - 2) /\ 1 <= q <= 4.
Proof. intros []; eexists; (split; [reflexivity|]); repeat split; try reflexivity; lia. Qed.
