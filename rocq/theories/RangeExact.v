(** pandas.date_range gives consecutive period starts back (C38). *)
From Verif Require Import Base BaseFacts Cal SpecCal CalFacts CalProofs SpecTime PeriodRange SpecFrames RangeProofs TimeFacts TimeProofs TimeProofs2 SpecEnd.
Local Open Scope Z_scope.

Section Gen.
Variables (step : datetime -> datetime) (en : datetime).
Inductive chain : datetime -> list datetime -> Prop :=
| ch_last : chain en []
| ch_next a l : not_later a en -> chain (step a) l -> chain a (step a :: l).
Lemma gen_chain a l : earlier en (step en) -> chain a l -> forall fuel, (S (List.length l) <= fuel)%nat -> gen_dates fuel step a en = a :: l.
Proof.
  intros E. induction 1 as [|a l N C IH]; intros fuel F; (destruct fuel as [|k]; [lia|]); cbn [gen_dates].
  - replace (dt_leb en en) with true by (symmetry; apply leb_spec; auto). f_equal. destruct k; auto. cbn [gen_dates].
    destruct (dt_leb (step en) en) eqn:L; auto. apply leb_spec in L. destruct L as [L|L]; [rewrite L in E; destruct (earlier_irrefl _ E)|].
    destruct (earlier_irrefl _ (earlier_trans _ _ _ E L)).
  - replace (dt_leb a en) with true by (symmetry; apply leb_spec; exact N). f_equal. apply IH. cbn in F. lia.
Qed.
End Gen.

Lemma add_days_after k a b : real_date a -> days_after k a b -> add_days a (Z.of_nat k) = b.
Proof.
  intros R D. pose proof (real_day_ok _ R) as K. destruct (days_after_ord _ _ _ K D) as (K' & O & S & Y). unfold add_days. rewrite <- O. unfold dt_ord. rewrite ord2ymd2ord by auto.
  rewrite <- S. destruct b; auto.
Qed.
Lemma month_begin_after k a b : dt_d a = 1 -> months_after k a b -> month_begin a k = b.
Proof.
  intros D (A & B & C & len & L & E). unfold month_begin. cbn zeta. replace (dt_y a * 12 + (dt_m a - 1) + k) with (dt_y b * 12 + dt_m b - 1) by lia.
  apply month_length_range in L. apply dt_ext; cbn [dt_y dt_m dt_d dt_s]; lia.
Qed.
Definition starts_month (f : string) (d : datetime) : Prop := period_months f <> None -> dt_d d = 1.
Lemma start_month f d : period_start f d -> starts_month f d.
Proof.
  unfold starts_month, period_months. destruct (string_dec f "M") as [->|_]; [cbn; auto|]. destruct (string_dec f "Q") as [->|_]; [cbn; tauto|].
  destruct (string_dec f "A") as [->|_]; [cbn; tauto|]. congruence.
Qed.
Lemma next_starts f a b : real_date a -> starts_month f a -> one_period f a b -> starts_month f b.
Proof.
  intros R S H P. destruct H as [k K _|k K (A & B & C & len & L & E)].
  - exfalso. apply P. unfold period_days, period_months in *. destruct (string_dec f "D") as [->|]; [reflexivity|]. destruct (string_dec f "W") as [->|]; [reflexivity|discriminate].
  - specialize (S P). apply month_length_range in L. lia.
Qed.
Definition step_of (f : string) (d : datetime) : datetime :=
  match period_days f, period_months f with
  | Some k, _ => add_days d (Z.of_nat k)
  | _, Some k => month_begin d k
  | _, _ => d
  end.
Lemma step_period f a b : real_date a -> starts_month f a -> one_period f a b -> step_of f a = b.
Proof.
  intros R S H. unfold step_of. destruct H as [k K D|k K D].
  - rewrite K. apply add_days_after; auto.
  - destruct (period_days f) eqn:PD.
    + unfold period_days, period_months in *. destruct (string_dec f "D") as [->|]; [discriminate|]. destruct (string_dec f "W") as [->|]; discriminate.
    + rewrite K. apply month_begin_after; auto. apply S. congruence.
Qed.
Lemma period_earlier f a b : real_date a -> real_date b -> one_period f a b -> dt_ord a < dt_ord b /\ earlier a b.
Proof.
  intros R R' H. assert (E : earlier a b) by (pose proof (period_step f a b R R' H) as P; eapply increment_earlier; [|exact R|exact P]; lia).
  split; auto. pose proof (real_day_ok _ R) as K. pose proof (real_day_ok _ R') as K'.
  destruct H as [k P H|k P H].
  - destruct (days_after_ord _ _ _ K H) as (_ & O & _). assert (0 < k)%nat; [|lia]. unfold period_days in P.
    destruct (string_dec f "D"); [inversion P; lia|]. destruct (string_dec f "W"); inversion P; lia.
  - apply (ord_lt _ _ _ _ _ _ K K'). destruct H as (A & B & _). pose proof (real_month a R).
    assert (0 < k); [|lia]. unfold period_months in P. destruct (string_dec f "M"); [inversion P; lia|]. destruct (string_dec f "Q"); [inversion P; lia|].
    destruct (string_dec f "A"); inversion P; lia.
Qed.
Lemma last_any {A} (l : list A) : forall y a b, List.last (y :: l) a = List.last (y :: l) b.
Proof. induction l as [|z l IH]; intros y a b; auto. change (List.last (z :: l) a = List.last (z :: l) b). apply IH. Qed.
Lemma consecutive_facts f ds : consecutive f ds -> Forall real_date ds -> forall a l, ds = a :: l -> starts_month f a ->
  chain (step_of f) (List.last ds a) a l /\ dt_ord a + Z.of_nat (List.length l) <= dt_ord (List.last ds a) /\ not_later a (List.last ds a) /\
  real_date (List.last ds a) /\ starts_month f (List.last ds a).
Proof.
  induction 1 as [d|x y l0 P C IH]; intros FR a l E S.
  - inversion E; subst a l. cbn. assert (R : real_date d) by (inversion FR; auto). split; [apply ch_last|]. split; [lia|]. split; [left; reflexivity|]. split; assumption.
  - inversion E; subst a l. clear E. inversion FR as [|? ? R FR']; subst. assert (R' : real_date y) by (inversion FR'; auto).
    destruct (IH FR' y l0 eq_refl (next_starts f x y R S P)) as (C1 & O1 & N1 & RL & SL).
    pose proof (period_earlier f x y R R' P) as [O2 E2].
    assert (EL : List.last (x :: y :: l0) x = List.last (y :: l0) y).
    { change (List.last (x :: y :: l0) x) with (List.last (y :: l0) x). apply last_any. }
    rewrite EL. split; [|split; [|split; [|split]]]; auto.
    + pose proof (step_period f x y R S P) as SP. set (en := List.last (y :: l0) y) in *. clearbody en. subst y. constructor; [|exact C1].
      right. destruct N1 as [<-|N1]; auto. eapply earlier_trans; eauto.
    + cbn [List.length]. lia.
    + right. destruct N1 as [<-|N1]; auto. eapply earlier_trans; eauto.
Qed.
Lemma step_later f d : periodic f -> real_date d -> starts_month f d -> earlier d (step_of f d).
Proof.
  intros PF R S. pose proof (real_day_ok _ R) as K.
  assert (AD : forall k, 0 < k -> earlier d (add_days d k)).
  { intros k L. assert (O := ord_lower _ _ _ K ltac:(destruct R; lia)). fold (dt_ord d) in O.
    rewrite <- (at_ord_of d K) at 2. rewrite add_days_ord by lia. destruct (at_ord_facts (dt_ord d + k) (dt_s d) ltac:(lia)) as (K' & O' & _).
    apply ord_order; auto. lia. }
  assert (MB : forall k, 0 < k -> period_months f <> None -> earlier d (month_begin d k)).
  { intros k L P. specialize (S P). rewrite month_begin_at. rewrite <- (at_month_of d) at 1 by (auto using real_month). apply at_month_earlier. lia. }
  destruct PF as [<-|[<-|[<-|[<-|[<-|[]]]]]].
  - change (earlier d (add_days d 1)). apply AD. lia.
  - change (earlier d (add_days d 7)). apply AD. lia.
  - change (earlier d (month_begin d 1)). apply MB; [lia|discriminate].
  - change (earlier d (month_begin d 3)). apply MB; [lia|discriminate].
  - change (earlier d (month_begin d 12)). apply MB; [lia|discriminate].
Qed.

Lemma range_exact f a l : periodic f -> consecutive f (a :: l) -> Forall real_date (a :: l) -> period_start f a ->
  exists n, pandas_name f n /\ date_range a (List.last (a :: l) a) (T f) = Ok (mkpr (T n) (a :: l)).
Proof.
  intros PF C R PS. destruct (consecutive_facts f _ C R a l eq_refl (start_month f a PS)) as (CH & O & NL & RL & SL).
  set (en := List.last (a :: l) a) in *. pose proof (step_later f en PF RL SL) as SE.
  assert (RA : real_date a) by (inversion R; auto). pose proof (real_day_ok _ RA) as K.
  assert (G := gen_chain (step_of f) en a l SE CH (Z.to_nat (dt_ord en - dt_ord a + 1)) ltac:(lia)).
  set (k := Z.to_nat _) in G. clearbody en. assert (EK : k = Z.to_nat (dt_ord en - dt_ord a + 1)) by reflexivity. clearbody k. unfold date_range. rewrite <- EK. clear EK O.
  destruct PF as [<-|[<-|[<-|[<-|[<-|[]]]]]].
  - exists "D"%string. split; [constructor|]. rewrite <- G. reflexivity.
  - exists "W-SUN"%string. split; [constructor|]. rewrite <- G. replace (roll_sunday a) with a; [reflexivity|].
    apply sunday_iff in PS; auto. unfold roll_sunday. rewrite PS. change ((6 - 6) mod 7) with 0. unfold add_days. rewrite Z.add_0_r.
    symmetry. exact (at_ord_of a K).
  - exists "MS"%string. split; [constructor|]. rewrite <- G. replace (roll_month a) with a; [reflexivity|]. unfold roll_month. cbn in PS. rewrite PS. reflexivity.
  - exists "QS-JAN"%string. split; [constructor|]. rewrite <- G. replace (roll_quarter a) with a; [reflexivity|]. unfold roll_quarter. cbn in PS. destruct PS as [-> PS].
    replace ((dt_m a - 1) mod 3 =? 0) with true by (destruct PS as [<-|[<-|[<-|[<-|[]]]]]; reflexivity). reflexivity.
  - exists "AS-JAN"%string. split; [constructor|]. rewrite <- G. replace (roll_year a) with a; [reflexivity|]. unfold roll_year. cbn in PS. destruct PS as [-> ->]. reflexivity.
Qed.
