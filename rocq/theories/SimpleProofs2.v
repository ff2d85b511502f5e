(** Simple dates and their neighbours (C45). *)
From Coq Require Import ZifyBool ZifyNat ZifyN.
From Verif Require Import Base BaseFacts CoordFacts Coord Params Cal CalFacts CalProofs Peg ParseTime TimeIndex SpecCal SpecCoord SpecCoordFacts SpecTime SpecData SpecParse SpecSimple TimeFacts TimeProofs
  TimeProofs2 NumberFacts DataFacts TextProofs HeaderFacts ParseFacts PoolProofs IndexWalk IndexTexts ComposedProofs SimpleProofs.
Local Open Scope Z_scope.

Lemma text_denotes e g t d : simple_parse_text e g t = Ok d -> denotes e t d /\ g d = Ok true.
Proof.
  unfold simple_parse_text, simple_candidates. destruct (split_ch "-" (dashes t)) as [|a [|b [|c [|]]]] eqn:SP; try discriminate.
  cbn [bind]. apply parts_iff in SP. intros H.
  assert (K : forall l, pick g l = Ok d -> In (Ok d) l /\ g d = Ok true).
  { induction l as [|[x|x] l IH]; cbn [pick]; [discriminate| |intros Q; apply IH in Q as [Q1 Q2]; cbn; auto].
    destruct (g x) as [[]|] eqn:G; cbn [bind]; try discriminate; [intros Q; injection Q as <-; cbn; auto|intros Q; apply IH in Q as [Q1 Q2]; cbn; auto]. }
  apply K in H as [I G]. split; auto. exists a, b, c. split; auto.
  destruct I as [I|[I|[I|[]]]]; apply get_iff in I as (dd & m & y & D & M & Y & -> & R); (split; [|auto]); [apply od_dmy|apply od_mdy|apply od_ymd]; auto.
Qed.
Lemma twenty f a : real_date a -> periodic f -> (forall x, increment_time a 20 (T f) = Ok x -> periods_after f 20 a x) /\
  (dt_y a < 9979 -> exists x, increment_time a 20 (T f) = Ok x) /\
  forall x m, increment_time a 20 (T f) = Ok x -> periods_after f 20 a m -> m = x.
Proof.
  intros R P. pose proof R as (YR & SR & _). pose proof (real_day_ok _ R) as K. destruct K as [MM DD].
  assert (C : (exists k, period_days f = Some k) \/ (exists k, period_months f = Some k)).
  { destruct P as [<-|[<-|[<-|[<-|[<-|[]]]]]]; [left|left|right|right|right]; vm_compute; eauto. }
  split; [|split].
  - intros x X. destruct C as [[k C]|[k C]].
    + apply (pa_days f 20 a x k C). apply (days_iff f k a 20); auto.
    + apply (pa_months f 20 a x k C). apply (months_iff f k a 20); auto.
  - intros Y. pose proof (ord_9998 a R ltac:(lia)) as O. pose proof (secs_lo a R) as LO.
    assert (SEC : forall k, 0 <= k <= 140 * 86400 -> exists t', add_seconds a k = Ok t').
    { intros k B. apply add_seconds_total; auto; [lia|]. unfold dt_secs. lia. }
    assert (MON : forall k, 0 <= k <= 240 -> exists t', add_months a k = Ok t').
    { intros k B. unfold add_months. replace ((1 <=? _) && _) with true; eauto. symmetry. apply andb_true_intro. split; divs. }
    unfold increment_time. destruct P as [<-|[<-|[<-|[<-|[<-|[]]]]]]; cbn; first [apply SEC; lia|apply MON; lia].
  - intros x m X PA. destruct C as [[k C]|[k C]].
    + apply (days_iff f k a 20) in X as [X _]; auto. assert (M : days_after (20 * k) a m).
      { destruct PA as [k' C' M|k' C' M]; [replace k with k' by congruence; auto|exfalso].
        destruct P as [<-|[<-|[<-|[<-|[<-|[]]]]]]; vm_compute in C, C'; discriminate. }
      destruct (days_after_ord _ _ _ (real_day_ok _ R) X) as [K1 [O1 [S1 _]]]. destruct (days_after_ord _ _ _ (real_day_ok _ R) M) as [K2 [O2 [S2 _]]].
      assert (E : dt_ord m = dt_ord x) by lia. apply ord_inj in E as [? [? ?]]; auto. apply dt_ext; auto. congruence.
    + apply (months_iff f k a 20) in X as [X _]; auto. assert (M : months_after (20 * k) a m).
      { destruct PA as [k' C' M|k' C' M]; [exfalso|replace k with k' by congruence; auto].
        destruct P as [<-|[<-|[<-|[<-|[<-|[]]]]]]; vm_compute in C, C'; discriminate. }
      eapply months_det; eauto.
Qed.
Lemma leb_not a b : dt_leb a b = true <-> ~ earlier b a.
Proof.
  rewrite leb_spec. split.
  - intros [-> |E] H; [apply (earlier_irrefl _ H)|apply (earlier_irrefl _ (earlier_trans _ _ _ E H))].
  - intros N. destruct (earlier_total a b) as [E|[E|E]]; auto. contradiction.
Qed.
Lemma soon_iff f a b mx : real_date a -> periodic f -> increment_time a 20 (T f) = Ok mx -> (soon_after f a b <-> dt_ltb a b && dt_leb b mx = true).
Proof.
  intros R P I. destruct (twenty f a R P) as (T1 & _ & T3). rewrite andb_true_iff, ltb_earlier, leb_not. split.
  - intros [E (m & PA & N)]. rewrite <- (T3 mx m I PA). auto.
  - intros [E N]. split; auto. exists mx. auto.
Qed.
Lemma one_soon f a b : real_date a -> real_date b -> dt_y a < 9979 -> periodic f -> one_period f a b -> soon_after f a b.
Proof.
  intros RA RB Y P O. apply period_step in O; auto. destruct (twenty f a RA P) as (_ & T2 & _). destruct (T2 Y) as [mx MX].
  rewrite (soon_iff f a b mx) by auto. rewrite andb_true_iff, ltb_earlier, leb_spec. split; [apply (increment_earlier a 1 (T f)); auto; lia|].
  right. exact (increment_mono (T f) a 1 20 b mx RA ltac:(lia) O MX).
Qed.

Lemma sense_last_sound f last d : real_last last -> periodic f -> sense_last (T f) last d = Ok true -> forall l, last = Some l -> soon_after f l d.
Proof.
  intros RL P H l ->. unfold sense_last in H. unfold MAX_IMPL in H. destruct (increment_time l 20 (T f)) as [mx|] eqn:I; [|discriminate]. cbn [bind] in H.
  injection H as H. apply (soon_iff f l d mx); auto.
Qed.
Lemma not_nothing v : truthy v = false <-> nothing v.
Proof.
  unfold nothing. split.
  - destruct v as [|b|z|x|t|x|x|x|x]; cbn; try discriminate; auto.
    + intros ->. auto.
    + intros H. assert (z = 0) by lia. subst. auto.
    + destruct x as [[]| | |]; try discriminate; intros; auto 7.
    + destruct t; [auto|discriminate].
    + destruct x; [auto 9|discriminate].
    + destruct x; [auto 10|discriminate].
  - intros H. cbn in H. repeat destruct H as [<-|H]; try reflexivity. contradiction.
Qed.
Lemma digit_unseparated u : forallb is_digit u = true -> unseparated u.
Proof.
  intros D. rewrite forallb_forall in D. apply Forall_forall. intros c I S. apply D in I. destruct S as [<-|[<-|[<-|[]]]]; discriminate.
Qed.
Lemma number_fails e g z : simple_parse_text e g (Z_text z) = Err EAssert.
Proof.
  unfold simple_parse_text, simple_candidates. rewrite dashes_map. destruct (Z_lt_ge_dec z 0) as [N|N].
  - destruct z as [|p|p]; try lia. cbn [Z_text map]. change (dash "-") with "-"%char. rewrite (proj1 (dashes_self _ (digit_unseparated _ (uint_text_digits _)))).
    cbn [split_ch]. change (ch_eqb "-" "-") with true. cbv iota. rewrite split_none; [reflexivity|]. apply dashes_self. apply digit_unseparated. apply uint_text_digits.
  - pose proof (digit_unseparated _ (Z_text_digits z ltac:(lia))) as U. destruct (dashes_self _ U) as [-> I]. rewrite split_none; auto.
Qed.
Lemma simple_value e g n x : parse_value e (simple_parse_text e g) n = Ok x -> n = VDate x \/ next_date e n x /\ g x = Ok true.
Proof.
  intros H. destruct n as [|b|z|f|t|d|l|l|t]; cbn in H; try discriminate.
  - exfalso. destruct b; discriminate.
  - rewrite number_fails in H. discriminate.
  - destruct (trunc_float f) as [z|] eqn:F; cbn [bind] in H; [rewrite number_fails in H|]; apply text_denotes in H as [M G]; right; split; auto; constructor; auto.
  - apply text_denotes in H as [M G]. right. split; [constructor; exists (strip t); split; [apply stripped_iff; auto|auto]|auto].
  - injection H as ->. auto.
Qed.
Lemma denotes_real e u d : denotes e u d -> real_date d.
Proof. intros (a & b & c & _ & _ & R). auto. Qed.
Lemma sense_sound e f last next d : real_last last -> periodic f -> real_date d -> (forall n, next = VDate n -> real_date n) -> sense e (T f) last next d = Ok true ->
  (forall l, last = Some l -> soon_after f l d) /\ (~ nothing next -> exists n, next_date e next n /\ soon_after f d n).
Proof.
  intros RL P RD RN H. unfold sense in H. destruct (sense_last (T f) last d) as [a|] eqn:SL; [|discriminate]. cbn [bind] in H.
  destruct (truthy next) eqn:TN.
  - destruct (simple_parse1 e (T f) (Some d) next) as [n|x] eqn:SP; [|destruct x; discriminate].
    unfold MAX_IMPL in H. destruct (increment_time d 20 (T f)) as [mx|] eqn:I; [|discriminate]. cbn [bind] in H. injection H as H.
    assert (A : a = true) by (destruct a; auto; discriminate). subst a. split; [apply (sense_last_sound f last d); auto|].
    intros _. exists n. split; [apply simple_value in SP as [-> |[SP _]]; [constructor|auto]|]. apply (soon_iff f d n mx); auto.
  - injection H as ->. split; [apply (sense_last_sound f last d); auto|]. intros N. destruct N. apply not_nothing. auto.
Qed.

Lemma simple_pool e f chosen t last next : chosen = None \/ chosen = Some SSimple ->
  exists c, parse_with_pool e (mktp false (T f)) chosen (VStr t) last next = (c, parse_time e (mktp false (T f)) SSimple (VStr t) last next) /\
    (parse_time e (mktp false (T f)) SSimple (VStr t) last next <> Err EDay -> c = Some SSimple).
Proof.
  intros C. assert (PL : forall st, pool_loop e (mktp false (T f)) strategies st (VStr t) last next = (Some SSimple, parse_time e (mktp false (T f)) SSimple (VStr t) last next)) by reflexivity.
  unfold parse_with_pool. destruct C as [-> | ->].
  - rewrite PL. eauto.
  - rewrite PL. destruct (parse_time e (mktp false (T f)) SSimple (VStr t) last next) as [d|x] eqn:E; [eauto|]. destruct x; eauto.
Qed.
Lemma c45_sound e f chosen c t last next d : periodic f -> real_last last -> (forall n, next = VDate n -> real_date n) -> chosen = None \/ chosen = Some SSimple ->
  parse_with_pool e (mktp false (T f)) chosen (VStr t) last next = (c, Ok d) ->
  may_denote e t d /\ (forall l, last = Some l -> soon_after f l d) /\ (~ nothing next -> exists n, next_date e next n /\ soon_after f d n).
Proof.
  intros P RL RN C H. destruct (simple_pool e f chosen t last next C) as (c' & H' & _). rewrite H in H'. injection H' as _ H'. symmetry in H'.
  cbn [parse_time parse_value] in H'. apply text_denotes in H' as [M G]. split; [exists (strip t); split; [apply stripped_iff; auto|auto]|].
  apply (sense_sound e f last next d); auto. apply (denotes_real e (strip t)). auto.
Qed.

(** ** dates written day-month-year or year-month-day *)
Lemma written_pick e g v d : written e v d -> g d = Ok true -> exists t, v = VStr t /\ simple_parse_text e g (strip t) = Ok d.
Proof.
  intros W G. inversion W as [t u a b c dd m y TR PA A B C R|t u a b c dd m y TR PA A B C R]; subst; exists t; (split; [auto|]);
    apply stripped_iff in TR; cbn in TR; injection TR as ->; unfold simple_parse_text, simple_candidates; apply parts_iff in PA; rewrite PA; cbn [bind].
  - assert (Q : arrow_get e false a b c = Ok (mkdt y m dd 0)) by (apply get_iff; exists dd, m, y; auto). cbn [pick]. rewrite Q, G. auto.
  - assert (Q : arrow_get e false c b a = Ok (mkdt y m dd 0)) by (apply get_iff; exists dd, m, y; repeat split; auto; try apply R; destruct A as [a' y' L D Y]; apply yp_four; auto).
    destruct A as [a' y' L D Y]. apply decimal_iff in D as [D V].
    assert (E1 : exists x, arrow_get e false a' b c = Err x). { unfold arrow_get. unfold match_day at 1. rewrite L. cbn [bind]. eauto. }
    assert (E2 : exists x, arrow_get e true b a' c = Err x).
    { unfold arrow_get. destruct (match_day b); cbn [bind]; eauto. unfold match_month. rewrite L, D. cbn [bind]. eauto. }
    destruct E1 as [x1 E1], E2 as [x2 E2]. rewrite E1, E2, Q. cbn [pick]. rewrite G. auto.
Qed.
Lemma written_real e v d : written e v d -> real_date d.
Proof. intros [t u a b c dd m y TR PA A B C R|t u a b c dd m y TR PA A B C R]; auto. Qed.
Lemma sense_last_ok f last d : real_last last -> periodic f -> (forall l, last = Some l -> soon_after f l d /\ dt_y l < 9979) -> sense_last (T f) last d = Ok true.
Proof.
  intros RL P H. destruct last as [l|]; [|reflexivity]. destruct (H l eq_refl) as [S Y]. destruct (twenty f l (RL l eq_refl) P) as (_ & T2 & _).
  destruct (T2 Y) as [mx MX]. unfold sense_last, MAX_IMPL. rewrite MX. cbn [bind]. f_equal. apply (soon_iff f l d mx); auto.
Qed.
Lemma sense_ok e f last next d : real_last last -> real_date d -> dt_y d < 9979 -> periodic f -> (forall l, last = Some l -> soon_after f l d /\ dt_y l < 9979) ->
  nothing next \/ (exists n, written e next n /\ soon_after f d n) -> sense e (T f) last next d = Ok true.
Proof.
  intros RL RD Y P L N. unfold sense. rewrite (sense_last_ok f last d) by auto. cbn [bind]. destruct N as [N|(n & W & S)].
  - apply not_nothing in N. rewrite N. auto.
  - destruct (written_pick e (sense_last (T f) (Some d)) next n W) as (t & -> & SP).
    { apply sense_last_ok; auto; [intros l E; injection E as <-; auto|intros l E; injection E as <-; auto]. }
    destruct (truthy (VStr t)); auto. unfold simple_parse1, parse_value. rewrite SP.
    destruct (twenty f d RD P) as (_ & T2 & _). destruct (T2 Y) as [mx MX]. unfold MAX_IMPL. rewrite MX. cbn [bind andb]. f_equal. apply (soon_iff f d n mx); auto.
Qed.
Lemma c45_read e f chosen v last next d : periodic f -> real_last last -> chosen = None \/ chosen = Some SSimple -> written e v d -> dt_y d < 9979 ->
  (forall l, last = Some l -> soon_after f l d /\ dt_y l < 9979) -> nothing next \/ (exists n, written e next n /\ soon_after f d n) ->
  parse_with_pool e (mktp false (T f)) chosen v last next = (Some SSimple, Ok d).
Proof.
  intros P RL C W Y L N. destruct (written_pick e (sense e (T f) last next) v d W) as (t & -> & SP).
  { apply sense_ok; auto. eapply written_real; eauto. }
  destruct (simple_pool e f chosen t last next C) as (c & H & K). rewrite H. assert (E : parse_time e (mktp false (T f)) SSimple (VStr t) last next = Ok d) by exact SP.
  rewrite E in *. rewrite K by discriminate. auto.
Qed.
Lemma c45_index e w p f d last : periodic f -> plain_index p w f last -> sp_composed p = false -> near_sequence p f d last ->
  (forall q, sp_starts p <= q <= last -> exists v, holds p w q v /\ written e v (d q)) ->
  (exists v, holds p w (last + 1) v /\ nothing v) -> cleaned e w p d last.
Proof.
  intros P (OL & (t & r & c & TH & CN) & FQ & LO & WS & L1 & L2) CO [YB SQ] WR (vn & HN & NN).
  assert (WL : exists wl, write_line (sp_al p) (sp_th p) = Ok wl).
  { rewrite TH. cbn [write_line]. unfold coord_line. apply cell_named_iff in CN. rewrite CN. cbn [bind]. eauto. }
  destruct WL as (wl & WL).
  assert (RD : forall q, sp_starts p <= q <= last -> real_date (d q)).
  { intros q I. destruct (WR q I) as (v & _ & W). eapply written_real; eauto. }
  assert (SOON : forall q, sp_starts p < q <= last -> soon_after f (d (q - 1)) (d q)).
  { intros q I. destruct SQ as [(_ & _ & E)|(_ & E)]; [auto|]. apply one_soon; auto; try (apply RD; lia); try (apply YB; lia). }
  unfold cleaned. apply (read_index e w p f t r c SSimple d last); auto.
  - destruct P as [<-|[<-|[<-|[<-|[<-|[]]]]]]; cbn; tauto.
  - intros q I. split; auto. specialize (YB q I). lia.
  - intros q I. destruct (WR q I) as (v & HV & W). exists v, (axis_val (sp_al p) w wl (q + 1)). split; [auto|]. split; [|split].
    + intros NT. destruct W as [t' u a b c' dd m y TR PA A B C R|t' u a b c' dd m y TR PA A B C R]; inversion NT as [|t2 W2 E|]; subst;
        apply strip_blank in W2; apply stripped_iff in TR; cbn in TR; injection TR as ->; destruct (strip t') eqn:ST; try discriminate; inversion PA as [a' s b' s' c2 A1 S1 B1 S2 C1 E]; destruct a'; discriminate.
    + apply (holds_iff _ _ _ _ _ WL). auto.
    + rewrite CO. apply c45_read; auto.
      * unfold before. destruct (q =? sp_starts p) eqn:B; intros l E; [discriminate|]. injection E as <-. apply RD. lia.
      * unfold before. destruct (q =? sp_starts p); auto.
      * unfold before. destruct (q =? sp_starts p) eqn:B; intros l E; [discriminate|]. injection E as <-. split; [apply SOON; lia|apply YB; lia].
      * destruct (Z.eq_dec q last) as [->|NE].
        -- left. apply (holds_iff _ _ _ _ _ WL) in HN. rewrite HN. auto.
        -- right. exists (d (q + 1)). destruct (WR (q + 1) ltac:(lia)) as (v2 & HV2 & W2). apply (holds_iff _ _ _ _ _ WL) in HV2. rewrite HV2. split; auto.
           specialize (SOON (q + 1) ltac:(lia)). replace (q + 1 - 1) with q in SOON by lia. auto.
  - intros q I. apply SOON. auto.
  - destruct SQ as [(E1 & E2 & _)|(E1 & E2)]; auto.
Qed.
