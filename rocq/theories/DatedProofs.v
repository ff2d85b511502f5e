(** Proofs about the dates of the numbers of an answer (C66). *)
From Verif Require Import Base BaseFacts Cal SpecCal CalFacts CalProofs SpecCoord SpecCoordFacts Coord CoordFacts XlMethods Params ParseTime TimeIndex GetData PeriodRange DataFrame
  Scrape Xlseries SpecTime SpecScrape ScrapeFacts TimeFacts TimeProofs SpecData DataFacts DataProofs SpecFrames FrameProofs FrameProofs2 RangeProofs FrameProofs3 SpecEnd RangeExact CleanReal SpecDated.
From Coq Require Import Sorted.
Local Open Scope Z_scope.

(** the rows the values are read from, and the dates beside them *)
Definition taken (s : sp) (w : worksheet) (en : Z) (q : Z) (d : datetime) (x : spec_float) : Prop :=
  sp_starts s <= q <= en /\ holds s w (q + sp_ta s) (VDate d) /\ exists v, in_series s w q v /\ read_as s v x.
Inductive rows_of (s : sp) (w : worksheet) (en : Z) : Z -> list Z -> list datetime -> list spec_float -> Prop :=
| ro_end a : rows_of s w en a [] [] []
| ro_row a q d x qs ds vs : a <= q -> taken s w en q d x -> rows_of s w en (q + 1) qs ds vs -> rows_of s w en a (q :: qs) (d :: ds) (x :: vs).
Lemma rows_later s w en a b qs ds vs : b <= a -> rows_of s w en a qs ds vs -> rows_of s w en b qs ds vs.
Proof. intros L H. inversion H; subst; constructor; auto. lia. Qed.

Section Rows.
Variables (s : sp) (w : worksheet) (en : Z).
Lemma continuous_rows : forall cells vs, continuous_values s cells vs -> forall a, cells_from s w en a cells -> sp_starts s <= a ->
  (forall i, sp_starts s <= i <= en -> ~ (sp_blank s = true /\ in_series s w i VNone) -> holds_date s w (i + sp_ta s)) ->
  (forall i v v', in_series s w i v -> in_series s w i v' -> v = v') ->
  exists qs ds, rows_of s w en a qs ds vs.
Proof.
  induction 1 as [|l vs B C IH|v v' l vs NB M S K C IH|v v' f l vs NB S NM N C IH]; intros a F A D U; inversion F; subst.
  - exists [], []. constructor.
  - destruct (IH (a + 1)) as (qs & ds & R); auto; [lia|]. exists qs, ds. eapply rows_later; [|eauto]. lia.
  - destruct (IH (a + 1)) as (qs & ds & R); auto; [lia|]. destruct (D a) as (d & Hd); [lia| |].
    + intros (B & Q). apply (NB B). eapply U; eauto.
    + exists (a :: qs), (d :: ds). constructor; [lia| |auto]. split; [lia|]. split; [auto|]. exists v. split; auto. right; auto.
  - destruct (IH (a + 1)) as (qs & ds & R); auto; [lia|]. destruct (D a) as (d & Hd); [lia| |].
    + intros (B & Q). apply (NB B). eapply U; eauto.
    + exists (a :: qs), (d :: ds). constructor; [lia| |auto]. split; [lia|]. split; [auto|]. exists v. split; auto. left; auto.
Qed.
Lemma loose_rows : forall pairs vs, loose_values s pairs vs -> forall a, dated_cells_from s w en a pairs -> sp_starts s <= a ->
  exists qs ds, rows_of s w en a qs ds vs.
Proof.
  induction 1 as [|v t f l vs (d & ->) W C IH|v t l vs N C IH]; intros a F A; inversion F; subst.
  - exists [], []. constructor.
  - destruct (IH (a + 1)) as (qs & ds & R); auto; [lia|]. exists (a :: qs), (d :: ds). constructor; [lia| |auto]. split; [lia|]. split; [auto|].
    exists v. split; auto. destruct W as [v' M _ _|x _ N]; [right|left]; auto.
  - destruct (IH (a + 1)) as (qs & ds & R); auto; [lia|]. exists qs, ds. eapply rows_later; [|eauto]. lia.
Qed.
Lemma rows_facts : forall a qs ds vs, rows_of s w en a qs ds vs ->
  List.length qs = List.length vs /\ List.length ds = List.length vs /\ StronglySorted Z.lt qs /\ Forall (Z.le a) qs /\
  (forall k q d x, nth_error qs k = Some q -> nth_error ds k = Some d -> nth_error vs k = Some x -> taken s w en q d x) /\
  Forall (fun d => exists q x, a <= q /\ taken s w en q d x) ds /\
  (index_in_order s w en -> in_order ds).
Proof.
  induction 1 as [a|a q d x qs ds vs L Tk R (L1 & L2 & SS & Fa & N & F & O)].
  - split; [auto|]. split; [auto|]. split; [constructor|]. split; [constructor|]. split; [intros [|k] q d x Q; discriminate|]. split; [constructor|]. intros _. constructor.
  - cbn [List.length]. split; [lia|]. split; [lia|]. split; [|split; [|split; [|split]]].
    + constructor; auto. eapply Forall_impl; [|exact Fa]. cbn. intros; lia.
    + constructor; auto. eapply Forall_impl; [|exact Fa]. cbn. intros; lia.
    + intros [|k] q' d' x' Q D X; cbn in Q, D, X; [injection Q as <-; injection D as <-; injection X as <-; auto|eauto].
    + constructor; [exists q, x; auto|]. eapply Forall_impl; [|exact F]. cbn. intros d' (q' & x' & Lq & T'). exists q', x'. split; [lia|auto].
    + intros IO. apply SSorted_cons; [exact (O IO)|]. rewrite Forall_forall in F |- *. intros d' I. destruct (F d' I) as (q' & x' & Lq & (B' & H' & _)). destruct Tk as (B & H & _).
      apply (IO q q'); auto; lia.
Qed.
End Rows.

Lemma in_series_one s w i v v' : in_series s w i v -> in_series s w i v' -> v = v'.
Proof.
  intros (r & c & S & <-) (r' & c' & S' & <-). inversion S as [r0 c0 A N|r0 c0 A N]; subst; inversion S' as [r1 c1 A' N'|r1 c1 A' N']; subst; try congruence;
    apply cell_named_iff in N, N'; congruence.
Qed.
Lemma order_nodup l : in_order l -> NoDup l.
Proof.
  induction 1 as [|x l S IH F]; constructor; auto. intros I. rewrite Forall_forall in F. exact (earlier_irrefl _ (F _ I)).
Qed.
Lemma order_fill l l' : in_order l -> in_order l' -> incl l l' -> List.length l = List.length l' -> l = l'.
Proof.
  intros O O' I L. apply order_ext; auto. intros d. split; [apply I|]. apply NoDup_length_incl; auto; [apply order_nodup; auto|lia].
Qed.
Lemma frame_rows d n vs : in_frame d n vs -> rectangular d -> List.length vs = List.length (pr_dates (df_index d)).
Proof. intros. apply in_frame_length with n; auto. Qed.

Lemma values_rows e w s n vs en : single_frequency s -> not_implicit s -> sp_ends s = Some en -> rows_dated s w en -> get_data e w s = Ok [(n, vs)] ->
  exists qs ds, rows_of s w en (sp_starts s) qs ds vs.
Proof.
  intros SF NI EN RD G. destruct (c32_values e w s _ SF NI G) as (vs' & V & [(_ & Q)|(n' & Q)]); [discriminate|]. injection Q as <- <-.
  destruct V as [cells vs CT (en' & EN' & F) C|en' pairs vs CT EN' F L]; rewrite EN in EN'; injection EN' as <-.
  - eapply continuous_rows; eauto; [lia|]. intros i v v'. apply in_series_one.
  - eapply loose_rows; eauto. lia.
Qed.

Lemma c66_dated e w p dfs w1 p1 i m s f en a b n vs : real_stamps e -> real_dates w -> alone e w p = Ok dfs -> clean_data e w p = (w1, p1, Ok tt) ->
  py_len (dgetN n_headers_coord p1) = Ok m -> (i < m)%nat -> series_sp p1 i = Ok s -> sp_freq s = T f -> periodic f -> not_implicit s ->
  sp_ends s = Some en -> holds s w1 (sp_starts s + sp_ta s) (VDate a) -> holds s w1 (en + sp_ta s) (VDate b) ->
  index_in_order s w1 en -> index_of_starts s f w1 en -> rows_dated s w1 en -> get_data e w1 s = Ok [(n, vs)] ->
  exists d, In d dfs /\ in_frame d n vs /\ dated_by_row s w1 en (pr_dates (df_index d)) vs.
Proof.
  intros RS R A C PL Hi SS FR PF NI EN HA HB IO (t & IS) RD GD.
  assert (SF : single_frequency s). { unfold single_frequency. rewrite FR. unfold periodic in PF. cbn in PF. destruct PF as [<-|[<-|[<-|[<-|[<-|[]]]]]]; reflexivity. }
  destruct (alone_parts _ _ _ _ A) as (w1' & p1' & w2 & C' & G). rewrite C in C'. injection C' as <- <-.
  pose proof (clean_data_real _ _ _ _ _ _ C R) as R1.
  destruct (values_rows e w1 s n vs en SF NI EN RD GD) as (qs & ds & RO). destruct (rows_facts _ _ _ _ _ _ _ RO) as (L1 & L2 & SQ & _ & N & F & O). specialize (O IO).
  assert (SE : sp_starts s <= en \/ vs = []).
  { destruct vs as [|x vs]; [right; auto|]. left. inversion RO as [|? q ? ? ? ? ? ? (Q & _)]; subst. lia. }
  destruct (c37_index e w1 p1 w2 dfs i m s f a b n vs) as (d & Id & IF & RC & IX); auto; [exists en; auto|].
  pose proof (in_frame_length _ _ _ RC IF) as LE.
  exists d. split; auto. split; auto. split; [auto|]. 
  assert (E : ds = pr_dates (df_index d)).
  { destruct SE as [SE|VE].
    2: { subst vs. cbn in LE, L2. destruct ds; [|discriminate]. destruct (pr_dates (df_index d)); [auto|discriminate]. }
    assert (W : forall x y, sp_starts s <= x <= en -> holds s w1 (x + sp_ta s) (VDate y) -> real_date y /\ not_later a y /\ not_later y b).
    { intros x y X Hy. split; [destruct Hy as (r & c & _ & Hy); eapply R1; eauto|].
      assert (U : forall q y y', holds s w1 q (VDate y) -> holds s w1 q (VDate y') -> y = y').
      { intros q y0 y' (r & c & I & Q) (r' & c' & I' & Q').
        assert (r = r' /\ c = c') as [-> ->].
        { inversion I as [t0 r0 c0 A0 H0 N0|t0 r0 c0 A0 H0 N0]; subst; inversion I' as [t1 r1 c1 A1 H1 N1|t1 r1 c1 A1 H1 N1]; subst; try congruence.
          - assert (t0 = t1) by (inversion H0; inversion H1; congruence). subst. apply cell_named_iff in N0, N1. split; congruence.
          - assert (t0 = t1) by (inversion H0; inversion H1; congruence). subst. apply cell_named_iff in N0, N1. split; congruence. }
        congruence. }
      split.
      - destruct (Z.eq_dec x (sp_starts s)) as [->|NE]; [left; eapply U; eauto|]. right. apply (IO (sp_starts s) x); auto; lia.
      - destruct (Z.eq_dec x en) as [->|NE]; [left; eapply U; eauto|]. right. apply (IO x en); auto; lia. }
    destruct (IS (sp_starts s) a) as (Pa & Ta & Da); [lia|auto|]. destruct (IS en b) as (Pb & Tb & Db); [lia|auto|].
    rewrite Forall_forall in F.
    destruct IX as [(_ & OI & CI)|(-> & r & x & y & CV & NL & X & Y & (_ & OI & CI))].
    - apply order_fill; auto; [|lia]. intros y Iy. destruct (F y Iy) as (q & v & Lq & Bq & Hq & _). destruct (W q y Bq Hq) as (Ry & La & Lb). destruct (IS q y Bq Hq) as (Py & Ty & _).
      apply CI. unfold index_date. destruct (string_dec f "S") as [->|_]; [exfalso; unfold periodic in PF; cbn in PF; intuition discriminate|]. split; auto. split; auto. split; [congruence|auto].
    - apply order_fill; auto; [|lia]. intros z Iz. destruct (F z Iz) as (q & v & Lq & Bq & Hq & _). destruct (W q z Bq Hq) as (Rz & La & Lb). destruct (IS q z Bq Hq) as (Pz & Tz & Dz).
      destruct (Dz eq_refl) as (Wz & T0). apply CI. split; [split; auto; split; [congruence|auto]|].
      destruct CV as (_ & OR & CR).
      assert (XA : x = a).
      { assert (Ia : In a (pr_dates r)). { apply CR. destruct (W (sp_starts s) a) as (Ra & _ & Lab); auto; [lia|]. unfold index_date. change (if string_dec "D" "S" then _ else ?x) with x. split; auto. split; auto. split; auto. split; [left; auto|auto]. }
        destruct (pr_dates r) as [|x0 rr]; [discriminate|]. injection X as ->. destruct Ia as [|Ia]; auto. exfalso. inversion OR as [|? ? _ FO]; subst. rewrite Forall_forall in FO.
        assert (Ix : In x (x :: rr)) by (left; auto). apply CR in Ix. unfold index_date in Ix. change (if string_dec "D" "S" then _ else ?x) with x in Ix. destruct Ix as (_ & _ & _ & Lx & _).
        destruct Lx as [->|Lx]; [exact (earlier_irrefl _ (FO _ Ia))|exact (earlier_irrefl _ (earlier_trans _ _ _ Lx (FO _ Ia)))]. }
      assert (YB : not_later z y).
      { assert (Iz' : In z (pr_dates r)). { apply CR. unfold index_date. change (if string_dec "D" "S" then _ else ?x) with x. split; auto. split; auto. split; [congruence|]. split; auto. }
        assert (G1 : forall l, in_order l -> forall z y, hd_error (rev l) = Some y -> In z l -> not_later z y).
        { clear. induction 1 as [|x l S IH F]; intros z y H I; [destruct I|]. destruct l as [|x' l].
          - cbn in H. injection H as <-. destruct I as [->|[]]. left; auto.
          - cbn [rev] in H. rewrite <- app_assoc in H. assert (H' : hd_error (rev (x' :: l)) = Some y).
            { cbn [rev]. destruct (rev l) as [|u v]; cbn in H |- *; auto. }
            destruct I as [->|I]; [|apply IH; auto]. right. rewrite Forall_forall in F.
            destruct (IH x' y H' (or_introl eq_refl)) as [<-|Q]; [apply F; left; auto|]. eapply earlier_trans; [|exact Q]. apply F; left; auto. }
        exact (G1 _ OR _ _ Y Iz'). }
      assert (Mz : midnight z = z). { destruct z. cbn in *. unfold midnight. cbn. congruence. }
      assert (ML : forall u v, not_later u v -> not_later (midnight u) (midnight v)).
      { intros [y1 m1 d1 s1] [y2 m2 d2 s2] [E|E]; [left; congruence|]. unfold earlier, not_later, midnight in *. cbn in *.
        destruct E as [E|(-> & [E|(-> & [E|(-> & E)])])]; [right; unfold earlier; cbn; lia..|left; auto]. }
      split; [rewrite <- Mz, XA; apply ML; auto|]. intros u _ Lu.
      assert (Q : not_later z (midnight y)) by (rewrite <- Mz; apply ML; auto).
      destruct Q as [->|Q]; auto. right. destruct Lu as [<-|Lu]; auto. eapply earlier_trans; eauto. }
  subst ds. exists qs. auto.
Qed.

(** ** without gaps *)
Lemma spaced (key : datetime -> Z) K l : 0 <= K -> StronglySorted (fun x y => key x + K <= key y) l -> forall x l', l = x :: l' ->
  key x + Z.of_nat (List.length l') * K <= key (List.last l' x).
Proof.
  intros HK. induction 1 as [|y l S IH F]; intros x l' E; [discriminate|]. inversion E; subst y l'. clear E. destruct l as [|z l]; [cbn; lia|].
  specialize (IH z l eq_refl). inversion F; subst. rewrite (last_any l z x z). replace (List.last (z :: l) z) with (List.last l z) by (destruct l; [reflexivity|cbn; apply last_any]).
  cbn [List.length]. lia.
Qed.
Lemma last_in {A} (l : list A) x : In (List.last l x) (x :: l).
Proof. revert x. induction l as [|y l IH]; intros x; [left; auto|]. right. rewrite (last_any l y x y). replace (List.last (y :: l) y) with (List.last l y) by (destruct l; [reflexivity|cbn; apply last_any]). apply IH. Qed.
Lemma sorted_in {A} (R Q : A -> A -> Prop) l : StronglySorted R l -> (forall x y, In x l -> In y l -> R x y -> Q x y) -> StronglySorted Q l.
Proof.
  induction 1 as [|x l S IH F]; intros H; constructor.
  - apply IH. intros y z Y Z. apply H; right; auto.
  - rewrite Forall_forall in F |- *. intros y Y. apply H; [left; auto|right; auto|auto].
Qed.
(** the number of a date among the days, or among the months *)
Definition key (f : string) (d : datetime) : Z := if string_dec f "W" then dt_ord d else month_no d.
Definition width (f : string) : Z := if string_dec f "W" then 7 else if string_dec f "M" then 1 else if string_dec f "Q" then 3 else 12.
Lemma one_key f a b : In f ["W"; "M"; "Q"; "A"]%string -> real_date a -> one_period f a b -> key f b = key f a + width f.
Proof.
  intros I R H. cbn in I. destruct I as [<-|[<-|[<-|[<-|[]]]]]; inversion H as [k P D|k P D]; try discriminate; injection P as <-.
  1: { apply days_after_ord in D; [|apply real_day_ok; auto]. destruct D as (_ & D & _). change (dt_ord b = dt_ord a + 7). lia. }
  all: destruct D as (D & _); unfold key, width, month_no; cbn; lia.
Qed.
Lemma keys_along f : In f ["W"; "M"; "Q"; "A"]%string -> forall ds, consecutive f ds -> Forall real_date ds -> forall a l, ds = a :: l ->
  key f (List.last l a) = key f a + Z.of_nat (List.length l) * width f.
Proof.
  intros I. induction 1 as [d|x y l0 P C IH]; intros F a l E; inversion E; subst; [cbn; lia|]. inversion F as [|? ? R F']; subst. specialize (IH F' y l0 eq_refl).
  rewrite (last_any l0 y a y). replace (List.last (y :: l0) y) with (List.last l0 y) by (destruct l0; [reflexivity|cbn; apply last_any]). rewrite IH, (one_key f a y I R P). cbn [List.length]. lia.
Qed.
(** period starts are at least a period apart *)
Lemma starts_apart f x y : In f ["W"; "M"; "Q"; "A"]%string -> real_date x -> real_date y -> period_start f x -> period_start f y -> dt_s x = dt_s y -> earlier x y ->
  key f x + width f <= key f y.
Proof.
  intros I Rx Ry Px Py S E. cbn in I. pose proof (real_month x Rx) as Mx. pose proof (real_month y Ry) as My. destruct I as [<-|[<-|[<-|[<-|[]]]]].
  - change (dt_ord x + 7 <= dt_ord y). cbn in Px, Py. apply sunday_iff in Px, Py; try (apply real_day_ok; auto). apply ord_order in E; try (apply real_day_ok; auto). unfold weekday in *. lia.
  - change (month_no x + 1 <= month_no y). cbn in Px, Py. unfold earlier, month_no in *. lia.
  - change (month_no x + 3 <= month_no y). cbn in Px, Py. unfold earlier, month_no in *. lia.
  - change (month_no x + 12 <= month_no y). cbn in Px, Py. unfold earlier, month_no in *. lia.
Qed.
Lemma key_mono f x y : In f ["W"; "M"; "Q"; "A"]%string -> real_date x -> real_date y -> not_later x y -> key f x <= key f y.
Proof.
  intros I Rx Ry [<-|E]; [lia|]. cbn in I. pose proof (real_month x Rx) as Mx. pose proof (real_month y Ry) as My. destruct I as [<-|[<-|[<-|[<-|[]]]]].
  1: { change (dt_ord x <= dt_ord y). apply ord_order in E; try (apply real_day_ok; auto). lia. }
  all: unfold key, month_no, earlier in *; cbn; lia.
Qed.
Lemma same_key f a x : In f ["W"; "M"; "Q"; "A"]%string -> real_date a -> real_date x -> period_start f x -> dt_s x = dt_s a -> not_later a x -> key f x = key f a -> a = x.
Proof.
  intros I Ra Rx P S N K. destruct N as [|N]; auto. exfalso. cbn in I. pose proof (real_month x Rx) as Mx. pose proof (real_month a Ra) as Ma.
  assert (1 <= dt_d a) by (destruct Ra as (_ & _ & n & _ & ?); lia). destruct I as [<-|[<-|[<-|[<-|[]]]]].
  1: { change (dt_ord x = dt_ord a) in K. apply ord_order in N; try (apply real_day_ok; auto). lia. }
  all: unfold key, month_no, earlier in *; cbn in *; lia.
Qed.
(** as many period starts as rows: the first date is one *)
Lemma count_start f a l r : periodic f -> consecutive f (a :: l) -> Forall real_date (a :: l) -> covers f a (List.last l a) r -> List.length (pr_dates r) = S (List.length l) ->
  period_start f a.
Proof.
  intros PF C FR (_ & O & CI) L. assert (I : f = "D"%string \/ In f ["W"; "M"; "Q"; "A"]%string) by (unfold periodic in PF; cbn in *; intuition). destruct I as [-> |I]; [exact Logic.I|].
  destruct (pr_dates r) as [|x l'] eqn:E; [discriminate|]. assert (L' : List.length l' = List.length l) by (cbn in L; lia). clear L.
  assert (ID : forall d, In d (x :: l') -> real_date d /\ period_start f d /\ dt_s d = dt_s a /\ not_later a d /\ not_later d (List.last l a)).
  { intros d D. apply CI in D. unfold index_date in D. destruct (string_dec f "S") as [->|_]; [exfalso; cbn in I; intuition discriminate|auto]. }
  assert (Ra : real_date a) by (inversion FR; auto).
  assert (Rb : real_date (List.last l a)). { rewrite Forall_forall in FR. apply FR. apply last_in. }
  assert (SP : StronglySorted (fun x y => key f x + width f <= key f y) (x :: l')).
  { eapply sorted_in; [exact O|]. intros u v U V E'. destruct (ID u U) as (R1 & P1 & S1 & _), (ID v V) as (R2 & P2 & S2 & _). apply starts_apart; auto. congruence. }
  assert (W : 0 <= width f) by (unfold width; destruct (string_dec f "W"), (string_dec f "M"), (string_dec f "Q"); lia).
  pose proof (spaced (key f) (width f) _ W SP x l' eq_refl) as K1. pose proof (keys_along f I _ C FR a l eq_refl) as K2.
  destruct (ID (List.last l' x) (last_in l' x)) as (Rl & _ & _ & _ & Nl). pose proof (key_mono f _ _ I Rl Rb Nl) as K3.
  destruct (ID x (or_introl eq_refl)) as (Rx & Px & Sx & Nx & _). pose proof (key_mono f _ _ I Ra Rx Nx) as K4.
  rewrite L' in K1. assert (K : key f x = key f a) by lia. rewrite (same_key f a x I Ra Rx Px Sx Nx K). auto.
Qed.

Lemma nth_consecutive f ds : ds <> [] -> (forall k a b, nth_error ds k = Some a -> nth_error ds (S k) = Some b -> one_period f a b) -> consecutive f ds.
Proof.
  induction ds as [|x ds IH]; intros NE H; [congruence|]. destruct ds as [|y ds]; [constructor|]. constructor; [apply (H 0%nat); auto|]. apply IH; [discriminate|]. intros k a b A B. apply (H (S k)); auto.
Qed.
Lemma all_rows s w en a qs ds vs : rows_of s w en a qs ds vs -> List.length vs = Z.to_nat (en - a + 1) -> forall k q, nth_error qs k = Some q -> q = a + Z.of_nat k.
Proof.
  induction 1 as [a|a q d x qs ds vs L (B & _) R IH]; intros N k q' K; [destruct k; discriminate|].
  assert (LE : forall a qs ds vs, rows_of s w en a qs ds vs -> (List.length vs <= Z.to_nat (en - a + 1))%nat).
  { clear. induction 1 as [|a q d x qs ds vs L (B & _) R IH]; cbn [List.length]; lia. }
  pose proof (LE _ _ _ _ R) as L2. cbn [List.length] in N. assert (q = a) by lia. subst q. destruct k as [|k]; cbn in K; [injection K as <-; lia|]. rewrite (IH ltac:(lia) k q' K). lia.
Qed.
Lemma continuous_length s cells vs : sp_blank s = false -> continuous_values s cells vs -> List.length vs = List.length cells.
Proof. intros B. induction 1; cbn; congruence. Qed.
Lemma cells_length s w en : forall a cells, cells_from s w en a cells -> List.length cells = Z.to_nat (en - a + 1).
Proof. induction 1; cbn [List.length]; lia. Qed.

Lemma c66_every_row e w p dfs w1 p1 i m s f en ds n vs : real_stamps e -> real_dates w -> alone e w p = Ok dfs -> clean_data e w p = (w1, p1, Ok tt) ->
  py_len (dgetN n_headers_coord p1) = Ok m -> (i < m)%nat -> series_sp p1 i = Ok s -> sp_freq s = T f -> periodic f -> not_implicit s ->
  sp_cont s = true -> sp_blank s = false -> sp_ends s = Some en -> ds <> [] -> row_by_row s f w1 en ds ->
  get_data e w1 s = Ok [(n, vs)] ->
  exists d, In d dfs /\ in_frame d n vs /\ pr_dates (df_index d) = ds /\ dated_by_row s w1 en ds vs.
Proof.
  intros RS R A C PL Hi SS FR PF NI CT BL EN NE (LD & HD & ST) GD.
  assert (SF : single_frequency s). { unfold single_frequency. rewrite FR. unfold periodic in PF. cbn in PF. destruct PF as [<-|[<-|[<-|[<-|[<-|[]]]]]]; reflexivity. }
  destruct (alone_parts _ _ _ _ A) as (w1' & p1' & w2 & C' & G). rewrite C in C'. injection C' as <- <-.
  pose proof (clean_data_real _ _ _ _ _ _ C R) as R1.
  assert (RD : rows_dated s w1 en).
  { intros _ q B _. destruct (nth_error ds (Z.to_nat (q - sp_starts s))) as [d|] eqn:N; [|apply nth_error_None in N; lia]. exists d. replace q with (sp_starts s + Z.of_nat (Z.to_nat (q - sp_starts s))) by lia. auto. }
  destruct (values_rows e w1 s n vs en SF NI EN RD GD) as (qs & ds' & RO). destruct (rows_facts _ _ _ _ _ _ _ RO) as (L1 & L2 & SQ & _ & N & F & _).
  assert (LV : List.length vs = List.length ds).
  { destruct (c32_values e w1 s _ SF NI GD) as (vs' & V & [(_ & Q)|(n' & Q)]); [discriminate|]. injection Q as <- <-.
    destruct V as [cells vs _ (en' & EN' & CF) CV|en' pairs vs CT' _ _ _]; [|congruence]. rewrite EN in EN'. injection EN' as <-. rewrite (continuous_length _ _ _ BL CV), (cells_length _ _ _ _ _ CF). lia. }
  assert (RA : Forall real_date ds).
  { apply Forall_forall. intros d I. apply In_nth_error in I. destruct I as (k & K). destruct (HD k d K) as (r & c & _ & Q). eapply R1; eauto. }
  destruct ds as [|a l]; [congruence|]. pose proof (nth_consecutive f _ NE ST) as CN.
  set (b := List.last l a).
  assert (HB : holds s w1 (en + sp_ta s) (VDate b)).
  { destruct (nth_error (a :: l) (List.length l)) as [b'|] eqn:NB; [|apply nth_error_None in NB; cbn in NB; lia]. assert (b' = b).
    { unfold b. clear - NB. revert a NB. induction l as [|y l IH]; intros a NB; cbn [List.length nth_error] in NB; [injection NB as ->; auto|]. rewrite (IH y NB). cbn. destruct l; [auto|apply last_any]. }
    subst b'. pose proof (HD _ _ NB) as H. cbn [List.length] in LD. replace (sp_starts s + Z.of_nat (List.length l) + sp_ta s) with (en + sp_ta s) in H by lia. auto. }
  assert (HA : holds s w1 (sp_starts s + sp_ta s) (VDate a)). { pose proof (HD 0%nat a eq_refl) as H. replace (sp_starts s + Z.of_nat 0 + sp_ta s) with (sp_starts s + sp_ta s) in H by lia. auto. }
  destruct (c37_index e w1 p1 w2 dfs i m s f a b n vs) as (d & Id & IF & RC & IX); auto; [exists en; auto|].
  pose proof (in_frame_length _ _ _ RC IF) as LE. cbn [List.length] in LV.
  assert (EX : forall r, period_start f a -> covers f a b r -> pr_dates r = a :: l).
  { intros r PS CV. destruct (range_exact f a l PF CN RA PS) as (nm & _ & DR). replace (List.last (a :: l) a) with b in DR by (unfold b; destruct l; [auto|cbn; apply last_any]).
    assert (Rab : real_date a /\ real_date b). { rewrite Forall_forall in RA. split; apply RA; [left; auto|apply last_in]. }
    destruct (range_covers f a b _ (proj1 Rab) (proj2 Rab) DR) as (CV' & _). rewrite (covers_one _ _ _ _ _ CV CV'). auto. }
  assert (IXE : pr_dates (df_index d) = a :: l).
  { destruct IX as [CV|(-> & r & x & y & CV & NL & _)].
    - apply EX; auto. eapply count_start; eauto. lia.
    - exfalso. apply NL. rewrite (EX r) by (auto; exact Logic.I). cbn [List.length]. lia. }
  exists d. split; auto. split; auto. split; auto. split; [cbn [List.length]; lia|]. exists qs. split; auto. split; auto. intros k q d' x Q D X.
  pose proof (all_rows _ _ _ _ _ _ _ RO ltac:(cbn [List.length] in LD; lia) k q Q) as ->.
  destruct (nth_error ds' k) as [d''|] eqn:D'; [|apply nth_error_None in D'; assert (k < List.length vs)%nat by (apply nth_error_Some; congruence); lia].
  destruct (N k _ d'' x Q D' X) as (K1 & _ & K3). split; auto.
Qed.
