(** Without gaps in the answer: the rows of the cleaned index have a date each (C66). *)
From Verif Require Import Base BaseFacts Cal SpecCal CalFacts CalProofs SpecCoord SpecCoordFacts Coord CoordFacts XlMethods Params ParseTime TimeIndex GetData PeriodRange DataFrame
  Scrape Xlseries SpecParams SpecTime SpecScrape ScrapeFacts TimeFacts TimeProofs SpecData DataFacts DataProofs SpecFrames FrameProofs FrameProofs2 RangeProofs FrameProofs3 SpecEnd RangeExact CleanReal
  EndFacts EndProofs SpecDated DatedProofs.
From Coq Require Import Sorted ZifyBool ZifyNat.
Local Open Scope Z_scope.

(** ** at most as many period starts as dates *)
Lemma count_le f a l r : periodic f -> consecutive f (a :: l) -> Forall real_date (a :: l) -> covers f a (List.last l a) r -> (List.length (pr_dates r) <= S (List.length l))%nat.
Proof.
  intros PF C FR CV. assert (I : f = "D"%string \/ In f ["W"; "M"; "Q"; "A"]%string) by (unfold periodic in PF; cbn in *; intuition). destruct I as [-> |I].
  { destruct (range_exact "D" a l PF C FR Logic.I) as (nm & _ & DR). replace (List.last (a :: l) a) with (List.last l a) in DR by (destruct l; [auto|cbn; symmetry; apply last_any]).
    assert (Rab : real_date a /\ real_date (List.last l a)). { rewrite Forall_forall in FR. split; apply FR; [left; auto|apply last_in]. }
    destruct (range_covers "D" a _ _ (proj1 Rab) (proj2 Rab) DR) as (CV' & _). rewrite (covers_one _ _ _ _ _ CV CV'). cbn. lia. }
  destruct CV as (_ & O & CI). destruct (pr_dates r) as [|x l'] eqn:E; [cbn; lia|]. cbn [List.length].
  assert (ID : forall d, In d (x :: l') -> real_date d /\ period_start f d /\ dt_s d = dt_s a /\ not_later a d /\ not_later d (List.last l a)).
  { intros d D. apply CI in D. unfold index_date in D. destruct (string_dec f "S") as [->|_]; [exfalso; cbn in I; intuition discriminate|auto]. }
  assert (Ra : real_date a) by (inversion FR; auto).
  assert (Rb : real_date (List.last l a)). { rewrite Forall_forall in FR. apply FR. apply last_in. }
  assert (SP : StronglySorted (fun x y => key f x + width f <= key f y) (x :: l')).
  { eapply sorted_in; [exact O|]. intros u v U V E'. destruct (ID u U) as (R1 & P1 & S1 & _), (ID v V) as (R2 & P2 & S2 & _). apply starts_apart; auto. congruence. }
  assert (W : 0 < width f) by (unfold width; destruct (string_dec f "W"), (string_dec f "M"), (string_dec f "Q"); lia).
  pose proof (spaced (key f) (width f) _ (Z.lt_le_incl _ _ W) SP x l' eq_refl) as K1. pose proof (keys_along f I _ C FR a l eq_refl) as K2.
  destruct (ID (List.last l' x) (last_in l' x)) as (Rl & _ & _ & _ & Nl). pose proof (key_mono f _ _ I Rl Rb Nl) as K3.
  destruct (ID x (or_introl eq_refl)) as (Rx & Px & Sx & Nx & _). pose proof (key_mono f _ _ I Ra Rx Nx) as K4.
  assert (Z.of_nat (List.length l') * width f <= Z.of_nat (List.length l) * width f) by lia. nia.
Qed.

(** working days between two days *)
Lemma key_span (k : datetime -> Z) l lo hi : StronglySorted (fun x y : datetime => k x + 1 <= k y) l -> (forall d, In d l -> lo <= k d <= hi) -> lo <= hi + 1 ->
  Z.of_nat (List.length l) <= hi - lo + 1.
Proof.
  intros SS B L. destruct l as [|x l']; [cbn; lia|]. pose proof (spaced k 1 _ ltac:(lia) SS x l' eq_refl) as K.
  pose proof (B x (or_introl eq_refl)). pose proof (B _ (last_in l' x)). cbn [List.length]. lia.
Qed.
Lemma midnight_ord d : dt_ord (midnight d) = dt_ord d.
Proof. reflexivity. Qed.
Lemma working_le x y W : real_date x -> real_date y -> dt_ord x <= dt_ord y -> covers_working x y W -> Z.of_nat (List.length (pr_dates W)) <= dt_ord y - dt_ord x + 1.
Proof.
  intros Rx Ry L (_ & O & CI). set (l := pr_dates W) in *.
  assert (OF : forall d, In d l -> real_date d /\ dt_s d = 0 /\ working_day d /\ dt_ord x <= dt_ord d /\ (forall u, office_day u -> not_later (midnight y) u -> not_later d u)).
  { intros d D. apply CI in D. destruct D as ((R1 & S1 & W1) & N & M). split; auto. split; auto. split; auto. split; auto.
    destruct N as [<-|N]; [rewrite midnight_ord; lia|]. apply ord_order in N; [rewrite midnight_ord in N; lia|apply (real_day_ok x); auto|apply real_day_ok; auto]. }
  assert (Ko : forall d, real_date d -> day_ok (dt_y d) (dt_m d) (dt_d d)) by (intros; apply real_day_ok; auto).
  assert (Rm : real_date (midnight y)). { destruct Ry as (A & B & n & C & D). split; [auto|]. split; [cbn; lia|]. exists n. auto. }
  assert (EO : forall u v, In u l -> In v l -> earlier u v -> dt_ord u < dt_ord v).
  { intros u v U V E. destruct (OF u U) as (R1 & S1 & _), (OF v V) as (R2 & S2 & _). apply ord_order in E; auto. lia. }
  set (k := fun d => if dt_ord d <=? dt_ord y then dt_ord d else dt_ord y).
  assert (LATE : forall u v, In u l -> In v l -> dt_ord y <= dt_ord u -> dt_ord v <= dt_ord u).
  { intros u v U V E. destruct (OF u U) as (R1 & S1 & W1 & _), (OF v V) as (R2 & S2 & W2 & _ & M).
    assert (N : not_later v u). { apply M; [split; auto|]. apply not_later_ord; auto. rewrite midnight_ord. cbn. lia. }
    apply not_later_ord in N; auto. lia. }
  apply (key_span k); [|intros d D; destruct (OF d D) as (_ & _ & _ & L1 & _); unfold k; destruct (dt_ord d <=? dt_ord y) eqn:Q; lia|lia].
  eapply sorted_in; [exact O|]. intros u v U V E. pose proof (EO u v U V E) as E1.
  assert (E2 : dt_ord u < dt_ord y). { destruct (Z_lt_ge_dec (dt_ord u) (dt_ord y)) as [|G]; auto. pose proof (LATE u v U V ltac:(lia)). lia. }
  unfold k. destruct (dt_ord u <=? dt_ord y) eqn:Q1, (dt_ord v <=? dt_ord y) eqn:Q2; lia.
Qed.

(** ** the dates of the rows *)
Lemma last_snoc {A} (l : list A) y a : List.last (l ++ [y]) a = y.
Proof. induction l as [|x l IH]; auto. cbn. destruct (l ++ [y]) eqn:E; [destruct l; discriminate|auto]. Qed.
Lemma consecutive_snoc f y : forall l a, consecutive f (a :: l) -> one_period f (List.last l a) y -> consecutive f (a :: l ++ [y]).
Proof.
  induction l as [|x l IH]; intros a C P; [constructor; [auto|constructor]|]. inversion C as [|? ? ? P1 C1]; subst. cbn. constructor; auto. apply IH; auto.
  rewrite (last_any l x a x) in P. destruct l; exact P.
Qed.
Section Walk.
Variables (f : string) (v : Z -> option datetime) (lo hi : Z) (a : datetime).
Hypothesis Ha : v lo = Some a.
Hypothesis step : forall i j x y, lo <= i -> i < j -> j <= hi -> v i = Some x -> v j = Some y -> (forall k, i < k < j -> v k = None) -> one_period f x y \/ (j = hi /\ x = y).
Definition walked (q : Z) (l : list datetime) : Prop :=
  consecutive f (a :: l) /\ (forall d, In d (a :: l) -> exists q, lo <= q <= hi /\ v q = Some d) /\
  Z.of_nat (List.length l) <= q - lo /\ (Z.of_nat (List.length l) = q - lo -> forall j d, nth_error (a :: l) j = Some d -> v (lo + Z.of_nat j) = Some d).
Lemma walk_rows k : lo + Z.of_nat k < hi \/ k = 0%nat /\ lo <= hi -> exists l q', walked (lo + Z.of_nat k) l /\ lo <= q' <= lo + Z.of_nat k /\ v q' = Some (List.last l a) /\
  (forall i, q' < i <= lo + Z.of_nat k -> v i = None).
Proof.
  induction k as [|k IH]; intros L.
  - exists [], lo. split; [|split; [lia|split; [auto|intros; lia]]]. split; [constructor|]. split; [intros d [<-|[]]; exists lo; split; [lia|auto]|]. split; [cbn; lia|].
    intros _ [|[|j]] d N; try discriminate. injection N as <-. replace (lo + Z.of_nat 0) with lo by lia. auto.
  - destruct IH as (l & q' & (C & I & L1 & L2) & Q & V & NO); [lia|]. destruct (v (lo + Z.of_nat (S k))) as [y|] eqn:Y.
    + destruct (step q' (lo + Z.of_nat (S k)) (List.last l a) y) as [P|(B & _)]; auto; try lia. { intros i R. apply NO. lia. }
      exists (l ++ [y]), (lo + Z.of_nat (S k)). rewrite last_snoc. split; [|split; [lia|split; [auto|intros; lia]]]. split; [apply consecutive_snoc; auto|]. rewrite app_length. cbn [List.length]. split; [|split; [lia|]].
      * intros d [<-|D]; [exists lo; split; [lia|auto]|]. apply in_app_or in D. destruct D as [D|[<-|[]]]; [apply I; right; auto|]. exists (lo + Z.of_nat (S k)). split; [lia|auto].
      * intros E j d N. destruct (Nat.lt_ge_cases j (S (List.length l))) as [J|J].
        -- apply L2; [lia|]. change (a :: l ++ [y]) with ((a :: l) ++ [y]) in N. rewrite nth_error_app1 in N by (cbn; lia). auto.
        -- change (a :: l ++ [y]) with ((a :: l) ++ [y]) in N. rewrite nth_error_app2 in N by (cbn; lia). cbn [List.length] in N. destruct (j - S (List.length l))%nat eqn:E2; [|destruct n; discriminate]. injection N as <-.
           replace (lo + Z.of_nat j) with (lo + Z.of_nat (S k)) by lia. auto.
    + exists l, q'. split; [|split; [lia|split; [auto|]]].
      * split; auto. split; auto. split; [lia|]. intros E. lia.
      * intros i R. destruct (Z.eq_dec i (lo + Z.of_nat (S k))) as [->|]; auto. apply NO. lia.
Qed.
Lemma walk_all b : lo < hi -> v hi = Some b -> exists l, walked hi l /\ List.last l a = b.
Proof.
  intros L B. destruct (walk_rows (Z.to_nat (hi - 1 - lo))) as (l & q' & W & Q & V & NO); [lia|]. replace (lo + Z.of_nat (Z.to_nat (hi - 1 - lo))) with (hi - 1) in * by lia.
  destruct W as (C & I & L1 & L2). destruct (step q' hi (List.last l a) b) as [P|(_ & E)]; auto; try lia. { intros k K. apply NO. lia. }
  - exists (l ++ [b]). rewrite last_snoc. split; auto. split; [apply consecutive_snoc; auto|]. rewrite app_length. cbn [List.length]. split; [|split; [lia|]].
    + intros d [<-|D]; [exists lo; split; [lia|auto]|]. apply in_app_or in D. destruct D as [D|[<-|[]]]; [apply I; right; auto|]. exists hi. split; [lia|auto].
    + intros E j d N. destruct (Nat.lt_ge_cases j (S (List.length l))) as [J|J].
      * apply L2; [lia|]. change (a :: l ++ [b]) with ((a :: l) ++ [b]) in N. rewrite nth_error_app1 in N by (cbn; lia). auto.
      * change (a :: l ++ [b]) with ((a :: l) ++ [b]) in N. rewrite nth_error_app2 in N by (cbn; lia). cbn [List.length] in N. destruct (j - S (List.length l))%nat eqn:E2; [|destruct n; discriminate]. injection N as <-.
        replace (lo + Z.of_nat j) with hi by lia. auto.
  - exists l. split; auto. split; auto. split; auto. split; [lia|]. intros E'. lia.
Qed.
End Walk.

(** ** the cleaned sheet *)
Lemma contributes_ends e w s ps f en : single_frequency s -> sp_freq s = T f -> contributes e w s ps -> sp_ends s = Some en ->
  forall v, holds s w (sp_starts s + sp_ta s) v -> v <> VNone.
Proof.
  intros SF FR (w' & t & line & en' & prs & nvs & SC & GD & IC & CL & EN & NE & SP & ->) EN' v HV ->.
  unfold series_prs in SP. unfold single_frequency in SF. unfold accepts_freq in SP. rewrite SF in SP. cbn [Nat.ltb Nat.leb Nat.eqb] in SP.
  unfold single_prs in SP. rewrite <- !(axis_read_cells w w' SC) in SP.
  assert (W : write_line (sp_al s) (sp_th s) = Ok line). { destruct IC as [-> | (_ & ts & ->)]; cbn; auto. }
  apply (holds_iff _ _ _ _ _ W) in HV.
  apply bind_ok in SP. destruct SP as (va & VA & SP). apply bind_ok in SP. destruct SP as (vb & VB & SP). apply axis_read_val in VA. rewrite HV in VA. subst va.
  unfold range_of in SP. cbn in SP. discriminate.
Qed.
Lemma holds_same s s' w q v : sp_th s = sp_th s' -> sp_al s = sp_al s' -> holds s w q v -> holds s' w q v.
Proof.
  intros T A (r & c & I & V). exists r, c. split; auto.
  assert (H : forall t, index_header s t -> index_header s' t). { intros t [t0 E|t0 ts E]; [apply ih_one|apply ih_first with ts]; congruence. }
  inversion I; subst; [eapply ic_column|eapply ic_row]; eauto; congruence.
Qed.

Lemma clean_data_one e w p n t s0 w1 p1 : one_index p n t -> series_sp p 0 = Ok s0 -> clean_data e w p = (w1, p1, Ok tt) ->
  exists z, clean_time_index e w s0 = (w1, Ok z) /\ ends_set p p1 n n z.
Proof.
  intros (N & A & G & TM) S0 C. destruct (clean_time_index e w s0) as [w' [z|x]] eqn:CT.
  - assert (NZ : z <> 0).
    { destruct (clean_walk _ _ _ _ _ CT) as (L & tl & wl & stop & TL & WL & RL & W & E). unfold estimate_end in E. apply bind_ok in E as (q & _ & E). apply bind_ok in E as (u & A' & E). injection E as <-.
      destruct (_ && _) eqn:B in A'; [lia|discriminate]. }
    exists z. destruct (clean_all e w p n t z s0 N NZ A) with (w' := w') as (p' & C' & E); auto.
    + intros j J. destruct (G j J) as (G1 & G2). split; auto. exists VNone. split; auto. left. reflexivity.
    + eexists. split; [exact TM|reflexivity].
    + rewrite C in C'. injection C' as <- <-. auto.
  - exfalso. unfold clean_data in C. rewrite (value_index _ _ _ _ TM) in C. cbn [truthy] in C. destruct (A n_time_header) as (l & L & LN); [cbn; tauto|]. rewrite L in C. cbn [py_len] in C. rewrite LN in C.
    destruct n as [|n]; [lia|]. cbn [clean_many] in C. destruct (G 0%nat ltac:(lia)) as (TH & _). rewrite (value_index _ _ _ _ TH) in C. cbn [bind as_text find] in C. rewrite S0, CT in C. cbn in C. discriminate.
Qed.

Lemma days_along ds : consecutive "D" ds -> Forall real_date ds -> forall a l, ds = a :: l -> dt_ord (List.last l a) = dt_ord a + Z.of_nat (List.length l).
Proof.
  induction 1 as [d|x y l0 P C IH]; intros F a l E; inversion E; subst; [cbn; lia|]. inversion F as [|? ? R F']; subst. specialize (IH F' y l0 eq_refl).
  rewrite (last_any l0 y a y). replace (List.last (y :: l0) y) with (List.last l0 y) by (destruct l0; [reflexivity|cbn; apply last_any]). rewrite IH.
  inversion P as [k Q D|k Q D]; [|discriminate]. injection Q as <-. apply days_after_ord in D; [|apply real_day_ok; auto]. destruct D as (_ & D & _). cbn [List.length]. lia.
Qed.

Lemma c66_no_gaps e w p dfs n t s0 i s f : real_stamps e -> real_dates w -> alone e w p = Ok dfs -> one_index p n t ->
  series_sp p 0 = Ok s0 -> sp_freq s0 = T f -> periodic f -> sp_missings s0 = false -> explicit_marker s0 -> one_line s0 -> ~ tolerates_blanks s0 -> 0 <= sp_ta s0 ->
  (i < n)%nat -> series_sp p i = Ok s -> same_rows s0 s -> ~ tolerates_blanks s -> not_implicit s ->
  exists w1 p1 s1 z ds nm vs d, clean_data e w p = (w1, p1, Ok tt) /\ series_sp p1 i = Ok s1 /\ same_rows s s1 /\ sp_ends s1 = Some z /\ get_data e w1 s1 = Ok [(nm, vs)] /\
    In d dfs /\ in_frame d nm vs /\ pr_dates (df_index d) = ds /\ ds <> [] /\ row_by_row s1 f w1 z ds /\ dated_by_row s1 w1 z ds vs.
Proof.
  intros RS R A OI S0 FR PF MS EX OL TB TA Hi SS (E1 & E2 & E3 & E4 & E5) TBs NI.
  destruct (alone_parts _ _ _ _ A) as (w1 & p1 & w2 & C & G). pose proof (clean_data_real _ _ _ _ _ _ C R) as R1.
  destruct (clean_data_one e w p n t s0 w1 p1 OI S0 C) as (z & CT & ES). exists w1, p1, (with_ends s z), z.
  pose proof OI as (N0 & AL & TH & TM).
  pose proof (fields_ends p p1 n i s z AL Hi ES SS) as S1. set (s' := with_ends s z) in *.
  assert (PL : py_len (dgetN n_headers_coord p1) = Ok n). { destruct ES as (A' & _). destruct (A' n_headers_coord) as (l & L & LN); [cbn; tauto|]. rewrite L. cbn. congruence. }
  assert (FR' : sp_freq s' = T f) by (change (sp_freq s = T f); congruence).
  assert (SF : single_frequency s') by (eapply periodic_single; eauto).
  pose proof G as G'. apply frame_of_piece in G'; auto. destruct G' as (cs & PL' & CS & _). rewrite PL in PL'. injection PL' as PL'.
  destruct (nth_error cs i) as [ps|] eqn:NC; [|apply nth_error_None in NC; lia]. destruct (CS i ps NC) as (s2 & SS2 & CN). rewrite S1 in SS2. injection SS2 as <-.
  assert (EN : sp_ends s' = Some z) by reflexivity.
  (* the index cells *)
  destruct (clean_trace _ _ _ _ _ R CT) as (L & tl & wl & stop' & out & WL & TL & W & E & SB & _). apply estimate_spec in E as (_ & SE & SR & _ & DT); [|lia].
  destruct DT as [(b & DT)|DT]; [|lia].
  assert (LO : last_one s0 w (last_position s0 w)) by (apply last_one_iff; auto).
  destruct (c29_all _ _ _ _ _ _ R OL CT LO) as (stop & B1 & (RU & _) & NAF & B2 & _ & _ & NB & _). specialize (NB TB).
  set (v := fun q => match axis_val (sp_al s0) w1 wl q with VDate d => Some d | _ => None end).
  assert (VH : forall q d, v q = Some d <-> holds s0 w1 q (VDate d)).
  { intros q d. rewrite (holds_iff _ _ _ _ _ WL). unfold v. destruct (axis_val _ _ _ q); split; congruence. }
  assert (H0 : forall q u, holds s' w1 q u <-> holds s0 w1 q u) by (intros q u; split; apply holds_same; auto; cbn; congruence).
  assert (HB : v (z + sp_ta s0) = Some b) by (unfold v; rewrite DT; auto).
  assert (HA : exists a, v (sp_starts s0 + sp_ta s0) = Some a).
  { destruct (RU (sp_starts s0 + sp_ta s0) ltac:(lia)) as [BL|[(a & HA)|HN]].
    - exfalso. pose proof (NB (sp_starts s0 + sp_ta s0) ltac:(lia) BL). lia.
    - exists a. apply VH. auto.
    - exfalso. refine (contributes_ends e w1 s' ps f z SF FR' CN EN VNone _ eq_refl). apply H0. change (sp_starts s') with (sp_starts s). change (sp_ta s') with (sp_ta s). rewrite <- E3, <- E4. auto. }
  destruct HA as (a & HA).
  destruct (walk_all f v (sp_starts s0 + sp_ta s0) (z + sp_ta s0) a HA) with (b := b) as (l & (WC & WI & WL1 & WL2) & WB); auto; [|lia|].
  { intros i' j x y P1 P2 P3 X Y NO. apply VH in X, Y.
    destruct (c25_gapless e w s0 w1 z f R FR PF EX MS CT i' j x y) as [P|(P & _ & _ & Q)]; auto; [lia|].
    intros k K (d & D). apply VH in D. rewrite (NO k K) in D. discriminate. }
  assert (RA : Forall real_date (a :: l)).
  { apply Forall_forall. intros d D. destruct (WI d D) as (q & _ & V). apply VH in V. destruct V as (r & c & _ & Q). eapply R1; eauto. }
  assert (Ra : real_date a /\ real_date b). { rewrite Forall_forall in RA. split; [apply RA; left; auto|]. rewrite <- WB. apply RA. apply last_in. }
  apply VH in HA, HB. apply H0 in HA, HB. rewrite E3, E4 in HA. rewrite E4 in HB. change (sp_starts s) with (sp_starts s') in HA. change (sp_ta s) with (sp_ta s') in HA, HB.
  destruct (single_piece e w1 s' ps f a b SF FR' CN (proj1 Ra) (proj2 Ra)) as (pr & nm & vs & _ & GD & _ & _); [exists z; auto|].
  assert (CO : sp_cont s' = true /\ sp_blank s' = false).
  { unfold tolerates_blanks in TBs. change (sp_cont s') with (sp_cont s). change (sp_blank s') with (sp_blank s). destruct (sp_cont s), (sp_blank s); split; auto; exfalso; auto. }
  destruct CO as (CT' & BL).
  assert (LV : Z.of_nat (List.length vs) = z - sp_starts s0 + 1).
  { destruct (c32_values e w1 s' _ SF NI GD) as (vs' & V & [(_ & Q)|(n' & Q)]); [discriminate|]. injection Q as <- <-.
    destruct V as [cells vs _ (en' & EN' & CF) CV|en' pairs vs CT2 _ _ _]; [|congruence]. rewrite EN in EN'. injection EN' as <-. rewrite (continuous_length _ _ _ BL CV), (cells_length _ _ _ _ _ CF). change (sp_starts s') with (sp_starts s). lia. }
  assert (LL : Z.of_nat (List.length l) = z - sp_starts s0).
  { destruct (c37_index e w1 p1 w2 dfs i n s' f a b nm vs) as (d & Id & IF & RC & IX); auto; [exists z; auto|]. pose proof (in_frame_length _ _ _ RC IF) as LE. rewrite <- WB in IX.
    destruct IX as [CV|(-> & r & x & y & CV & NL & X & Y & CW)].
    - pose proof (count_le f a l _ PF WC RA CV). lia.
    - destruct (range_exact "D" a l PF WC RA Logic.I) as (nm' & _ & DR). replace (List.last (a :: l) a) with (List.last l a) in DR by (destruct l; [auto|cbn; symmetry; apply last_any]). rewrite WB in DR.
      destruct (range_covers "D" a b _ (proj1 Ra) (proj2 Ra) DR) as (CV' & _). rewrite WB in CV. rewrite (covers_one _ _ _ _ _ CV CV') in X, Y. cbn [pr_dates] in X, Y.
      injection X as <-. assert (y = b). { rewrite <- WB. clear -Y. revert Y. rewrite <- (rev_involutive l). generalize (rev l). intros l' Y. destruct l' as [|u l']; cbn [rev] in *; [cbn in Y; injection Y as <-; auto|].
        rewrite last_snoc. rewrite rev_app_distr in Y. cbn in Y. injection Y as <-. auto. }
      subst y. pose proof (days_along _ WC RA a l eq_refl) as DA. rewrite WB in DA.
      pose proof (working_le a b _ (proj1 Ra) (proj2 Ra) ltac:(lia) CW). lia. }
  assert (RB : row_by_row s' f w1 z (a :: l)).
  { split; [cbn [List.length]; change (sp_starts s') with (sp_starts s); lia|]. split.
    - intros k d K. apply H0. apply VH. change (sp_starts s') with (sp_starts s). change (sp_ta s') with (sp_ta s). replace (sp_starts s + Z.of_nat k + sp_ta s) with (sp_starts s0 + sp_ta s0 + Z.of_nat k) by lia. apply WL2; auto. lia.
    - clear -WC. intros k. revert l a WC. induction k as [|k IH]; intros l a WC x y X Y.
      + destruct l as [|u l]; [discriminate|]. injection X as <-. injection Y as <-. inversion WC; auto.
      + destruct l as [|u l]; [destruct k; discriminate|]. inversion WC; subst. eapply (IH l u); eauto. }
  destruct (c66_every_row e w p dfs w1 p1 i n s' f z (a :: l) nm vs) as (d & Id & IF & IX & DB); auto; [discriminate|].
  exists (a :: l), nm, vs, d. split; auto. split; auto. split; [repeat split; auto|]. split; auto. split; auto. split; auto. split; auto. split; auto. split; [discriminate|]. split; auto.
Qed.
