(** The compact representation gives the object back (C74). *)
From Coq Require Import ZifyBool ZifyNat.
From Verif Require Import Base BaseFacts Coord CoordFacts XlMethods Params Compact
  SpecCoord SpecCoordFacts SpecParams SpecScope HeaderFacts ComposedFacts ScopeFacts ScopeExact BuildFacts BuildInv ParamsFacts ParamsProofs ParamsProofs2 SpecAttempts AttemptsFacts
  SpecEnd BuildAccept SpecCompact CompactProofs.
Local Open Scope Z_scope.

(** values compared as Python does and as they are *)
Definition discrete (P : pyval -> Prop) : Prop := forall x y, P x -> P y -> (py_eq x y = true <-> x = y).
Lemma plain_discrete (P : pyval -> Prop) : (forall x, P x -> x = VNone \/ (exists t, x = VStr t)) -> discrete P.
Proof.
  intros H x y X Y. destruct (H _ X) as [-> | [t ->]], (H _ Y) as [-> | [u ->]]; cbn [py_eq]; try (split; discriminate); try (split; reflexivity).
  rewrite text_eqb_eq. split; [intros ->; auto|congruence].
Qed.
Lemma number_discrete (P : pyval -> Prop) : (forall x, P x -> x = VNone \/ (exists z, x = VInt z)) -> discrete P.
Proof.
  intros H x y X Y. destruct (H _ X) as [-> | [t ->]], (H _ Y) as [-> | [u ->]]; cbn [py_eq]; try (split; discriminate); try (split; reflexivity).
  rewrite Z.eqb_eq. split; [intros ->; auto|congruence].
Qed.
Lemma flag_discrete : discrete a_flag.
Proof. intros x y [a ->] [b ->]. cbn [py_eq]. rewrite Bool.eqb_true_iff. split; [intros ->; auto|congruence]. Qed.

Lemma repeat_all (x : pyval) l : Forall (fun y => y = x) l -> l = repeat x (List.length l).
Proof. induction 1; cbn; auto. congruence. Qed.

(** the item for a list of [n] such values *)
Inductive shape (k : text) (l : list pyval) (n : nat) : option pyval -> Prop :=
| sh_same x : l = repeat x n -> text_in k OPTIONAL && is_none x = false -> a_default k x = false -> shape k l n (Some x)
| sh_none : l = repeat VNone n -> text_in k OPTIONAL = true -> shape k l n None
| sh_default x : l = repeat x n -> a_default k x = true -> shape k l n None
| sh_each : (2 <= List.length l)%nat -> shape k l n (Some (VList l)).
Lemma shape_of k P x l n : discrete P -> Forall P (x :: l) -> List.length (x :: l) = n -> k <> n_missing_value -> shape k (x :: l) n (squeezed k x l).
Proof.
  intros D F L K. unfold squeezed. destruct (is_repeated (VList (x :: l))) eqn:R.
  - assert (E : x :: l = repeat x n).
    { rewrite <- L. apply repeat_all. inversion F as [|? ? P0 F']; subst. constructor; auto. pose proof (repeated_all _ _ R) as A.
      rewrite Forall_forall in *. intros y Y. apply D; auto. }
    destruct (text_in k OPTIONAL && is_none x) eqn:O.
    + apply andb_true_iff in O as [O1 O2]. destruct x; try discriminate. apply sh_none; auto.
    + destruct (a_default k x) eqn:A; [eapply sh_default|apply sh_same]; eauto.
  - assert (L2 : (2 <= List.length (x :: l))%nat).
    { destruct l as [|y l]; [|cbn; lia]. exfalso. inversion F; subst. cbn in R. rewrite (proj2 (D x x H1 H1) eq_refl) in R. discriminate. }
    replace (a_default k (VList (x :: l))) with false; [apply sh_each; auto|]. unfold a_default. destruct (text_in k USE_DEFAULT) eqn:U; auto.
    apply text_in_In in U. destruct U as [<-|[<-|[]]]; [reflexivity|congruence].
Qed.

Lemma cells_value (ts : list text) cs : names_cells ts cs -> ts <> [] -> value_cells (VList (map VStr ts)) cs.
Proof.
  intros N NE. replace cs with (List.concat (map (fun x => [x]) cs)).
  - apply vc_list; auto. clear NE. induction N as [|t [r c] ts cs H N IH]; constructor; auto. apply entry_cell. auto.
  - clear. induction cs; cbn; congruence.
Qed.
Lemma cells_upper (ts : list text) : Forall in_capitals ts -> map upper ts = ts.
Proof. induction 1 as [|t ts H F IH]; cbn; auto. unfold in_capitals in H. congruence. Qed.
Lemma unpack_cells (ts : list text) cs : are_cells ts cs -> ts <> [] -> unpack_header_ranges (VList (map VStr ts)) = Ok (VList (map VStr ts)).
Proof.
  intros [N C] NE. rewrite (unpack_header_list ts (map (fun t => [upper t]) ts) NE (unpack_again _ _ N)). do 3 f_equal.
  rewrite <- (cells_upper ts C) at 2. clear. induction ts; cbn; congruence.
Qed.
Lemma unpack_cell (t : text) rc : are_cells [t] [rc] -> unpack_header_ranges (VStr t) = Ok (VList [VStr t]).
Proof.
  intros [N C]. inversion N as [|? ? ? ? H N']; subst. inversion C as [|? ? C1 C2]; subst. destruct rc as [r c].
  pose proof H as H'. apply cell_named_iff in H'. rewrite (unpack_header_text t [upper t] [(r, c)]); [unfold in_capitals in C1; rewrite C1; auto|apply entry_cell; auto|eapply unpack_single; eauto].
Qed.

Lemma has_parts (l : list pyval) n : List.length l = S n -> exists x l', l = x :: l'.
Proof. destruct l; cbn; [discriminate|]. eauto. Qed.

Lemma freq_same t : Forall (fun c => In c (pname "ASQMWD")) t -> freq_reading t = t.
Proof.
  intros F. assert (U : upper t = t).
  { induction F as [|x t X F IH]; auto. cbn [upper map]. change (map up_ch t) with (upper t). rewrite IH. f_equal. cbn in X. repeat (destruct X as [<-|X]; [reflexivity|]). destruct X. }
  unfold freq_reading. rewrite U.
  assert (Y : ~ In "Y"%char t).
  { intros I. rewrite Forall_forall in F. apply F in I. cbn in I. repeat (destruct I as [I|I]; [discriminate|]). destruct I. }
  assert (N : forall u, In "Y"%char u -> text_eqb t u = false) by (intros u I; apply text_eqb_neq; intros ->; contradiction).
  rewrite !N by (cbn; auto 10). reflexivity.
Qed.

Section Back.
Variables (json : text -> res dict) (p : dict) (m : nat) (cells : list (Z * Z)) (z : Z).
Hypothesis OBJ : map fst p = PARAM_NAMES.
Hypothesis RS : restorable p (S m) cells z.
Variable c : dict.
Hypothesis NDc : NoDup (map fst c).
Hypothesis INc : incl (map fst c) PARAM_NAMES.
Hypothesis IT : forall k, In k PARAM_NAMES -> compact_one p k (dgetN k p) = Ok (item (dget k c) k).
Local Notation n := (S m).

Ltac known := apply text_in_In; reflexivity.

Lemma per_shape k P : In (pname k) PARAM_NAMES -> pname k <> n_missing_value -> discrete P -> per_series p n k P ->
  exists l, dgetN (pname k) p = VList l /\ List.length l = n /\ Forall P l /\ shape (pname k) l n (dget (pname k) c).
Proof.
  intros K NM D (l & E & L & F). exists l. split; auto. split; auto. split; auto. destruct (has_parts _ _ L) as (x & l' & ->).
  rewrite (c_list p c IT _ x l' K E). eapply shape_of; eauto.
Qed.

Lemma starts_shape : exists l, dgetN n_data_starts p = VList l /\ List.length l = n /\ Forall a_number l /\ shape n_data_starts l n (dget n_data_starts c).
Proof. apply (per_shape "data_starts"); [known|discriminate| |apply (rs_starts _ _ _ _ RS)]. apply number_discrete. intros x [y ->]. eauto. Qed.
Lemma freq_shape : exists l, dgetN n_frequency p = VList l /\ List.length l = n /\ Forall a_frequency l /\ shape n_frequency l n (dget n_frequency c).
Proof. apply (per_shape "frequency"); [known|discriminate| |apply (rs_frequency _ _ _ _ RS)]. apply plain_discrete. intros x [y [-> _]]. eauto. Qed.
Lemma ends_shape : exists l, dgetN n_data_ends p = VList l /\ List.length l = n /\ Forall (fun v => a_number v \/ v = VNone) l /\ shape n_data_ends l n (dget n_data_ends c).
Proof. apply (per_shape "data_ends"); [known|discriminate| |apply (rs_ends _ _ _ _ RS)]. apply number_discrete. intros x [[y ->] | ->]; eauto. Qed.
Lemma names_shape : exists l, dgetN n_series_names p = VList l /\ List.length l = n /\ Forall (fun v => a_text v \/ v = VNone) l /\ shape n_series_names l n (dget n_series_names c).
Proof. apply (per_shape "series_names"); [known|discriminate| |apply (rs_names _ _ _ _ RS)]. apply plain_discrete. intros x [[y ->] | ->]; eauto. Qed.
Lemma aligned_shape : exists l, dgetN n_time_alignment p = VList l /\ List.length l = n /\ Forall (fun v => v = VInt (-1) \/ v = VInt 0 \/ v = VInt 1) l /\
  shape n_time_alignment l n (dget n_time_alignment c).
Proof. apply (per_shape "time_alignment"); [known|discriminate| |apply (rs_aligned _ _ _ _ RS)]. apply number_discrete. intros x [-> | [-> | ->]]; eauto. Qed.
Lemma flag_shape k : In k ["continuity"; "blank_rows"; "missings"; "time_composed"]%string -> dgetN (pname k) p = VNone /\ dget (pname k) c = None \/
  exists l, dgetN (pname k) p = VList l /\ List.length l = n /\ Forall a_flag l /\ shape (pname k) l n (dget (pname k) c).
Proof.
  intros K. assert (In (pname k) PARAM_NAMES /\ pname k <> n_missing_value) as [KP KM].
  { repeat (destruct K as [<-|K]; [split; [known|discriminate]|]). destruct K. }
  destruct (rs_flags _ _ _ _ RS k K) as [E|E].
  - left. split; auto. apply (c_none p c IT); auto.
  - right. apply per_shape with (P := a_flag); auto. apply flag_discrete.
Qed.
Lemma layout_shape : dgetN n_alignment p = VNone /\ dget n_alignment c = None /\ unseen cells \/
  exists l, dgetN n_alignment p = VList l /\ List.length l = n /\ Forall layouts l /\ shape n_alignment l n (dget n_alignment c).
Proof.
  destruct (rs_layout _ _ _ _ RS) as [[E U]|E].
  - left. split; auto. split; auto. apply (c_none p c IT); auto. known.
  - right. apply (per_shape "alignment"); [known|discriminate| |auto]. apply plain_discrete. intros x [-> | ->]; eauto.
Qed.
Lemma none_of k : In (pname k) PARAM_NAMES -> text_in (pname k) OPTIONAL = true -> same_for_all p n k VNone -> dget (pname k) c = None.
Proof.
  intros K O E. unfold same_for_all in E. cbn [repeat] in E. rewrite (c_list p c IT _ _ _ K E). unfold squeezed.
  replace (is_repeated (VList (VNone :: repeat VNone m))) with true.
  - rewrite O. reflexivity.
  - symmetry. cbn [is_repeated]. apply forallb_forall. intros x [<-|X]; auto. apply repeat_spec in X. subst. auto.
Qed.
Lemma composed_none : dget n_composed c = None.
Proof. apply (none_of "composed_headers_coord"); [known|reflexivity|apply (rs_plain _ _ _ _ RS)]. Qed.
Lemma context_none : dget n_context c = None.
Proof. apply (none_of "context"); [known|reflexivity|apply (rs_plain _ _ _ _ RS)]. Qed.

(** markers *)
Lemma eq_list_refl l : Forall (fun v => py_eq v v = true) l -> py_eq (VList l) (VList l) = true.
Proof. induction 1 as [|x l H F IH]; auto. cbn [py_eq] in *. rewrite H. auto. Qed.
Lemma same_one k x : In (pname k) PARAM_NAMES -> py_eq x x = true -> same_for_all p n k x -> text_in (pname k) OPTIONAL = false ->
  dget (pname k) c = if a_default (pname k) x then None else Some x.
Proof.
  intros K R E O. unfold same_for_all in E. cbn [repeat] in E. rewrite (c_list p c IT _ _ _ K E). unfold squeezed.
  replace (is_repeated (VList (x :: repeat x m))) with true.
  - rewrite O. reflexivity.
  - symmetry. cbn [is_repeated]. apply forallb_forall. intros y [<-|Y]; auto. apply repeat_spec in Y. subst. auto.
Qed.
Lemma eq_texts : forall (l q : list pyval), Forall (fun v => v = VNone \/ exists t, v = VStr t) l -> py_eq (VList l) (VList q) = true -> q = l.
Proof.
  induction l as [|x l IH]; intros [|y q] F H; auto; try discriminate. inversion F as [|? ? X F']; subst. cbn [py_eq] in H. apply andb_true_iff in H as [H1 H2].
  f_equal; [|apply IH; auto]. destruct X as [-> | [t ->]]; destruct y; try discriminate; auto. cbn in H1. apply text_eqb_eq in H1. congruence.
Qed.
Lemma markers_shape : exists ms, dgetN n_missing_value p = VList (repeat (VList ms) n) /\ (forall x ms', ms <> VList x :: ms') /\
  (dget n_missing_value c = Some (VList ms) \/ dget n_missing_value c = None /\ ms = usual_markers).
Proof.
  destruct (rs_markers _ _ _ _ RS) as (ms & E & NL & R). exists ms. split; auto. split; auto.
  pose proof (same_one "missing_value" (VList ms) ltac:(known) (eq_list_refl _ R) E eq_refl) as X.
  change (pname "missing_value") with n_missing_value in X. rewrite X. destruct (a_default n_missing_value (VList ms)) eqn:A; auto. right. split; auto.
  apply andb_true_iff in A as [_ A]. change (dgetN n_missing_value DEFAULT_VALUES) with (VList usual_markers) in A. apply eq_texts in A; auto.
  unfold usual_markers. repeat (constructor; [eauto|]). constructor.
Qed.

(** headers *)
Lemma differ_texts (hs : list text) cs : names_cells hs cs -> differ cs -> is_repeated (VList (map VStr hs)) = false.
Proof.
  intros N (a & b & A & B & AB). destruct (is_repeated (VList (map VStr hs))) eqn:R; auto. exfalso. apply AB.
  destruct hs as [|h hs]; [inversion N; subst; destruct A|].
  assert (G : forall rc, In rc cs -> cell_named h (fst rc) (snd rc)).
  { intros rc I. cbn [map is_repeated] in R. rewrite forallb_forall in R. clear A B AB.
    assert (exists t, In t (h :: hs) /\ cell_named t (fst rc) (snd rc)) as (t & T1 & T2).
    { clear R. induction N as [|t x hs0 cs Hx N IH]; [destruct I|]. destruct I as [->|I]; [exists t; cbn; auto|]. destruct (IH I) as (t' & X & Y). exists t'. cbn. auto. }
    specialize (R (VStr t)). assert (RT : py_eq (VStr t) (VStr h) = true) by (apply R; change (VStr h :: map VStr hs) with (map VStr (h :: hs)); apply in_map; auto).
    cbn in RT. apply text_eqb_eq in RT. subst. auto. }
  apply G in A, B. apply cell_named_iff in A, B. rewrite A in B. rewrite (surjective_pairing a), (surjective_pairing b). congruence.
Qed.
Lemma header_shape : exists hs, dgetN n_headers_coord p = VList (map VStr hs) /\ are_cells hs cells /\ List.length hs = n /\
  (exists v, dget n_headers_coord c = Some v /\ value_cells v cells /\ unpack_header_ranges v = Ok (VList (map VStr hs)) /\ each a_text v).
Proof.
  destruct (rs_headers _ _ _ _ RS) as (hs & E & AC & L). exists hs. split; auto. split; auto.
  pose proof (names_len _ _ (proj1 AC)) as LN. split; [lia|].
  destruct hs as [|h hs]; [cbn in LN; lia|]. cbn [map] in E. rewrite (c_list p c IT n_headers_coord (VStr h) (map VStr hs) ltac:(known) E).
  unfold squeezed. destruct (rs_differ _ _ _ _ RS) as [N1|D].
  - assert (hs = []) as -> by (destruct hs; auto; cbn in LN; lia). assert (m = O) by lia.
    assert (exists rc, cells = [rc]) as [rc ->] by (destruct cells as [|rc [|]]; cbn in LN; try lia; eauto).
    cbn [map]. replace (is_repeated (VList [VStr h])) with true by (cbn; rewrite text_eqb_refl; auto). cbn [is_none]. rewrite andb_false_r.
    exists (VStr h). split; auto. split; [|split].
    + destruct AC as [N _]. inversion N; subst. destruct rc. apply vc_text, entry_cell. auto.
    + eapply unpack_cell; eauto.
    + eexists; reflexivity.
  - pose proof (differ_texts _ _ (proj1 AC) D) as R. cbn [map] in R. rewrite R.
    exists (VList (map VStr (h :: hs))). split; [reflexivity|]. split; [|split].
    + apply cells_value; [apply AC|discriminate].
    + eapply unpack_cells; eauto. discriminate.
    + cbn [each]. apply Forall_forall. intros x X. apply in_map_iff in X as (y & <- & _). eexists; reflexivity.
Qed.

(** the time header *)
Inductive time_kind : Prop :=
| tk_cell t rc : dgetN n_time_header p = VList (repeat (VStr t) n) -> dgetN n_time_multicolumn p = VList (repeat (VBool false) n) -> are_cells [t] [rc] ->
    dget n_time_header c = Some (VStr t) -> dget n_time_multicolumn c = Some (VBool false) -> time_kind
| tk_columns ts cs : dgetN n_time_header p = VList (repeat (VList (map VStr ts)) n) -> dgetN n_time_multicolumn p = VList (repeat (VBool true) n) -> are_cells ts cs ->
    (2 <= List.length ts <= n)%nat -> dget n_time_header c = Some (VList (map VStr ts)) -> dget n_time_multicolumn c = Some (VBool true) -> time_kind
| tk_each ts cs : dgetN n_time_header p = VList (map VStr ts) -> dgetN n_time_multicolumn p = VList (repeat (VBool false) n) -> are_cells ts cs -> List.length ts = n -> (2 <= n)%nat ->
    is_repeated (VList (map VStr ts)) = false -> ~ run_after_skipping cs ->
    dget n_time_header c = Some (VList (map VStr ts)) -> dget n_time_multicolumn c = Some (VBool false) -> time_kind.
Lemma time_shape : time_kind.
Proof.
  destruct (rs_time _ _ _ _ RS) as [t r cl E1 AC E2|ts cs E1 AC ND L E2|ts cs E1 AC L D NR E2].
  - apply (tk_cell t (r, cl)); auto.
    + apply (same_one "time_header_coord" (VStr t)); auto; try known. cbn. apply text_eqb_refl.
    + apply (same_one "time_multicolumn" (VBool false)); auto; try known.
  - pose proof (names_len _ _ (proj1 AC)) as LN. apply (tk_columns ts cs); auto; [lia| |].
    + apply (same_one "time_header_coord" (VList (map VStr ts))); auto; try known.
      apply eq_list_refl. apply Forall_forall. intros x X. apply in_map_iff in X as (y & <- & _). cbn. apply text_eqb_refl.
    + apply (same_one "time_multicolumn" (VBool true)); auto; try known.
  - pose proof (names_len _ _ (proj1 AC)) as LN. pose proof (differ_texts _ _ (proj1 AC) D) as R.
    assert (L2 : (2 <= n)%nat).
    { destruct D as (a & b & A & B & AB). destruct cs as [|x [|y cs]]; cbn [List.length In] in *; try lia. destruct A as [A|[]], B as [B|[]]. congruence. }
    apply (tk_each ts cs); auto; [lia| |apply (same_one "time_multicolumn" (VBool false)); auto; known].
    destruct ts as [|t ts]; [cbn in LN; lia|]. cbn [map] in *. rewrite (c_list p c IT n_time_header _ _ ltac:(known) E1). unfold squeezed. rewrite R. reflexivity.
Qed.

(** ** It is accepted *)
Lemma shape_each (P : pyval -> Prop) k l o v : shape k l n o -> Forall P l -> (forall x, P x -> ~ is_list_value x) -> o = Some v -> each P v.
Proof.
  intros H F NL E. destruct H as [x EL _ _|E1 _|x E1 _|L2]; inversion E; subst; auto.
  assert (P v) by (rewrite Forall_forall in F; apply F; cbn; auto). specialize (NL _ H). destruct v; auto. exfalso. apply NL. eexists; reflexivity.
Qed.
Lemma each_impl (P Q : pyval -> Prop) v : (forall x, P x -> Q x) -> each P v -> each Q v.
Proof. intros H E. destruct v; cbn [each] in *; auto. eapply Forall_impl; [|exact E]. auto. Qed.
Lemma back_acceptable k v : In k PARAM_NAMES -> dget k c = Some v -> acceptable k v.
Proof.
  intros K D. unfold PARAM_NAMES in K.
  assert (NB : forall x, a_flag x -> ~ is_list_value x) by (intros x [b ->] [l Y]; discriminate).
  assert (FL : forall s, In s ["continuity"; "blank_rows"; "missings"; "time_composed"]%string -> k = pname s ->
    In k [pname "continuity"; pname "blank_rows"; pname "missings"; pname "time_multicolumn"; pname "time_composed"] -> acceptable k v).
  { intros s0 S0 -> KF. apply acc_flag; auto. destruct (flag_shape s0 S0) as [[_ X]|(l & _ & _ & F & SH)]; [congruence|].
    eapply each_impl; [|exact (shape_each a_flag _ _ _ _ SH F NB D)]. intros x [b ->]. destruct b; [left|right]; reflexivity. }
  destruct K as [<-|K].
  { apply acc_alignment. destruct layout_shape as [(_ & X & _)|(l & _ & _ & F & SH)]; [congruence|].
    apply (shape_each layouts _ _ _ _ SH F); auto. intros x [-> | ->] [y Y]; discriminate. }
  destruct K as [<-|K].
  { apply acc_names. destruct names_shape as (l & _ & _ & F & SH). apply (shape_each _ _ _ _ _ SH F); auto. intros x [[t ->] | ->] [y Y]; discriminate. }
  destruct K as [<-|K].
  { apply acc_headers. destruct header_shape as (hs & _ & _ & _ & v' & E & _ & _ & T). congruence. }
  destruct K as [<-|K]; [rewrite composed_none in D; discriminate|].
  destruct K as [<-|K]; [rewrite context_none in D; discriminate|].
  destruct K as [<-|K].
  { apply acc_data_starts. destruct starts_shape as (l & _ & _ & F & SH). eapply (shape_each an_int _ _ _ _ SH); eauto.
    - eapply Forall_impl; [|exact F]. intros x [y ->]. left. eauto.
    - intros x [[y ->] | [y ->]] [q Y]; discriminate. }
  destruct K as [<-|K].
  { apply acc_data_ends. destruct ends_shape as (l & _ & _ & F & SH). eapply (shape_each (fun x => an_int x \/ x = VNone) _ _ _ _ SH); eauto.
    - eapply Forall_impl; [|exact F]. intros x [[y ->] | ->]; [left; left|right]; eauto.
    - intros x [[[y ->] | [y ->]] | ->] [q Y]; discriminate. }
  destruct K as [<-|K]; [apply (FL "continuity"%string); cbn; auto|].
  destruct K as [<-|K]; [apply (FL "blank_rows"%string); cbn; auto|].
  destruct K as [<-|K]; [apply (FL "missings"%string); cbn; auto|].
  destruct K as [<-|K]; [apply acc_missing_value|].
  destruct K as [<-|K].
  { apply acc_time_alignment. destruct aligned_shape as (l & _ & _ & F & SH).
    eapply each_impl; [|exact (shape_each _ _ _ _ _ SH F ltac:(intros x [-> | [-> | ->]] [q Y]; discriminate) D)]. intros x [-> | [-> | ->]]; auto. }
  destruct K as [<-|K].
  { apply acc_flag; [known|]. destruct time_shape as [t rc E1 E2 AC D1 D2|ts cs E1 E2 AC L D1 D2|ts cs E1 E2 AC L L2 R NR D1 D2];
      rewrite D in D2; inversion D2; subst; cbn [each]; [right|left|right]; reflexivity. }
  destruct K as [<-|K].
  { apply acc_time_header. destruct time_shape as [t rc E1 E2 AC D1 D2|ts cs E1 E2 AC L D1 D2|ts cs E1 E2 AC L L2 R NR D1 D2];
      rewrite D in D1; inversion D1; subst; cbn [each]; [left; eexists; reflexivity| |];
      apply Forall_forall; intros x X; apply in_map_iff in X as (y & <- & _); left; eexists; reflexivity. }
  destruct K as [<-|K]; [apply (FL "time_composed"%string); cbn; auto 6|].
  destruct K as [<-|[]].
  apply acc_frequency. destruct freq_shape as (l & _ & _ & F & SH).
  eapply (shape_each frequency_text _ _ _ _ SH); eauto.
  - eapply Forall_impl; [|exact F]. intros x (t & -> & T). exists t. split; auto. rewrite freq_same; auto.
  - intros x (t & -> & _) [q Y]; discriminate.
Qed.

Lemma cells_ne : cells <> [].
Proof. destruct (rs_headers _ _ _ _ RS) as (hs & _ & _ & L). destruct cells; [discriminate|congruence]. Qed.
Lemma cells_len : List.length cells = n.
Proof. destruct (rs_headers _ _ _ _ RS) as (hs & _ & _ & L). exact L. Qed.
Lemma time_value : exists v tcells, dget n_time_header c = Some v /\ value_cells v tcells /\ tcells <> [] /\ (List.length tcells <= n)%nat.
Proof.
  destruct time_shape as [t rc E1 E2 AC D1 D2|ts cs E1 E2 AC L D1 D2|ts cs E1 E2 AC L L2 R NR D1 D2].
  - exists (VStr t), [rc]. split; auto. split; [|split; [congruence|cbn; lia]]. destruct AC as [N _]. inversion N; subst. destruct rc. apply vc_text, entry_cell. auto.
  - pose proof (names_len _ _ (proj1 AC)) as LN. exists (VList (map VStr ts)), cs. split; auto. split; [apply cells_value; [apply AC|]|split; [|lia]].
    + destruct ts; [cbn in L; lia|congruence].
    + destruct cs; [cbn in LN; lia|congruence].
  - pose proof (names_len _ _ (proj1 AC)) as LN. exists (VList (map VStr ts)), cs. split; auto. split; [apply cells_value; [apply AC|]|split; [|lia]].
    + destruct ts; [cbn in L; lia|congruence].
    + destruct cs; [cbn in LN; lia|congruence].
Qed.
Lemma shape_some k l o : shape k l n o -> text_in k OPTIONAL = false -> text_in k USE_DEFAULT = false -> exists v, o = Some v.
Proof. intros H O U. destruct H as [x _ _ _|_ X|x _ A|_]; eauto; [congruence|]. unfold a_default in A. rewrite U in A. discriminate. Qed.
Lemma back_accepted : exists q, make_params json (PDict c) = Ok q.
Proof.
  apply (c55 json c cells z).
  - constructor; auto.
    + intros k v I. assert (K : In k PARAM_NAMES) by (apply INc; eapply In_keys; eauto). split; [exact K|]. apply back_acceptable; auto. apply dget_NoDup; auto.
    + destruct header_shape as (hs & _ & _ & _ & v & E & V & _). exists v. split; auto. constructor. auto.
    + destruct time_value as (v & tc & E & V & NE & _). exists v, tc. auto.
    + destruct (rs_starts _ _ _ _ RS) as [_ (l0 & E0 & X0)]. destruct starts_shape as (l & E & L & F & SH). change (pname "data_starts") with n_data_starts in E0.
      rewrite E in E0. inversion E0; subst l0. destruct l as [|x l]; [discriminate|]. cbn in X0. inversion X0; subst x.
      destruct (shape_some _ _ _ SH eq_refl eq_refl) as [v V]. rewrite V in SH. exists v, (VInt z). split; auto. split; [|constructor].
      inversion SH as [x EL _ _| | |L2]; subst; [left; cbn [repeat] in EL; congruence|right; eauto].
    + destruct freq_shape as (l & E & L & F & SH). destruct (shape_some _ _ _ SH eq_refl eq_refl) as [v V]. rewrite V in SH. exists v. split; auto.
      inversion SH as [x EL _ _| | |L2]; subst; [|discriminate]. intros ->. cbn [repeat] in F.
      inversion F as [|? ? (t & T & _) _]; subst. discriminate.
    + intros ms l X. destruct markers_shape as (ms' & _ & NL & [Y|[Y _]]); change (pname "missing_value") with n_missing_value in X; rewrite X in Y; inversion Y; subst. eapply NL; eauto.
    + left. intros (v & X & _). change (pname "context") with n_context in X. rewrite context_none in X. discriminate.
  - pose proof (rs_after _ _ _ _ RS) as A. pose proof layout_shape as LS. unfold data_after_header. destruct cells as [|[r0 c0] others]; auto. destruct A as [A1 A2].
    change (pname "alignment") with n_alignment in *. unfold same_for_all in *. change (pname "alignment") with n_alignment in *.
    assert (GA : forall s, dget n_alignment c = Some (VStr (pname s)) -> dgetN n_alignment p = VList (repeat (VStr (pname s)) n)).
    { intros s X. destruct LS as [(_ & Y & _)|(l & E & L & F & SH)]; [congruence|]. rewrite X in SH. inversion SH; subst. congruence. }
    assert (GN : dget n_alignment c = None -> dgetN n_alignment p = VNone).
    { intros X. destruct LS as [(Y & _)|(l & E & L & F & SH)]; auto. destruct (shape_some _ _ _ SH eq_refl eq_refl) as [v V]. congruence. }
    split; [intros [X|(X & Y)]; apply A1; [left; apply GA; auto|right; split; auto]|intros [X|(X & Y)]; apply A2; [left; apply GA; auto|right; split; auto]].
Qed.

Lemma back_count q : make_params json (PDict c) = Ok q -> series_count q n.
Proof.
  intros H. destruct header_shape as (hs & _ & _ & _ & v & E & V & _). pose proof cells_len as CL. rewrite <- CL.
  apply (c10 json c q v cells); auto; [constructor; auto|apply cells_ne|]. rewrite CL. split.
  - intros k l D K. assert (KP : In k PARAM_NAMES) by (apply INc; eapply dget_has; eauto).
    assert (SH : forall l0 (P : pyval -> Prop), List.length l0 = n -> Forall P l0 -> (forall x, P x -> ~ is_list_value x) -> shape k l0 n (dget k c) -> (List.length l <= n)%nat).
    { intros l0 P L0 F NL SH. rewrite D in SH. inversion SH; subst; [|lia]. exfalso. cbn [repeat] in F.
      inversion F; subst. eapply NL; eauto. eexists; reflexivity. }
    assert (NB : forall x, a_flag x -> ~ is_list_value x) by (intros x [b ->] [l' Y]; discriminate).
    unfold PARAM_NAMES in KP.
    destruct KP as [<-|KP]; [destruct layout_shape as [(_ & X & _)|(l0 & _ & L & F & S0)]; [congruence|]; eapply SH; eauto; intros x [-> | ->] [y Y]; discriminate|].
    destruct KP as [<-|KP]; [destruct names_shape as (l0 & _ & L & F & S0); eapply SH; eauto; intros x [[t ->] | ->] [y Y]; discriminate|].
    destruct KP as [<-|KP]; [exfalso; apply K; cbn; auto|].
    destruct KP as [<-|KP]; [rewrite composed_none in D; discriminate|].
    destruct KP as [<-|KP]; [rewrite context_none in D; discriminate|].
    destruct KP as [<-|KP]; [destruct starts_shape as (l0 & _ & L & F & S0); eapply SH; eauto; intros x [t ->] [y Y]; discriminate|].
    destruct KP as [<-|KP]; [destruct ends_shape as (l0 & _ & L & F & S0); eapply SH; eauto; intros x [[t ->] | ->] [y Y]; discriminate|].
    destruct KP as [<-|KP]; [destruct (flag_shape "continuity") as [[_ X]|(l0 & _ & L & F & S0)]; [cbn; auto|change (pname "continuity") with n_continuity in X; congruence|eapply SH; eauto]|].
    destruct KP as [<-|KP]; [destruct (flag_shape "blank_rows") as [[_ X]|(l0 & _ & L & F & S0)]; [cbn; auto|change (pname "blank_rows") with n_blank_rows in X; congruence|eapply SH; eauto]|].
    destruct KP as [<-|KP]; [destruct (flag_shape "missings") as [[_ X]|(l0 & _ & L & F & S0)]; [cbn; auto|change (pname "missings") with n_missings in X; congruence|eapply SH; eauto]|].
    destruct KP as [<-|KP]; [exfalso; apply K; cbn; auto 6|].
    destruct KP as [<-|KP]; [destruct aligned_shape as (l0 & _ & L & F & S0); eapply SH; eauto; intros x [-> | [-> | ->]] [y Y]; discriminate|].
    destruct KP as [<-|KP]; [destruct time_shape as [t rc E1 E2 AC D1 D2|ts cs E1 E2 AC L D1 D2|ts cs E1 E2 AC L L2 R NR D1 D2]; congruence|].
    destruct KP as [<-|KP]; [exfalso; apply K; cbn; auto 6|].
    destruct KP as [<-|KP]; [destruct (flag_shape "time_composed") as [[_ X]|(l0 & _ & L & F & S0)]; [cbn; auto 6|change (pname "time_composed") with n_time_composed in X; congruence|eapply SH; eauto]|].
    destruct KP as [<-|[]]. destruct freq_shape as (l0 & _ & L & F & S0); eapply SH; eauto; intros x (t & -> & _) [y Y]; discriminate.
  - destruct time_value as (tv & tc & ET & VT & _ & LT). exists tv. split; auto. left. exists tc. auto.
Qed.

(** ** The values *)
Section Values.
Variable q : dict.
Hypothesis H : make_params json (PDict c) = Ok q.

Lemma c_nonempty : c <> [].
Proof. destruct header_shape as (hs & _ & _ & _ & v & E & _). eapply dget_ne; eauto. Qed.
Lemma back_build : exists b f th tmv alv ctxv comps hs d6 d8 d9, q = params_of b /\ built c b f th tmv alv ctxv comps hs n d6 d8 d9.
Proof.
  destruct (built_series json c q n 0 NDc c_nonempty H (back_count q H) ltac:(lia)) as (b & k & f & th & tmv & alv & ctxv & comps & hs & d6 & d8 & d9 & E & E' & _ & B).
  inversion E; subst k. exists b, f, th, tmv, alv, ctxv, comps, hs, d6, d8, d9. auto.
Qed.
Lemma bcast_shape k l o v : List.length l = n -> shape k l n o -> (forall x, In x l -> ~ is_list_value x) -> o = Some v -> bcast n v = VList l.
Proof.
  intros L SH NL E. destruct SH as [x EL _ _|E1 _|x E1 _|L2]; inversion E; subst.
  - rewrite bcast_scalar; auto. apply NL. cbn; auto.
  - apply bcast_full. auto.
Qed.
Lemma shape_nonlist k l v : shape k l n (Some v) -> (forall x, In x l -> ~ is_list_value x) -> v <> VList [].
Proof.
  intros SH NL E. remember (Some v) as o eqn:O. destruct SH as [x EL _ _|_ _|x _ _|L2]; inversion O; subst.
  - apply (NL (VList [])); [cbn; auto|eexists; reflexivity].
  - inversion H1; subst. cbn in L2. lia.
Qed.

Lemma left_option k : In k [n_series_names; n_data_ends; n_composed; n_context] -> dget k c = None -> dgetN k q = VList (repeat VNone n).
Proof.
  intros K G. pose proof header_shape as HS. destruct back_build as (b & f & th & tmv & alv & ctxv & comps & hs & d6 & d8 & d9 & -> & B).
  assert (KP : In k PARAM_NAMES /\ text_in k OPTIONAL = true /\ k <> n_time_header /\ k <> n_missing_value /\
    (exists vv, valid_values k = Ok vv /\ none_in vv = true) /\ text_eqb k n_time_multicolumn = false /\ text_eqb k n_alignment = false).
  { repeat (destruct K as [<-|K]; [split; [apply text_in_In; reflexivity|]; split; [reflexivity|]; split; [discriminate|]; split; [discriminate|];
      split; [eexists; split; reflexivity|]; split; reflexivity|]). destruct K. }
  destruct KP as (K1 & K2 & K3 & K4 & (vv & K5 & K6) & K7 & K8).
  rewrite params_of_get by auto. rewrite (built_value _ _ _ _ _ _ _ _ _ _ _ _ _ B), K2.
  assert (CP : existsb truthy comps = false).
  { destruct HS as (hs' & _ & [N _] & _ & hv & Hh & _ & U & _). pose proof (bt_headers _ _ _ _ _ _ _ _ _ _ _ _ _ B) as P.
    rewrite (dgetN_some _ _ _ Hh) in P. unfold process_headers_coord in P. rewrite U in P. cbn [bind] in P.
    rewrite (separate_plain hs' cells N) in P. inversion P. clear. induction hs'; auto. }
  assert (F : dgetN k c = VNone) by (unfold dgetN; rewrite G; auto).
  assert (E8 : dgetN k d8 = VNone).
  { rewrite (bt_d8 _ _ _ _ _ _ _ _ _ _ _ _ _ B), K7, K8, (bt_d6 _ _ _ _ _ _ _ _ _ _ _ _ _ B), CP.
    pose proof (bt_context _ _ _ _ _ _ _ _ _ _ _ _ _ B) as CX.
    repeat (destruct K as [<-|K]; [cbn [text_eqb]|]); try (destruct K); try (rewrite F; reflexivity).
    cbn - [dgetN]. rewrite F in CX. exact CX. }
  destruct (in_dec text_dec k (map fst d8)) as [I|I].
  - rewrite (b_gen9 B NDc k vv) by auto. rewrite E8. unfold apply_to_all_gen. rewrite K6. cbn [is_none andb negb]. rewrite andb_false_r. reflexivity.
  - rewrite (b_not8 B NDc k I). reflexivity.
Qed.
Lemma left_flags k : In k [n_continuity; n_blank_rows; n_missings; n_time_composed] -> dget k c = None -> dgetN k q = VNone.
Proof.
  intros K G. destruct back_build as (b & f & th & tmv & alv & ctxv & comps & hs & d6 & d8 & d9 & -> & B).
  assert (KP : In k PARAM_NAMES /\ text_in k OPTIONAL = false /\ k <> n_time_header /\ k <> n_missing_value /\
    (exists vv, valid_values k = Ok vv /\ apply_to_all_gen VNone (Some n) vv = VNone) /\ dgetN k d8 = VNone).
  { assert (F : dgetN k c = VNone) by (unfold dgetN; rewrite G; auto).
    repeat (destruct K as [<-|K]; [split; [apply text_in_In; reflexivity|]; split; [reflexivity|]; split; [discriminate|]; split; [discriminate|];
      split; [eexists; split; reflexivity|]; rewrite (bt_d8 _ _ _ _ _ _ _ _ _ _ _ _ _ B), (bt_d6 _ _ _ _ _ _ _ _ _ _ _ _ _ B), F; reflexivity|]). destruct K. }
  destruct KP as (K1 & K2 & K3 & K4 & (vv & K5 & K6) & E8).
  rewrite params_of_get by auto. rewrite (built_value _ _ _ _ _ _ _ _ _ _ _ _ _ B), K2.
  destruct (in_dec text_dec k (map fst d8)) as [I|I].
  - rewrite (b_gen9 B NDc k vv) by auto. rewrite E8. auto.
  - rewrite (b_not8 B NDc k I). reflexivity.
Qed.
(** a parameter kept as given *)
Lemma kept k l : In k ParamsProofs.plain_names -> List.length l = n -> (forall x, In x l -> ~ is_list_value x) -> shape k l n (dget k c) ->
  (dget k c = None -> dgetN k q = VList l) -> (forall x, In x l -> x = VNone -> text_in k OPTIONAL = true) -> dgetN k q = VList l.
Proof.
  intros K L NL SH GN NN. destruct (dget k c) as [v|] eqn:D; [|auto]. destruct back_build as (b & f & th & tmv & alv & ctxv & comps & hs & d6 & d8 & d9 & -> & B).
  rewrite (plain_value B NDc k v K D).
  - eapply bcast_shape; eauto.
  - intros ->. inversion SH as [x EL O _| | |]; subst. specialize (NN VNone ltac:(cbn; auto) eq_refl). rewrite NN in O. discriminate.
  - eapply shape_nonlist; eauto.
Qed.
Lemma forall_nonlist (P : pyval -> Prop) l : Forall P l -> (forall x, P x -> ~ is_list_value x) -> forall x, In x l -> ~ is_list_value x.
Proof. intros F G x X. rewrite Forall_forall in F. auto. Qed.
Lemma back_flag s : In s ["continuity"; "blank_rows"; "missings"; "time_composed"]%string -> dgetN (pname s) q = dgetN (pname s) p.
Proof.
  intros K. assert (K2 : In (pname s) [n_continuity; n_blank_rows; n_missings; n_time_composed] /\ In (pname s) ParamsProofs.plain_names /\ text_in (pname s) OPTIONAL = false /\ text_in (pname s) USE_DEFAULT = false).
  { repeat (destruct K as [<-|K]; [split; [known|split; [known|split; reflexivity]]|]). destruct K. }
  destruct K2 as (K2 & K3 & K4 & K5). destruct (flag_shape s K) as [[E D]|(l & E & L & F & SH)]; rewrite E.
  - apply left_flags; auto.
  - apply kept; auto.
    + apply (forall_nonlist _ _ F). intros x [b ->] [y Y]. discriminate.
    + intros X. destruct (shape_some _ _ _ SH K4 K5). congruence.
    + intros x X ->. rewrite Forall_forall in F. destruct (F _ X). discriminate.
Qed.
Lemma back_optional : dgetN n_data_ends q = dgetN n_data_ends p /\ dgetN n_series_names q = dgetN n_series_names p.
Proof.
  split.
  - destruct ends_shape as (l & E & L & F & SH). rewrite E. apply kept; auto; [known|apply (forall_nonlist _ _ F); intros x [[t ->] | ->] [y Y]; discriminate|].
    intros D. rewrite left_option; auto; [|known]. rewrite D in SH. inversion SH as [|EL _|x EL A|]; subst; auto. discriminate.
  - destruct names_shape as (l & E & L & F & SH). rewrite E. apply kept; auto; [known|apply (forall_nonlist _ _ F); intros x [[t ->] | ->] [y Y]; discriminate|].
    intros D. rewrite left_option; auto; [|known]. rewrite D in SH. inversion SH as [|EL _|x EL A|]; subst; auto. discriminate.
Qed.
Lemma back_starts : dgetN n_data_starts q = dgetN n_data_starts p.
Proof.
  destruct starts_shape as (l & E & L & F & SH). rewrite E. apply kept; auto; [known|apply (forall_nonlist _ _ F); intros x [t ->] [y Y]; discriminate| |].
  - intros X. destruct (shape_some _ _ _ SH eq_refl eq_refl). congruence.
  - intros x X ->. rewrite Forall_forall in F. destruct (F _ X). discriminate.
Qed.
Lemma back_aligned : dgetN n_time_alignment q = dgetN n_time_alignment p.
Proof.
  destruct aligned_shape as (l & E & L & F & SH). rewrite E. apply kept; auto; [known|apply (forall_nonlist _ _ F); intros x [-> | [-> | ->]] [y Y]; discriminate| |].
  - intros D. rewrite D in SH. assert (EL : l = repeat (VInt 0) n).
    { inversion SH as [|EL O|x EL A|]; subst; [discriminate|]. cbn [repeat] in *. inversion F as [|? ? X _]; subst. destruct X as [-> | [-> | ->]]; try discriminate. reflexivity. }
    destruct back_build as (b & f & th & tmv & alv & ctxv & comps & hs & d6 & d8 & d9 & -> & B).
    rewrite params_of_get by known.
    assert (E8 : dgetN n_time_alignment d8 = VInt 0).
    { rewrite (bt_d8 _ _ _ _ _ _ _ _ _ _ _ _ _ B), (bt_d6 _ _ _ _ _ _ _ _ _ _ _ _ _ B). unfold dgetN. rewrite D. reflexivity. }
    erewrite (b_gen B NDc n_time_alignment); [| |discriminate|discriminate|reflexivity|left; congruence|congruence]; [rewrite E8, EL; reflexivity|].
    apply (bt_keys8 _ _ _ _ _ _ _ _ _ _ _ _ _ B). left. apply (bt_ta6 _ _ _ _ _ _ _ _ _ _ _ _ _ B).
  - intros x X ->. rewrite Forall_forall in F. destruct (F _ X) as [Y|[Y|Y]]; discriminate.
Qed.
Lemma back_markers : dgetN n_missing_value q = dgetN n_missing_value p.
Proof.
  destruct markers_shape as (ms & E & NL & D). rewrite E.
  destruct back_build as (b & f & th & tmv & alv & ctxv & comps & hs & d6 & d8 & d9 & -> & B).
  rewrite params_of_get by known. rewrite (b_missing_value B NDc), (bt_d6 _ _ _ _ _ _ _ _ _ _ _ _ _ B).
  change (match defaulted n_missing_value (dgetN n_missing_value c) with
   | VList (VList x :: l) => VList (VList x :: l) | VList l => VList (repeat (VList l) n) | v => VList (repeat (VList [v]) n) end = VList (repeat (VList ms) n)).
  destruct D as [D|[D ->]].
  - rewrite (dgetN_some _ _ _ D). cbn [defaulted is_none]. destruct ms as [|[] ms]; try reflexivity. exfalso. eapply NL; reflexivity.
  - unfold dgetN. rewrite D. reflexivity.
Qed.
Lemma back_frequency : dgetN n_frequency q = dgetN n_frequency p.
Proof.
  destruct freq_shape as (l & E & L & F & SH). rewrite E. destruct (shape_some _ _ _ SH eq_refl eq_refl) as [v V]. rewrite V in SH.
  assert (NL : forall x, In x l -> ~ is_list_value x) by (apply (forall_nonlist _ _ F); intros x (t & -> & _) [y Y]; discriminate).
  pose proof shape_nonlist as SN. destruct back_build as (b & f & th & tmv & alv & ctxv & comps & hs & d6 & d8 & d9 & -> & B).
  rewrite params_of_get by known.
  assert (FV : f = v).
  { destruct (bt_freq _ _ _ _ _ _ _ _ _ _ _ _ _ B) as (f0 & F0 & CF). rewrite V in F0. inversion F0; subst f0.
    assert (ONE : forall x, a_frequency x -> curate_freq_value x = Ok x).
    { intros x (t & -> & T). cbn [curate_freq_value]. do 2 f_equal. apply (freq_same t T). }
    inversion SH as [x EL _ _| | |L2]; subst.
    - cbn [repeat] in F. inversion F as [|? ? X _]; subst. destruct (X) as (t & -> & _). change (curate_freq_value (VStr t) = Ok f) in CF. rewrite (ONE _ X) in CF. congruence.
    - cbn [curate_frequency] in CF. replace (mapM curate_freq_value l) with (Ok l) in CF; [cbn in CF; congruence|].
      clear -F ONE. induction F as [|x l X F IH]; auto. cbn [mapM]. rewrite (ONE _ X), <- IH. reflexivity. }
  assert (E8 : dgetN n_frequency d8 = v).
  { rewrite (bt_d8 _ _ _ _ _ _ _ _ _ _ _ _ _ B), (bt_d6 _ _ _ _ _ _ _ _ _ _ _ _ _ B). exact FV. }
  erewrite (b_gen B NDc n_frequency); [| |discriminate|discriminate|reflexivity|left|]; rewrite ?E8.
  - eapply bcast_shape; eauto.
  - apply (b_in8 B). eapply dget_has; eauto.
  - intros ->. inversion SH as [x EL _ _| | |L2]; subst. cbn [repeat] in F. inversion F as [|? ? (t & X & _) _]; subst. discriminate.
  - eapply SN; eauto.
Qed.
Lemma back_headers b f th tmv alv ctxv comps hs d6 d8 d9 : q = params_of b -> built c b f th tmv alv ctxv comps hs n d6 d8 d9 ->
  dgetN n_headers_coord q = dgetN n_headers_coord p /\ dgetN n_headers_coord p = VList hs.
Proof.
  intros -> B. destruct header_shape as (ts & E & [N _] & LN & hv & r3 & _ & U & _).
  pose proof (bt_headers _ _ _ _ _ _ _ _ _ _ _ _ _ B) as P. rewrite (dgetN_some _ _ _ r3) in P. unfold process_headers_coord in P. rewrite U in P. cbn [bind] in P.
  rewrite (separate_plain ts cells N) in P. inversion P; subst hs. split; [|exact E]. rewrite E.
  assert (E8 : dgetN n_headers_coord d8 = VList (map VStr ts)).
  { rewrite (bt_d8 _ _ _ _ _ _ _ _ _ _ _ _ _ B), (bt_d6 _ _ _ _ _ _ _ _ _ _ _ _ _ B). reflexivity. }
  rewrite params_of_get by known.
  erewrite (b_gen B NDc n_headers_coord); [| |discriminate|discriminate|reflexivity|left; congruence|].
  - rewrite E8. apply bcast_full. rewrite map_length. lia.
  - apply (b_in8 B). eapply dget_has. exact r3.
  - rewrite E8. destruct ts; [|discriminate]. discriminate.
Qed.
Lemma unseen_guess (hs : list text) a : names_cells hs cells -> unseen cells -> guess_alignment (VList (map VStr hs)) = Ok a -> a = VNone.
Proof.
  intros N U G. pose proof (names_len _ _ N) as LN. destruct U as [L1|[[L4 NR]|[N1 N2]]].
  - destruct (guess_spec _ _ _ N G) as [X|[L _]]; auto. lia.
  - cbn [guess_alignment] in G. rewrite map_length in G. destruct (Nat.leb (List.length hs) 1); [congruence|]. rewrite mapM_as_text in G. cbn [bind] in G.
    replace (Nat.ltb (List.length hs) 4) with true in G by (symmetry; apply Nat.ltb_lt; lia).
    destruct (consecutive_total hs cells N) as [x X]. rewrite X in G. cbn [bind] in G. destruct x; [|congruence].
    apply (c05_exact hs cells N) in X as [X|X]; [|contradiction]. exfalso. apply cells_ne. auto.
  - destruct (guess_spec _ _ _ N G) as [X|[L [[_ X]|[_ X]]]]; auto; contradiction.
Qed.
Lemma back_alignment : dgetN n_alignment q = dgetN n_alignment p.
Proof.
  pose proof shape_nonlist as SN. pose proof unseen_guess as UG. pose proof header_shape as HS.
  destruct back_build as (b & f & th & tmv & alv & ctxv & comps & hs & d6 & d8 & d9 & EQ & B). destruct (back_headers _ _ _ _ _ _ _ _ _ _ _ EQ B) as [_ EH].
  assert (E8 : dgetN n_alignment d8 = alv) by apply (bt_d8 _ _ _ _ _ _ _ _ _ _ _ _ _ B). pose proof (bt_al _ _ _ _ _ _ _ _ _ _ _ _ _ B) as A.
  rewrite EQ, params_of_get by known.
  destruct layout_shape as [(E & D & U)|(l & E & L & F & SH)]; rewrite E.
  - assert (F : dgetN n_alignment c = VNone) by (unfold dgetN; rewrite D; auto). rewrite F in A. cbn [truthy] in A.
    destruct HS as (ts & E' & [N _] & _). rewrite E' in EH. inversion EH; subst hs.
    assert (I8 : In n_alignment (map fst d8)) by (apply (bt_keys8 _ _ _ _ _ _ _ _ _ _ _ _ _ B); right; right; split; auto; rewrite F; auto).
    rewrite (built_value _ _ _ _ _ _ _ _ _ _ _ _ _ B). change (text_in n_alignment OPTIONAL) with false. cbn beta iota.
    erewrite (b_gen9 B NDc n_alignment); [|exact I8|discriminate|discriminate|reflexivity]. rewrite E8, (UG ts alv N U A). reflexivity.
  - destruct (shape_some _ _ _ SH eq_refl eq_refl) as [v V]. rewrite V in SH.
    assert (NL : forall x, In x l -> ~ is_list_value x) by (apply (forall_nonlist _ _ F); intros x [-> | ->] [y Y]; discriminate).
    assert (T : truthy v = true).
    { inversion SH as [x EL _ _| | |L2]; subst; [cbn [repeat] in F; inversion F as [|? ? X _]; subst; destruct X as [-> | ->]; reflexivity|].
      destruct l; [cbn in L2; lia|reflexivity]. }
    rewrite (dgetN_some _ _ _ V), T in A. subst alv.
    erewrite (b_gen B NDc n_alignment); [| |discriminate|discriminate|reflexivity|left|]; rewrite ?E8.
    + rewrite A. eapply bcast_shape; eauto.
    + apply (b_in8 B). eapply dget_has; eauto.
    + rewrite A. destruct v; discriminate.
    + rewrite A. eapply SN; eauto.
Qed.
Lemma back_time : dgetN n_time_multicolumn q = dgetN n_time_multicolumn p /\ dgetN n_time_header q = dgetN n_time_header p.
Proof.
  pose proof time_shape as TS.
  destruct back_build as (b & f & th & tmv & alv & ctxv & comps & hs & d6 & d8 & d9 & -> & B).
  pose proof (bt_tm _ _ _ _ _ _ _ _ _ _ _ _ _ B) as A. pose proof (bt_time _ _ _ _ _ _ _ _ _ _ _ _ _ B) as UT.
  assert (E8 : dgetN n_time_multicolumn d8 = tmv) by (rewrite (bt_d8 _ _ _ _ _ _ _ _ _ _ _ _ _ B); reflexivity).
  assert (H8 : dgetN n_time_header d8 = th) by (rewrite (bt_d8 _ _ _ _ _ _ _ _ _ _ _ _ _ B), (bt_d6 _ _ _ _ _ _ _ _ _ _ _ _ _ B); reflexivity).
  assert (K8 : In n_time_multicolumn (map fst d8)).
  { apply (b_in8 B). destruct TS as [t rc E1 E2 AC D1 D2|ts cs E1 E2 AC L D1 D2|ts cs E1 E2 AC L L2 R NR D1 D2]; eapply dget_has; exact D2. }
  assert (I8 : In n_time_header (map fst d8)).
  { apply (b_in8 B). destruct TS as [t rc E1 E2 AC D1 D2|ts cs E1 E2 AC L D1 D2|ts cs E1 E2 AC L L2 R NR D1 D2]; eapply dget_has; exact D1. }
  destruct (built_d9 _ _ _ _ _ _ _ _ _ _ _ _ _ B NDc) as [D9 _]. destruct (D9 _ I8) as [vv [V1 [V2 V3]]].
  assert (T8 : dgetE n_time_multicolumn d8 = Ok tmv).
  { apply dgetE_ok. rewrite (dgetN_in _ _ K8). f_equal. exact E8. }
  rewrite H8 in V2. change (apply_to_all n_time_header th (Some n) d8 vv) with (apply_to_all_time_header th (Some n) d8 vv) in V2.
  unfold apply_to_all_time_header in V2. rewrite T8 in V2.
  assert (VV : vv = [VType TyStr; VType TyStr; VType TyList]) by (cbv in V1; congruence).
  assert (TM : forall x, tmv = VBool x -> dgetN n_time_multicolumn (params_of b) = VList (repeat (VBool x) n)).
  { intros x ->. rewrite params_of_get by known. erewrite (b_gen B NDc n_time_multicolumn); [|exact K8|discriminate|discriminate|reflexivity|left|]; rewrite E8; try discriminate. reflexivity. }
  assert (TH : dgetN n_time_header (params_of b) = dgetN n_time_header d9).
  { rewrite params_of_get by known. rewrite (built_value _ _ _ _ _ _ _ _ _ _ _ _ _ B). reflexivity. }
  rewrite TH. clear H8 E8 T8.
  destruct TS as [t rc E1 E2 AC D1 D2|ts cs E1 E2 AC L D1 D2|ts cs E1 E2 AC L L2 R NR D1 D2]; rewrite E1, E2; rewrite (dgetN_some _ _ _ D1) in UT; rewrite (dgetN_some _ _ _ D2) in A; cbn [truthy] in A.
  - rewrite (unpack_cell _ _ AC) in UT. inversion UT; subst th. 
    assert (tmv = VBool false) as ->.
    { unfold guess_time_multicolumn in A. replace (is_repeated (VList [VStr t])) with true in A by (cbn; rewrite text_eqb_refl; auto). cbn in A. congruence. }
    split; [apply TM; auto|]. cbn - [repeat apply_to_all_gen] in V2. rewrite VV in V2. cbn [apply_to_all_gen is_none andb ns_pos ns_nat] in V2. injection V2 as V2. symmetry. exact V2.
  - assert (NT : ts <> []) by (destruct ts; [cbn in L; lia|congruence]). rewrite (unpack_cells _ _ AC NT) in UT. inversion UT; subst th tmv.
    split; [apply TM; auto|]. destruct ts as [|t ts]; [congruence|]. cbn [map py_index nth_error bind is_list truthy negb orb] in V2. inversion V2 as [X]. reflexivity.
  - assert (NT : ts <> []) by (destruct ts; [cbn in L; lia|congruence]). rewrite (unpack_cells _ _ AC NT) in UT. inversion UT; subst th.
    assert (tmv = VBool false) as ->.
    { unfold guess_time_multicolumn in A. rewrite R in A. cbn [bind] in A. rewrite map_length, L, Nat.eqb_refl in A. cbn [negb] in A.
      assert (M : as_texts (VList (map VStr ts)) = Ok ts).
      { clear. cbn [as_texts]. induction ts as [|x l IH]; auto. cbn [map mapM as_text bind]. rewrite IH. auto. }
      rewrite M in A. cbn [bind] in A. destruct (consecutive_total ts cs (proj1 AC)) as [x X]. rewrite X in A. cbn [bind] in A. destruct x; [|congruence].
      apply (c05_exact ts cs (proj1 AC)) in X as [X|X]; [|contradiction]. subst cs. destruct AC as [N _]. apply names_len in N. rewrite L in N. discriminate N. }
    split; [apply TM; auto|]. destruct ts as [|t [|t2 ts]]; [congruence|cbn in L; lia|]. rewrite VV in V2. cbn - [repeat] in V2. injection V2 as V2. symmetry. exact V2.
Qed.
Lemma back_same : q = p.
Proof.
  assert (G : forall k, In k PARAM_NAMES -> dgetN k q = dgetN k p).
  { intros k K. unfold PARAM_NAMES in K. destruct back_optional as [O1 O2]. destruct back_time as [T1 T2].
    destruct (rs_plain _ _ _ _ RS) as [P1 P2]. unfold same_for_all in P1, P2.
    destruct K as [<-|K]; [apply back_alignment|]. destruct K as [<-|K]; [auto|]. 
    destruct K as [<-|K]; [destruct back_build as (b & f & th & tmv & alv & ctxv & comps & hs & d6 & d8 & d9 & EQ & B); apply (back_headers _ _ _ _ _ _ _ _ _ _ _ EQ B)|].
    destruct K as [<-|K]; [rewrite (left_option n_composed); [symmetry; exact P1|known|apply composed_none]|].
    destruct K as [<-|K]; [rewrite (left_option n_context); [symmetry; exact P2|known|apply context_none]|].
    destruct K as [<-|K]; [apply back_starts|]. destruct K as [<-|K]; [auto|].
    destruct K as [<-|K]; [apply (back_flag "continuity"); cbn; auto|].
    destruct K as [<-|K]; [apply (back_flag "blank_rows"); cbn; auto|].
    destruct K as [<-|K]; [apply (back_flag "missings"); cbn; auto|].
    destruct K as [<-|K]; [apply back_markers|]. destruct K as [<-|K]; [apply back_aligned|]. destruct K as [<-|K]; [auto|]. destruct K as [<-|K]; [auto|].
    destruct K as [<-|K]; [apply (back_flag "time_composed"); cbn; auto 6|].
    destruct K as [<-|[]]. apply back_frequency. }
  destruct back_build as (b & f & th & tmv & alv & ctxv & comps & hs & d6 & d8 & d9 & EQ & _).
  assert (KQ : map fst q = PARAM_NAMES) by (rewrite EQ; unfold params_of; rewrite map_map; cbn [fst]; apply map_id).
  assert (R : forall d : dict, map fst d = PARAM_NAMES -> d = map (fun k => (k, dgetN k d)) PARAM_NAMES).
  { intros d KD. assert (ND : NoDup (map fst d)) by (rewrite KD; apply names_nodup). rewrite <- KD. rewrite map_map.
    rewrite <- (map_id d) at 1. apply map_ext_in. intros [k v] I. cbn [fst]. f_equal. symmetry. apply dgetN_some. apply dget_NoDup; auto. }
  rewrite (R q KQ), (R p OBJ). apply map_ext_in. intros k K. f_equal. apply G. auto.
Qed.
End Values.
End Back.

Lemma c74_back json p n cells z : parameters_object p -> restorable p n cells z ->
  exists c, compact_repr p = Ok c /\ make_params json (PDict c) = Ok p.
Proof.
  intros OBJ RS. change (map fst p = PARAM_NAMES) in OBJ. destruct n as [|m].
  { exfalso. destruct (rs_headers _ _ _ _ RS) as (hs & _ & _ & L). pose proof (rs_after _ _ _ _ RS) as A. destruct cells; [exact A|discriminate]. }
  destruct (compact_all p OBJ) as (c & M & ND & IN & IT).
  - intros k E.
    assert (KP : In k PARAM_NAMES).
    { rewrite <- OBJ. apply (dget_has k p (VList [])). unfold dgetN in E. destruct (dget k p); [congruence|discriminate]. }
    assert (PS : forall s P, k = pname s -> per_series p (S m) s P -> False) by (intros s P -> (l & E' & L & _); rewrite E in E'; inversion E'; subst; discriminate).
    assert (SA : forall s v, k = pname s -> same_for_all p (S m) s v -> False) by (intros s v -> E'; unfold same_for_all in E'; rewrite E in E'; discriminate).
    assert (FL : forall s, In s ["continuity"; "blank_rows"; "missings"; "time_composed"]%string -> k = pname s -> False).
    { intros s S EK. destruct (rs_flags _ _ _ _ RS s S) as [X|X]; [subst; rewrite E in X; discriminate|eapply PS; eauto]. }
    unfold PARAM_NAMES in KP.
    destruct KP as [<-|KP]; [destruct (rs_layout _ _ _ _ RS) as [[X _]|X]; [rewrite (E : dgetN (pname "alignment") p = _) in X; discriminate|apply (PS "alignment"%string _ eq_refl X)]|].
    destruct KP as [<-|KP]; [apply (PS "series_names"%string _ eq_refl (rs_names _ _ _ _ RS))|].
    destruct KP as [<-|KP]; [destruct (rs_headers _ _ _ _ RS) as (hs & X & [N _] & L); rewrite (E : dgetN (pname "headers_coord") p = _) in X; destruct hs; [inversion N; subst; discriminate|discriminate]|].
    destruct KP as [<-|KP]; [apply (SA "composed_headers_coord"%string _ eq_refl (proj1 (rs_plain _ _ _ _ RS)))|].
    destruct KP as [<-|KP]; [apply (SA "context"%string _ eq_refl (proj2 (rs_plain _ _ _ _ RS)))|].
    destruct KP as [<-|KP]; [apply (PS "data_starts"%string _ eq_refl (proj1 (rs_starts _ _ _ _ RS)))|].
    destruct KP as [<-|KP]; [apply (PS "data_ends"%string _ eq_refl (rs_ends _ _ _ _ RS))|].
    destruct KP as [<-|KP]; [apply (FL "continuity"%string); cbn; auto|].
    destruct KP as [<-|KP]; [apply (FL "blank_rows"%string); cbn; auto|].
    destruct KP as [<-|KP]; [apply (FL "missings"%string); cbn; auto|].
    destruct KP as [<-|KP]; [destruct (rs_markers _ _ _ _ RS) as (ms & X & _); apply (SA "missing_value"%string _ eq_refl X)|].
    destruct KP as [<-|KP]; [apply (PS "time_alignment"%string _ eq_refl (rs_aligned _ _ _ _ RS))|].
    destruct KP as [<-|KP]; [destruct (rs_time _ _ _ _ RS) as [? ? ? _ _ X|? ? _ _ _ _ X|? ? _ _ _ _ _ X]; apply (SA "time_multicolumn"%string _ eq_refl X)|].
    destruct KP as [<-|KP].
    { destruct (rs_time _ _ _ _ RS) as [? ? ? X _ _|? ? X _ _ _ _|ts cs X [N _] L _ _ _]; try apply (SA "time_header_coord"%string _ eq_refl X).
      rewrite (E : dgetN (pname "time_header_coord") p = _) in X. destruct ts; [inversion N; subst; discriminate|discriminate]. }
    destruct KP as [<-|KP]; [apply (FL "time_composed"%string); cbn; auto 6|].
    destruct KP as [<-|[]]. apply (PS "frequency"%string _ eq_refl (rs_frequency _ _ _ _ RS)).
  - exists c. split; auto. destruct (back_accepted json p m cells z RS c ND IN IT) as [q Q]. rewrite Q. f_equal.
    eapply back_same; eauto.
Qed.
