(** Proofs about header ranges (Params.v build step 4, XlMethods.v). *)
From Coq Require Import ZifyBool ZifyNat ZifyN Sorting.Sorted.
From Verif Require Import Base BaseFacts Coord XlMethods Params CoordFacts SpecCoord SpecCoordFacts.
Local Open Scope Z_scope.

(** ** Splitting *)
Lemma split_none c t : ch_in c t = false -> split_ch c t = [t].
Proof.
  induction t as [|x t IH]; cbn; auto. rewrite ch_eqb_sym.
  destruct (ch_eqb x c) eqn:E; cbn; [discriminate|]. intros H. rewrite IH; auto.
Qed.
Lemma split_cons c a b : ch_in c a = false -> split_ch c (a ++ c :: b) = a :: split_ch c b.
Proof.
  induction a as [|x a IH]; cbn.
  - rewrite ch_eqb_refl; auto.
  - rewrite ch_eqb_sym. destruct (ch_eqb x c) eqn:E; cbn; [discriminate|]. intros H. rewrite IH; auto.
Qed.
Lemma split2_ok c a b : ch_in c a = false -> ch_in c b = false -> split2 c (a ++ c :: b) = Ok (a, b).
Proof. intros A B. unfold split2. rewrite split_cons, split_none; auto. Qed.

Lemma ch_in_app c a b : ch_in c (a ++ b) = ch_in c a || ch_in c b.
Proof. unfold ch_in. apply existsb_app. Qed.
Lemma upper_app a b : upper (a ++ b) = upper a ++ upper b.
Proof. apply map_app. Qed.

Lemma coord_upper_no_sep t rc c : parse_coord t = Ok rc -> plain_sep c = true -> ch_in c (upper t) = false.
Proof. intros H. apply parse_upper in H. apply coord_no_sep with (rc := rc); auto. Qed.

(** ** One entry *)
Lemma unpack_single t r c : parse_coord t = Ok (r, c) -> unpack_text t = Ok [upper t].
Proof.
  intros H. unfold unpack_text.
  rewrite (coord_no_sep t (r, c) "-" H), (coord_no_sep t (r, c) ":" H) by reflexivity. auto.
Qed.
Lemma unpack_range x y sep r1 c1 r2 c2 :
  parse_coord x = Ok (r1, c1) -> parse_coord y = Ok (r2, c2) ->
  sep = "-"%char \/ sep = ":"%char ->
  unpack_text (x ++ sep :: y) = Ok (rect_coords r1 c1 r2 c2).
Proof.
  intros HX HY Hs. unfold unpack_text.
  assert (R : xl_coordinates_range (upper x) (upper y) = Ok (rect_coords r1 c1 r2 c2))
    by (apply range_ok; apply parse_upper; auto).
  assert (U : upper (x ++ sep :: y) = upper x ++ sep :: upper y).
  { rewrite upper_app. cbn. destruct Hs as [->| ->]; auto. }
  rewrite U, !ch_in_app. cbn [ch_in existsb].
  change (existsb (ch_eqb "-") ?l) with (ch_in "-" l). change (existsb (ch_eqb ":") ?l) with (ch_in ":" l).
  rewrite (coord_no_sep x _ "-" HX), (coord_no_sep y _ "-" HY), (coord_no_sep x _ ":" HX), (coord_no_sep y _ ":" HY) by reflexivity.
  pose proof (coord_upper_no_sep x _ "-" HX eq_refl). pose proof (coord_upper_no_sep y _ "-" HY eq_refl).
  pose proof (coord_upper_no_sep x _ ":" HX eq_refl). pose proof (coord_upper_no_sep y _ ":" HY eq_refl).
  pose proof (coord_upper_no_sep x _ "_" HX eq_refl) as Ux. pose proof (coord_upper_no_sep y _ "_" HY eq_refl) as Uy.
  destruct Hs as [->| ->]; cbn [ch_eqb Ascii.eqb Bool.eqb orb negb andb];
    rewrite split2_ok by auto; cbn [bind]; rewrite Ux, Uy; cbn [negb andb]; exact R.
Qed.

(** names of an expansion *)
Lemma entry_unpack t cells : entry_cells t cells ->
  exists ts, unpack_text t = Ok ts /\ names_cells ts cells.
Proof.
  intros H. destruct H as [t r c H | x y sep r1 c1 r2 c2 cells HX HY Hs HR].
  - apply cell_named_iff in H. exists [upper t]. split; [eapply unpack_single; eauto|].
    apply names_cells_iff. cbn. rewrite (parse_upper _ _ H). auto.
  - apply cell_named_iff in HX, HY. exists (rect_coords r1 c1 r2 c2). split.
    + apply unpack_range; auto.
    + apply names_cells_iff. apply rectangle_unique in HR. subst cells.
      apply parse_range in HX, HY. apply rect_parse; lia.
Qed.

(** ** Lists of entries *)
Lemma unpack_gen_texts es tss :
  Forall2 (fun e ts => unpack_text e = Ok ts) es tss ->
  unpack_gen (VList (map VStr es)) = Ok (map VStr (List.concat tss)).
Proof.
  intros H. cbn [unpack_gen].
  induction H as [|e ts es tss H1 H2 IH]; cbn [map List.concat]; auto.
  cbn [unpack_gen]. rewrite H1. cbn [bind]. rewrite IH. cbn [bind]. rewrite map_app. auto.
Qed.

Lemma entry_lower_none t cells : entry_cells t cells -> text_eqb (lower t) (T "none") = false.
Proof.
  intros H. destruct (text_eqb (lower t) (T "none")) eqn:E; auto. exfalso.
  apply text_eqb_eq in E.
  assert (NL : forall c, In c t -> is_letter c = true).
  { intros c Hc. assert (In (low_ch c) (T "none")) by (rewrite <- E; apply in_map; auto).
    pose proof (byte_check (fun c => negb (ch_in (low_ch c) (T "none")) || is_letter c)) as B.
    specialize (B ltac:(vm_compute; reflexivity) c). cbn beta in B.
    apply ch_in_In in H0. rewrite H0 in B. auto. }
  destruct H as [t r c H | x y sep r1 c1 r2 c2 cells HX HY Hs HR].
  - apply cell_named_iff in H. destruct (parse_inv _ _ H) as [l [d [-> [_ [Hd [_ [Hn _]]]]]]].
    destruct d as [|x d]; [congruence|]. cbn in Hd. apply andb_true_iff in Hd. destruct Hd as [Hd _].
    assert (is_letter x = true) by (apply NL; apply in_app_iff; right; left; auto).
    rewrite (digit_not_letter x Hd) in H0. discriminate.
  - assert (is_letter sep = true) by (apply NL; apply in_app_iff; right; left; auto).
    destruct Hs as [->| ->]; discriminate.
Qed.

Lemma entry_nonempty t cells : entry_cells t cells -> t <> [].
Proof.
  intros H. destruct H as [t r c H | x y sep r1 c1 r2 c2 cells HX HY Hs HR].
  - apply cell_named_iff in H. eapply coord_nonempty; eauto.
  - destruct x; discriminate.
Qed.

(** a header parameter given as one text *)
Lemma unpack_header_text t ts cells : entry_cells t cells -> unpack_text t = Ok ts ->
  unpack_header_ranges (VStr t) = Ok (VList (map VStr ts)).
Proof.
  intros H U. unfold unpack_header_ranges.
  pose proof (entry_nonempty _ _ H) as N. destruct t as [|a t]; [congruence|].
  cbn [truthy py_len List.length Nat.eqb negb bind].
  rewrite (entry_lower_none _ _ H). cbn [unpack_gen]. rewrite U. auto.
Qed.
(** ... or as a list of texts *)
Lemma unpack_header_list es tss : es <> [] ->
  Forall2 (fun e ts => unpack_text e = Ok ts) es tss ->
  unpack_header_ranges (VList (map VStr es)) = Ok (VList (map VStr (List.concat tss))).
Proof.
  intros N H. unfold unpack_header_ranges.
  destruct es as [|e es]; [congruence|]. cbn [map truthy py_len List.length Nat.eqb negb bind].
  change (VStr e :: map VStr es) with (map VStr (e :: es)). rewrite (unpack_gen_texts _ _ H). auto.
Qed.

Lemma entries_expand es css : Forall2 entry_cells es css ->
  exists tss, Forall2 (fun e ts => unpack_text e = Ok ts) es tss /\
    names_cells (List.concat tss) (List.concat css).
Proof.
  intros H. induction H as [|e cs es css H1 H2 [tss [IH1 IH2]]].
  - exists []. split; constructor.
  - destruct (entry_unpack _ _ H1) as [ts [U V]]. exists (ts :: tss). split; [constructor; auto|].
    cbn. apply Forall2_app; auto.
Qed.

(** unpacking what is already unpacked changes nothing *)
Lemma unpack_again ts cells : names_cells ts cells ->
  Forall2 (fun e ts => unpack_text e = Ok ts) ts (map (fun t => [upper t]) ts).
Proof.
  induction 1 as [|t [r c] ts cells H1 H2 IH]; constructor; auto.
  apply cell_named_iff in H1. eapply unpack_single; eauto.
Qed.

Lemma upper_idem t : upper (upper t) = upper t.
Proof.
  unfold upper. rewrite map_map. apply map_ext. intros c. apply up_ch_facts.
Qed.
Definition is_upper_text (t : text) : Prop := upper t = t.
Lemma upper_no_lower t : forallb (fun x => negb (is_lower x)) t = true -> is_upper_text t.
Proof.
  unfold is_upper_text. induction t as [|c t IH]; cbn; auto. intros H. apply andb_true_iff in H.
  destruct H as [H1 H2]. f_equal; [|apply IH; auto]. unfold up_ch. apply negb_true_iff in H1. rewrite H1. auto.
Qed.
Lemma coord_text_upper r c : 1 <= r -> 1 <= c <= 18278 -> is_upper_text (coord_text r c).
Proof.
  intros Hr Hc. apply upper_no_lower. unfold coord_text. rewrite forallb_app.
  apply andb_true_iff. split.
  - destruct (col_letters_letters c Hc) as [_ [U _]]. rewrite forallb_forall in *. intros x Hx.
    apply U in Hx. revert Hx. unfold is_upper, is_lower. lia.
  - pose proof (Z_text_digits r ltac:(lia)) as D. rewrite forallb_forall in *. intros x Hx.
    apply D in Hx. revert Hx. unfold is_digit, is_lower. lia.
Qed.
Lemma unpack_upper t cells ts : entry_cells t cells -> unpack_text t = Ok ts -> Forall is_upper_text ts.
Proof.
  intros H U. destruct H as [t r c H | x y sep r1 c1 r2 c2 cells HX HY Hs HR].
  - apply cell_named_iff in H. rewrite (unpack_single _ _ _ H) in U. inversion U.
    constructor; [apply upper_idem|constructor].
  - apply cell_named_iff in HX, HY. rewrite (unpack_range x y sep r1 c1 r2 c2 HX HY Hs) in U. inversion U.
    rewrite rect_coords_cells. apply Forall_forall. intros z Hz. apply in_map_iff in Hz.
    destruct Hz as [[r c] [<- Hz]]. apply rect_cells_In in Hz. apply parse_range in HX, HY. cbn [fst snd].
    apply coord_text_upper; lia.
Qed.
