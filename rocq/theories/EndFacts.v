(** Facts on the parameters of a series and on the frames, for C38. *)
From Coq Require Import Sorted ZifyBool ZifyNat.
From Verif Require Import Base BaseFacts Cal Coord CoordFacts XlMethods Params ParseTime TimeIndex GetData PeriodRange Attempts DataFrame Scrape
  SpecCal CalFacts CalProofs SpecCoord SpecCoordFacts SpecParams BuildFacts BuildInv ParamsFacts ParamsProofs
  TimeFacts SpecTime SpecData SpecFrames TextProofs FrameProofs FrameProofs2 DataProofs ScrapeProofs2 TimeProofs TimeProofs2 SpecEnd RangeExact TimeEnd.
Local Open Scope Z_scope.

(** ** The parameters of one series *)
Definition with_ends (s : sp) (m : Z) : sp :=
  mksp (sp_al s) (sp_name s) (sp_hc s) (sp_comp s) (sp_ctx s) (sp_starts s) (Some m) (sp_cont s) (sp_blank s) (sp_missings s)
    (sp_mv s) (sp_ta s) (sp_multi s) (sp_th s) (sp_composed s) (sp_freq s).

(** every parameter has one value per series *)
Definition all_lists (p : dict) (n : nat) : Prop :=
  forall k, In k PARAM_NAMES -> exists l, dgetN k p = VList l /\ List.length l = n.

Lemma lists_params p n i : all_lists p n -> (i < n)%nat -> exists d, get_series_params p i = Ok d.
Proof.
  intros A I. unfold get_series_params. assert (G : forall ks acc, incl ks PARAM_NAMES ->
   exists d, foldM (fun acc k => let v := dgetN k p in
    if is_none v then Ok acc else do x <- py_index v i; Ok (acc ++ [(k, x)])) ks acc = Ok d).
  { induction ks as [|k ks IH]; intros acc IN; [eexists; reflexivity|]. cbn [foldM]. cbv zeta.
    destruct (A k) as [l [E L]]; [apply IN; left; auto|]. rewrite E. cbn [is_none py_index].
    destruct (nth_error l i) eqn:N; [|apply nth_error_None in N; lia]. cbn [bind].
    apply IH. intros x Hx. apply IN. right; auto. }
  apply G. intros x; auto.
Qed.
Lemma lists_value p n i k : all_lists p n -> (i < n)%nat -> In k PARAM_NAMES -> exists v, series_value p k i v.
Proof.
  intros A I K. destruct (A k K) as [l [E L]]. destruct (nth_error l i) as [v|] eqn:N; [|apply nth_error_None in N; lia].
  exists v, l. auto.
Qed.
Lemma value_index p k i v : series_value p k i v -> py_index (dgetN k p) i = Ok v.
Proof. intros [l [E N]]. rewrite E. cbn [py_index]. rewrite N. auto. Qed.

(** what the parameters of a series are, in terms of the values of the object *)
Record fields (p : dict) (i : nat) (s : sp) : Prop := mkfields {
  fl_al : exists v, series_value p n_alignment i v /\ as_align v = Ok (sp_al s);
  fl_name : series_value p n_series_names i (sp_name s);
  fl_hc : exists v, series_value p n_headers_coord i v /\ as_text v = Ok (sp_hc s);
  fl_comp : series_value p n_composed i (sp_comp s);
  fl_ctx : series_value p n_context i (sp_ctx s);
  fl_starts : exists v, series_value p n_data_starts i v /\ as_int v = Ok (sp_starts s);
  fl_ends : exists v, series_value p n_data_ends i v /\
     (if truthy v then do z <- as_int v; Ok (Some z) else Ok None) = Ok (sp_ends s);
  fl_cont : exists v, series_value p n_continuity i v /\ truthy v = sp_cont s;
  fl_blank : exists v, series_value p n_blank_rows i v /\ truthy v = sp_blank s;
  fl_missings : exists v, series_value p n_missings i v /\ truthy v = sp_missings s;
  fl_mv : series_value p n_missing_value i (sp_mv s);
  fl_ta : exists v, series_value p n_time_alignment i v /\ as_int v = Ok (sp_ta s);
  fl_multi : exists v, series_value p n_time_multicolumn i v /\ truthy v = sp_multi s;
  fl_th : exists v, series_value p n_time_header i v /\ as_theader v = Ok (sp_th s);
  fl_composed : exists v, series_value p n_time_composed i v /\ truthy v = sp_composed s;
  fl_freq : exists v, series_value p n_frequency i v /\ as_text v = Ok (sp_freq s)
}.

Lemma fields_sp p n i s : all_lists p n -> (i < n)%nat -> (series_sp p i = Ok s <-> fields p i s).
Proof.
  intros A I. destruct (lists_params p n i A I) as [d D]. unfold series_sp. rewrite D. cbn [bind].
  assert (G : forall k v, In k PARAM_NAMES -> series_value p k i v -> dgetE k d = Ok v).
  { intros k v K V. apply dgetE_ok. eapply get_series_value; eauto. }
  assert (V : forall k, In k PARAM_NAMES -> exists v, series_value p k i v /\ dgetE k d = Ok v).
  { intros k K. destruct (lists_value p n i k A I K) as [v V]. exists v. auto. }
  split.
  - intros H. unfold sp_of in H.
    repeat match type of H with
    | (do x <- dgetE ?k d; _) = _ => let v := fresh "v" in let V1 := fresh "V" in let V2 := fresh "W" in
        destruct (V k ltac:(cbn; tauto)) as [v [V1 V2]]; rewrite V2 in H; cbn [bind] in H; clear V2
    | (do x <- (if _ then _ else _); _) = _ => let E := fresh "E" in apply bind_ok in H; destruct H as [? [E H]]
    | (do x <- ?r; _) = _ => let E := fresh "E" in apply bind_ok in H; destruct H as [? [E H]]
    end.
    inversion H; subst s. constructor; cbn [sp_al sp_name sp_hc sp_comp sp_ctx sp_starts sp_ends sp_cont sp_blank sp_missings sp_mv sp_ta sp_multi sp_th sp_composed sp_freq]; eauto.
  - intros [[a [a1 a2]] b [c [c1 c2]] d0 e [f [f1 f2]] [g [g1 g2]] [h [h1 h2]] [j [j1 j2]] [k [k1 k2]] l [m [m1 m2]] [o [o1 o2]] [q [q1 q2]] [r [r1 r2]] [t [t1 t2]]].
    unfold sp_of.
    rewrite (G n_alignment _ ltac:(cbn; tauto) a1). cbn [bind]. rewrite a2. cbn [bind].
    rewrite (G n_series_names _ ltac:(cbn; tauto) b). cbn [bind].
    rewrite (G n_headers_coord _ ltac:(cbn; tauto) c1). cbn [bind]. rewrite c2. cbn [bind].
    rewrite (G n_composed _ ltac:(cbn; tauto) d0). cbn [bind].
    rewrite (G n_context _ ltac:(cbn; tauto) e). cbn [bind].
    rewrite (G n_data_starts _ ltac:(cbn; tauto) f1). cbn [bind]. rewrite f2. cbn [bind].
    rewrite (G n_data_ends _ ltac:(cbn; tauto) g1). cbn [bind]. rewrite g2. cbn [bind].
    rewrite (G n_continuity _ ltac:(cbn; tauto) h1). cbn [bind].
    rewrite (G n_blank_rows _ ltac:(cbn; tauto) j1). cbn [bind].
    rewrite (G n_missings _ ltac:(cbn; tauto) k1). cbn [bind].
    rewrite (G n_missing_value _ ltac:(cbn; tauto) l). cbn [bind].
    rewrite (G n_time_alignment _ ltac:(cbn; tauto) m1). cbn [bind]. rewrite m2. cbn [bind].
    rewrite (G n_time_multicolumn _ ltac:(cbn; tauto) o1). cbn [bind].
    rewrite (G n_time_header _ ltac:(cbn; tauto) q1). cbn [bind]. rewrite q2. cbn [bind].
    rewrite (G n_time_composed _ ltac:(cbn; tauto) r1). cbn [bind].
    rewrite (G n_frequency _ ltac:(cbn; tauto) t1). cbn [bind]. rewrite t2. cbn [bind].
    rewrite h2, j2, k2, o2, r2. destruct s; reflexivity.
Qed.

(** the same object with other ends *)
Definition ends_set (p p' : dict) (n i : nat) (m : Z) : Prop :=
  all_lists p' n /\ (forall k, k <> n_data_ends -> dgetN k p' = dgetN k p) /\
  forall j, (j < i)%nat -> exists v, series_value p' n_data_ends j v /\ truthy v = true /\ as_int v = Ok m.

Lemma value_other p p' k i v : dgetN k p' = dgetN k p -> series_value p k i v -> series_value p' k i v.
Proof. intros E [l [A B]]. exists l. rewrite E. auto. Qed.
Lemma fields_ends p p' n i s m : all_lists p n -> (i < n)%nat -> ends_set p p' n n m -> series_sp p i = Ok s ->
  series_sp p' i = Ok (with_ends s m).
Proof.
  intros A I (A' & O & E) H. apply (fields_sp p n i s A I) in H. apply (fields_sp p' n i _ A' I).
  assert (G : forall k v, k <> n_data_ends -> series_value p k i v -> series_value p' k i v).
  { intros k v K. apply value_other. auto. }
  destruct H as [[? []] ? [? []] ? ? [? []] ? [? []] [? []] [? []] ? [? []] [? []] [? []] [? []] [? []]].
  constructor; cbn [with_ends sp_al sp_name sp_hc sp_comp sp_ctx sp_starts sp_ends sp_cont sp_blank sp_missings sp_mv sp_ta sp_multi sp_th sp_composed sp_freq];
   try (apply G; [discriminate|assumption]); try (eexists; split; [apply G; [discriminate|eassumption]|assumption]).
  destruct (E i I) as [v [E1 [E2 E3]]]. exists v. split; auto. rewrite E2, E3. reflexivity.
Qed.
