(** Proofs for C69, C70 and C71. *)
From Verif Require Import Base BaseFacts Files SpecFiles LoadProofs.
Local Open Scope Z_scope.

(** ** extensions *)
Lemma from_last_none c t : from_last c t = None <-> ~ In c t.
Proof.
  induction t as [|x r IH]; cbn; [intuition congruence|]. destruct (from_last c r) eqn:E.
  - split; [discriminate|]. intros H. exfalso. apply H. right. destruct (in_dec Ascii.ascii_dec c r) as [I|I]; [exact I|]. apply IH in I. discriminate.
  - destruct (ch_eqb x c) eqn:F.
    + split; [discriminate|]. apply Ascii.eqb_eq in F. intros H. exfalso. apply H. left. exact F.
    + split; [|reflexivity]. intros _ [->|I]; [unfold ch_eqb in F; rewrite Ascii.eqb_refl in F; discriminate|apply IH in I; auto].
Qed.
Lemma from_last_some c t s : from_last c t = Some s <-> exists base rest, t = base ++ c :: rest /\ ~ In c rest /\ s = c :: rest.
Proof.
  revert s. induction t as [|x r IH]; intros s; cbn.
  - split; [discriminate|]. intros ([|] & rest & H & _); discriminate.
  - destruct (from_last c r) as [s'|] eqn:E.
    + split.
      * intros H. inversion H; subst s'. destruct (proj1 (IH s) eq_refl) as (b & rest & -> & N & ->). exists (x :: b), rest. auto.
      * intros ([|y b] & rest & H & N & ->); cbn in H; inversion H; subst.
        { exfalso. apply from_last_none in N. congruence. }
        apply IH. exists b, rest. auto.
    + apply from_last_none in E. destruct (ch_eqb x c) eqn:F.
      * apply Ascii.eqb_eq in F. subst x. split.
        { intros H. inversion H. exists [], r. auto. }
        intros ([|y b] & rest & H & N & ->); cbn in H; inversion H; subst; auto.
        exfalso. apply E, in_or_app. right. left. reflexivity.
      * split; [discriminate|]. intros ([|y b] & rest & H & N & ->); cbn in H; inversion H; subst.
        { unfold ch_eqb in F. rewrite Ascii.eqb_refl in F. discriminate. }
        exfalso. apply E, in_or_app. right. left. reflexivity.
Qed.
Lemma extension_iff path ext : file_name_extension path = Some ext <-> extension_of path ext.
Proof. apply from_last_some. Qed.
Lemma known_iff ext : text_in ext supported = true <-> known ext.
Proof.
  unfold text_in, supported, known, xlsx, csv, json_. cbn [existsb]. rewrite !orb_true_iff, !text_eqb_eq. intuition discriminate.
Qed.
Lemma bare_iff path : is_supported (file_name_extension path) = false <-> bare path.
Proof.
  unfold is_supported, bare. split.
  - intros H ext E K. apply extension_iff in E. rewrite E in H. apply known_iff in K. congruence.
  - intros H. destruct (file_name_extension path) as [x|] eqn:E; [|reflexivity]. apply extension_iff in E. specialize (H x E).
    destruct (text_in x supported) eqn:F; [|reflexivity]. apply known_iff in F. contradiction.
Qed.
Lemma with_ext path ext : known ext -> extension_of (path ++ ext) ext.
Proof.
  intros [E|[E|E]]; subst ext; [exists path, (T "xlsx")|exists path, (T "csv")|exists path, (T "json")]; (split; [reflexivity|split; [|reflexivity]]); cbn; intuition discriminate.
Qed.

Section Disk.
Context {frame : Type} (d : disk frame).

Lemma parse_located path p ext : parse_path_and_extension d path = Fine (p, ext) <-> located d path p ext.
Proof.
  unfold parse_path_and_extension. destruct (is_supported (file_name_extension path)) eqn:B.
  - unfold is_supported in B. destruct (file_name_extension path) as [x|] eqn:E; [|discriminate]. rewrite B. split.
    + intros H. inversion H; subst. apply lo_named; [apply extension_iff; exact E|apply known_iff; exact B].
    + intros H. apply extension_iff in E as E'. assert (NB : ~ bare path) by (intros F; apply (F x E'), known_iff, B).
      inversion H; subst; try contradiction. apply extension_iff in H0. congruence.
  - apply bare_iff in B. split.
    + cbn [look supported]. unfold xlsx, csv, json_.
      destruct (isfile d (path ++ T ".xlsx")) eqn:F1; [intros H; inversion H; subst; apply lo_xlsx; assumption|].
      destruct (isdir d path) eqn:F2; [intros H; inversion H; subst; apply lo_dir; assumption|].
      destruct (isfile d (path ++ T ".csv")) eqn:F3; [intros H; inversion H; subst; apply lo_csv; assumption|].
      destruct (isfile d (path ++ T ".json")) eqn:F4; [intros H; inversion H; subst; apply lo_json; assumption|].
      destruct (file_name_extension path) as [x|] eqn:E; [|discriminate].
      destruct (text_in x supported) eqn:F; [|discriminate]. apply known_iff in F. apply extension_iff in E. destruct (B x E F).
    + intros H. cbn [look supported]. unfold xlsx, csv, json_. inversion H as [x E K|? F1|? F1 F2|? F1 F2 F3|? F1 F2 F3 F4]; subst.
      * destruct (B _ E K).
      * rewrite F1. reflexivity.
      * rewrite F1, F2. reflexivity.
      * rewrite F1, F2, F3. reflexivity.
      * rewrite F1, F2, F3, F4. reflexivity.
Qed.
Lemma parse_nothing path : parse_path_and_extension d path = Fail NoSerialized <-> ~ exists p ext, located d path p ext.
Proof.
  split.
  - intros H (p & ext & L). apply parse_located in L. congruence.
  - intros H. destruct (parse_path_and_extension d path) as [[p ext]|x] eqn:E; [exfalso; apply H; exists p, ext; apply parse_located; exact E|].
    revert E. unfold parse_path_and_extension. destruct (if is_supported _ then _ else _) as [f [y|]]; [destruct (text_in y supported)|]; congruence.
Qed.
Lemma located_known path p ext : located d path p ext -> known ext.
Proof. unfold known. intros H. inversion H; subst; auto. Qed.
Lemma located_again path p ext : located d path p ext -> located d p p ext.
Proof.
  intros H. pose proof (located_known _ _ _ H) as K. inversion H; subst; try (apply lo_named; [apply with_ext; exact K|exact K]); auto.
Qed.

Lemma collect_all {A B} (f : A -> fres B) (P : A -> B -> Prop) l (H : forall a b, In a l -> (f a = Fine b <-> P a b)) out :
  collect f l = Fine out <-> Forall2 P l out.
Proof.
  revert out. induction l as [|x r IH]; intros out; cbn.
  - split; [intros E; inversion E; constructor|intros F; inversion F; reflexivity].
  - assert (IH' := IH (fun a b I => H a b (or_intror I))). split.
    + destruct (f x) as [y|] eqn:E; [|discriminate]. destruct (collect f r) as [ys|] eqn:E2; [|discriminate]. intros Q. inversion Q; subst.
      constructor; [apply (H x y (or_introl eq_refl)); exact E|apply IH'; reflexivity].
    + intros F. inversion F as [|? y ? ys P1 P2]; subst. apply (H x y (or_introl eq_refl)) in P1. apply IH' in P2. rewrite P1, P2. reflexivity.
Qed.
Lemma outside_fine {A} (r : res A) a : from_outside r = Fine a <-> r = Ok a.
Proof. destruct r; cbn; split; intros H; inversion H; auto. Qed.

Lemma frame_xlsx p i periods : located d p p (T ".xlsx") -> get_data_frame d p i periods = from_outside (read d p (T ".xlsx") i periods).
Proof. intros L. unfold get_data_frame. apply parse_located in L. rewrite L. reflexivity. Qed.
Lemma frame_text p ext i periods : sane d -> located d p p ext -> text_format ext -> isfile d p = true ->
  get_data_frame d p i periods = from_outside (read d p ext i periods).
Proof.
  intros Sn L X F. unfold get_data_frame. apply parse_located in L. rewrite L, (Sn p F). destruct X as [-> | ->]; cbn [text_eqb csv json_].
  - reflexivity.
  - change (text_eqb (T ".json") csv) with false. change (text_eqb (T ".json") json_) with true. cbn iota. rewrite F. reflexivity.
Qed.

Lemma overlap ext x (dir rest : text) : text_format ext -> x :: dir ++ ext = ext ++ rest -> exists b, x :: dir = ext ++ b.
Proof.
  intros [-> | ->] H; cbn in H.
  - do 3 (destruct dir as [|? dir]; [exfalso; cbn in H; inversion H; subst; discriminate|]). cbn in H. inversion H; subst. eexists. reflexivity.
  - do 4 (destruct dir as [|? dir]; [exfalso; cbn in H; inversion H; subst; discriminate|]). cbn in H. inversion H; subst. eexists. reflexivity.
Qed.

Lemma replaced ext dir fuel : text_format ext -> (forall a b, dir <> a ++ ext ++ b) -> (List.length (dir ++ ext) <= fuel)%nat ->
  replace_sub fuel ext [] (dir ++ ext) = dir.
Proof.
  intros X. revert fuel. induction dir as [|x dir IH]; intros fuel N L.
  - destruct X as [-> | ->]; (destruct fuel as [|fuel]; [cbn in L; lia|]); cbn; destruct fuel; reflexivity.
  - destruct fuel as [|fuel]; [cbn in L; lia|]. cbn [app replace_sub]. destruct (is_prefix ext (x :: dir ++ ext)) eqn:P.
    + exfalso. apply prefix_app in P. destruct P as [c P]. destruct (overlap ext x dir c X P) as [b B]. apply (N [] b). exact B.
    + f_equal. apply IH; [|cbn in L; lia]. intros a b ->. apply (N (x :: a) b). reflexivity.
Qed.

Lemma c69_frames path periods l out : sane d -> sources d path periods l -> (get_data_frames d path periods = Fine out <-> Forall2 (reads d) l out).
Proof.
  intros Sn H. unfold get_data_frames. inversion H as [p names L N|p ext L X F|dir ext files X L NO F D G A|dir ext X L NO F D]; subst.
  - apply parse_located in L as P. rewrite P. change (text_eqb (T ".xlsx") xlsx) with true. cbn iota. rewrite N. cbn [from_outside].
    rewrite (collect_all _ (fun i f => reads d (p, T ".xlsx", i, periods) f)).
    + generalize (seq 0 (List.length names)). intros q. clear. revert out. induction q as [|i q IH]; intros out; split; intros F; inversion F; subst; constructor; auto; apply IH; assumption.
    + intros i f _. rewrite frame_xlsx by (eapply located_again; exact L). apply outside_fine.
  - apply parse_located in L as P. rewrite P. replace (text_eqb ext xlsx) with false by (destruct X as [-> | ->]; reflexivity).
    unfold text_frames. rewrite F, (frame_text p ext 0 true Sn (located_again _ _ _ L) X F).
    destruct (read d p ext 0 true) as [f|x] eqn:E; cbn [from_outside]; split; intros Q; inversion Q; subst.
    + constructor; [exact E|constructor].
    + match goal with Z : Forall2 _ [] _ |- _ => inversion Z; subst end. cbn in H2. congruence.
    + cbn in H2. congruence.
  - apply parse_located in L as P. rewrite P. replace (text_eqb ext xlsx) with false by (destruct X as [-> | ->]; reflexivity).
    unfold text_frames. rewrite F. unfold replace_text. rewrite replaced; [|exact X|exact NO|apply Nat.le_refl]. rewrite D.
    rewrite (collect_all _ (fun g f => reads d (g, ext, 0%nat, true) f)).
    + generalize (glob d (path_join dir (T "*" ++ ext))). intros q. clear. revert out. induction q as [|i q IH]; intros out; split; intros F; inversion F; subst; constructor; auto; apply IH; assumption.
    + intros g f I. rewrite Forall_forall in A. destruct (A g I) as [A1 A2]. rewrite (frame_text g ext 0 true Sn); [apply outside_fine| |exact X|exact A2].
      apply lo_named; [exact A1|]. eapply located_known. exact L.
  - apply parse_located in L as P. rewrite P. replace (text_eqb ext xlsx) with false by (destruct X as [-> | ->]; reflexivity).
    unfold text_frames. rewrite F. unfold replace_text. rewrite replaced; [|exact X|exact NO|apply Nat.le_refl]. rewrite D.
    split; intros Q; inversion Q; subst; [constructor|reflexivity].
Qed.
Lemma c69_directory path periods x : bare path -> isdir d path = true -> isfile d (path ++ T ".xlsx") = false ->
  sheet_names d path = Err x -> get_data_frames d path periods = Fail (Outside x).
Proof.
  intros B D F N. unfold get_data_frames. rewrite (proj2 (parse_located path path (T ".xlsx"))) by (apply lo_dir; assumption).
  change (text_eqb (T ".xlsx") xlsx) with true. cbn iota. rewrite N. reflexivity.
Qed.
Lemma c69_letters dir index periods : isfile d (dir ++ T ".json") = false -> isdir d dir = true -> get_data_frame d (dir ++ T ".json") index periods = Fail NoAttribute.
Proof.
  intros F D. unfold get_data_frame. rewrite (proj2 (parse_located (dir ++ T ".json") (dir ++ T ".json") (T ".json"))) by (apply lo_named; [apply with_ext|]; right; right; reflexivity).
  change (text_eqb (T ".json") csv) with false. change (text_eqb (T ".json") json_) with true. cbn iota.
  destruct (isdir d (dir ++ T ".json")); [reflexivity|]. rewrite F. unfold cut5. rewrite app_length. cbn [T list_ascii_of_string List.length].
  replace (List.length dir + 5 - 5)%nat with (List.length dir) by lia. rewrite firstn_app, Nat.sub_diag, firstn_all, app_nil_r, D. reflexivity.
Qed.

(** ** the conversion *)
Lemma ext_app t : extension_of t (T ".xlsx") -> exists stem, t = stem ++ T ".xlsx".
Proof. intros (b & r & -> & _ & E). exists b. injection E as <-. reflexivity. Qed.
Lemma cut5_app stem ext : List.length ext = 5%nat -> cut5 (stem ++ ext) = stem.
Proof. intros L. unfold cut5. rewrite app_length, L. replace (List.length stem + 5 - 5)%nat with (List.length stem) by lia. rewrite firstn_app, Nat.sub_diag, firstn_all, app_nil_r. reflexivity. Qed.
Lemma xlsx_frames t names : extension_of t (T ".xlsx") -> sheet_names d t = Ok names -> forall fs,
  Forall2 (fun i f => read d t (T ".xlsx") i false = Ok f) (seq 0 (List.length names)) fs -> get_data_frames d t false = Fine fs.
Proof.
  intros E N fs F. assert (L : located d t t (T ".xlsx")) by (apply lo_named; [exact E|left; reflexivity]).
  unfold get_data_frames. apply parse_located in L as P. rewrite P. change (text_eqb (T ".xlsx") xlsx) with true. cbn iota. rewrite N. cbn [from_outside].
  apply (collect_all _ (fun i f => read d t (T ".xlsx") i false = Ok f)); [|exact F]. intros i f _. rewrite frame_xlsx by exact L. apply outside_fine.
Qed.
Lemma convert_singles cases fs ws : Forall2 (single d) cases fs -> Forall3 both_files cases fs ws -> forall rest,
  convert d (cases ++ rest) = (List.concat ws ++ fst (convert d rest), snd (convert d rest)).
Proof.
  intros H. revert ws. induction H as [|t f cases fs (E & name & N & R) H IH]; intros ws W rest; inversion W; subst.
  - cbn. destruct (convert d rest); reflexivity.
  - match goal with B : both_files t f ?w |- _ => inversion B; subst end. cbn [app convert].
    rewrite (xlsx_frames (stem ++ T ".xlsx") [name] E N [f]) by (constructor; [exact R|constructor]).
    rewrite (IH _ H6 rest). rewrite cut5_app by reflexivity. reflexivity.
Qed.
Lemma convert_several t rest : several d t -> exists stem, t = stem ++ T ".xlsx" /\
  convert d (t :: rest) = (if isdir d stem then [] else [MadeDir stem], Fail NoAttribute).
Proof.
  intros (E & names & fs & N & L & F). destruct (ext_app t E) as [stem ->]. exists stem. split; [reflexivity|].
  cbn [convert]. rewrite (xlsx_frames _ names E N fs F). rewrite cut5_app by reflexivity.
  assert (Q : List.length (seq 0 (List.length names)) = List.length fs) by (clear - F; induction F; cbn; congruence). rewrite seq_length in Q. destruct fs as [|f [|g fs]]; [cbn in Q; lia|cbn in Q; lia|reflexivity].
Qed.
End Disk.

(** ** directories *)
Lemma slash_iff c : is_slash c = true <-> c = "/"%char.
Proof. apply ch_eqb_eq. Qed.
Lemma take_all f t r : (forall c, In c t -> f c = true) -> (match r with c :: _ => f c = false | [] => True end) -> take_while f (t ++ r) = t /\ drop_while f (t ++ r) = r.
Proof.
  intros H N. induction t as [|c t IH]; cbn.
  - destruct r as [|x r]; cbn; [auto|]. rewrite N. auto.
  - rewrite (H c (or_introl eq_refl)). destruct IH as [-> ->]; [intros x I; apply H; right; exact I|]. auto.
Qed.
Lemma no_slash t : ~ In "/"%char t -> forall c, In c (rev t) -> negb (is_slash c) = true.
Proof. intros H c I. apply in_rev in I. destruct (is_slash c) eqn:E; [|reflexivity]. apply slash_iff in E. subst. contradiction. Qed.
Lemma tail_after h x : ~ In "/"%char x -> path_tail (h ++ "/"%char :: x) = x.
Proof.
  intros N. unfold path_tail. rewrite rev_app_distr. cbn [rev]. rewrite <- app_assoc. cbn [app].
  destruct (take_all (fun c => negb (is_slash c)) (rev x) ("/"%char :: rev h) (no_slash x N) eq_refl) as [-> _]. apply rev_involutive.
Qed.
Lemma tail_alone x : ~ In "/"%char x -> path_tail x = x.
Proof.
  intros N. unfold path_tail. destruct (take_all (fun c => negb (is_slash c)) (rev x) [] (no_slash x N) I) as [E _]. rewrite app_nil_r in E. rewrite E. apply rev_involutive.
Qed.
Lemma tail_iff p n : path_tail p = n <-> last_name p n.
Proof.
  assert (A : forall p, last_name p (path_tail p)).
  { intros q. destruct (in_dec Ascii.ascii_dec "/"%char q) as [I|I].
    - right. destruct (from_last "/"%char q) as [s|] eqn:E; [|apply from_last_none in E; contradiction].
      apply from_last_some in E. destruct E as (b & r & -> & N & _). exists b. rewrite (tail_after b r N). auto.
    - left. rewrite (tail_alone q I). auto. }
  split; [intros <-; apply A|]. intros [[-> N]|(a & -> & N)]; [apply tail_alone; exact N|apply tail_after; exact N].
Qed.
Lemma abs_snoc l x : abs_path (l ++ [x]) = abs_path l ++ "/"%char :: x.
Proof. induction l as [|y l IH]; cbn; [rewrite app_nil_r; reflexivity|]. rewrite IH, <- app_assoc. reflexivity. Qed.
Lemma head_after h x : ~ In "/"%char x -> path_head (h ++ "/"%char :: x) =
  if forallb is_slash (h ++ ["/"%char]) then h ++ ["/"%char] else rev (drop_while is_slash (rev h)).
Proof.
  intros N. unfold path_head. rewrite rev_app_distr. cbn [rev]. rewrite <- app_assoc. cbn [app].
  destruct (take_all (fun c => negb (is_slash c)) (rev x) ("/"%char :: rev h) (no_slash x N) eq_refl) as [_ ->]. cbn [rev]. rewrite rev_involutive.
  destruct (forallb is_slash (h ++ ["/"%char])); [reflexivity|]. rewrite rev_app_distr. reflexivity.
Qed.
Lemma head_root x : a_name x -> path_head (abs_path [x]) = T "/".
Proof. intros [_ N]. cbn [abs_path]. rewrite app_nil_r. exact (head_after [] x N). Qed.
Lemma head_up l y x : Forall a_name (l ++ [y]) -> a_name x -> path_head (abs_path ((l ++ [y]) ++ [x])) = abs_path (l ++ [y]).
Proof.
  intros F [_ N]. rewrite abs_snoc, (head_after _ x N). apply Forall_app in F. destruct F as [_ F]. inversion F as [|? ? [Y1 Y2]]; subst. clear F.
  assert (HZ : exists h z, abs_path (l ++ [y]) = h ++ [z] /\ z <> "/"%char).
  { rewrite abs_snoc. destruct (exists_last Y1) as (y' & z & ->). exists (abs_path l ++ "/"%char :: y'), z. split; [rewrite <- app_assoc; reflexivity|].
    intros ->. apply Y2, in_or_app. right. left. reflexivity. }
  destruct HZ as (h & z & -> & Z).
  assert (NS : is_slash z = false) by (destruct (is_slash z) eqn:E; [apply slash_iff in E; contradiction|reflexivity]).
  replace (forallb is_slash ((h ++ [z]) ++ ["/"%char])) with false by (rewrite !forallb_app; cbn; rewrite NS; cbn; rewrite andb_false_r; reflexivity).
  rewrite rev_app_distr. cbn [rev app drop_while]. rewrite NS. cbn [rev]. rewrite rev_involutive. reflexivity.
Qed.
Lemma tail_abs l x : a_name x -> path_tail (abs_path (l ++ [x])) = x.
Proof. intros [_ N]. rewrite abs_snoc. apply tail_after. exact N. Qed.

Lemma up_found a name b x fuel : a_name name -> Forall a_name a -> Forall a_name b -> a_name x -> ~ In name b -> (S (List.length b) <= fuel)%nat ->
  package_dir_up fuel name (abs_path (a ++ [name] ++ b ++ [x])) = Found (abs_path (a ++ [name])).
Proof.
  intros N A. revert x fuel. induction b as [|y b IH] using rev_ind; intros x fuel B X NB L; (destruct fuel as [|fuel]; [lia|]); cbn [package_dir_up].
  - cbn [app]. change [name; x] with ([name] ++ [x]). rewrite app_assoc.
    rewrite head_up; [|apply Forall_app; auto|exact X]. rewrite tail_abs by exact N. rewrite text_eqb_refl. reflexivity.
  - rewrite app_length in L. cbn in L. apply Forall_app in B. destruct B as [B Y]. inversion Y; subst.
    replace (a ++ [name] ++ (b ++ [y]) ++ [x]) with (((a ++ [name] ++ b) ++ [y]) ++ [x]) by (repeat (cbn [app]; rewrite <- ?app_assoc); reflexivity).
    rewrite head_up; [|apply Forall_app; split; [apply Forall_app; split; [exact A|constructor; assumption]|auto]|exact X].
    rewrite tail_abs by assumption.
    replace (text_eqb y name) with false.
    2:{ symmetry. apply text_eqb_neq. intros ->. apply NB, in_or_app. right. left. reflexivity. }
    replace ((a ++ [name] ++ b) ++ [y]) with (a ++ [name] ++ b ++ [y]) by (repeat (cbn [app]; rewrite <- ?app_assoc); reflexivity).
    apply IH; auto; [|lia]. intros I. apply NB, in_or_app. auto.
Qed.
Lemma up_root fuel name : name <> [] -> package_dir_up fuel name (T "/") = RecursionError.
Proof. intros N. induction fuel as [|fuel IH]; cbn [package_dir_up]; [reflexivity|]. change (path_head (T "/")) with (T "/"). change (path_tail (T "/")) with (@nil ascii). destruct name; [contradiction|]. cbn [text_eqb]. exact IH. Qed.
Lemma up_never b x fuel name : name <> [] -> Forall a_name b -> a_name x -> ~ In name b -> package_dir_up fuel name (abs_path (b ++ [x])) = RecursionError.
Proof.
  intros NE. revert x fuel. induction b as [|y b IH] using rev_ind; intros x fuel B X NB; (destruct fuel as [|fuel]; [reflexivity|]); cbn [package_dir_up].
  - cbn [app]. rewrite head_root by exact X. change (path_tail (T "/")) with (@nil ascii). destruct name as [|c name]; [contradiction|]. cbn [text_eqb]. apply up_root. discriminate.
  - rewrite head_up; [|exact B|exact X]. apply Forall_app in B. destruct B as [B Y]. inversion Y; subst. rewrite tail_abs by assumption.
    replace (text_eqb y name) with false.
    2:{ symmetry. apply text_eqb_neq. intros ->. apply NB, in_or_app. right. left. reflexivity. }
    apply IH; auto. intros I. apply NB, in_or_app. auto.
Qed.
Lemma abs_is_abs b x : is_abs (abs_path (b ++ [x])) = true.
Proof. destruct b; reflexivity. Qed.
Lemma abs_length l : Forall a_name l -> (List.length l <= List.length (abs_path l))%nat.
Proof. induction 1 as [|x l _ _ IH]; cbn; [lia|]. rewrite app_length. lia. Qed.
