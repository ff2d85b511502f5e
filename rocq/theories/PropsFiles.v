(** Properties C69, C70 and C71: files of serialized frames and directories. *)
From Verif Require SpecData NumberFacts.
From Verif Require Import Base BaseFacts Files SpecFiles FilesProofs.
Local Open Scope Z_scope.

(** ** C69 Frames are read from the files meant by the path *)
Theorem C69_located {frame} (d : disk frame) path p ext : parse_path_and_extension d path = Fine (p, ext) <-> located d path p ext.
Proof. exact (parse_located d path p ext). Qed.
Print Assumptions C69_located.

Theorem C69_nothing {frame} (d : disk frame) path periods : ~ (exists p ext, located d path p ext) ->
  get_data_frames d path periods = Fail NoSerialized /\ forall index, get_data_frame d path index periods = Fail NoSerialized.
Proof.
  intros H. apply parse_nothing in H. unfold get_data_frames, get_data_frame. rewrite H. auto.
Qed.
Print Assumptions C69_nothing.

(** the frames are those of the sheets, or of the files, in order *)
Theorem C69_frames {frame} (d : disk frame) path periods l out : sane d -> sources d path periods l ->
  (get_data_frames d path periods = Fine out <-> Forall2 (reads d) l out).
Proof. exact (c69_frames d path periods l out). Qed.
Print Assumptions C69_frames.

(** a directory of csv or json files is taken for a workbook, and raises *)
Theorem C69_directory {frame} (d : disk frame) path periods x : bare path -> isdir d path = true -> isfile d (path ++ T ".xlsx") = false ->
  sheet_names d path = Err x -> get_data_frames d path periods = Fail (Outside x).
Proof. exact (c69_directory d path periods x). Qed.
Print Assumptions C69_directory.

(** one of several json frames cannot be asked for *)
Theorem C69_letters {frame} (d : disk frame) dir index periods : isfile d (dir ++ T ".json") = false -> isdir d dir = true ->
  get_data_frame d (dir ++ T ".json") index periods = Fail NoAttribute.
Proof. exact (c69_letters d dir index periods). Qed.
Print Assumptions C69_letters.

(** one frame: of a csv or json directory, or of the json file of which there is
    only the directory, it is never read; otherwise it is what is read *)
Definition only_directory {frame} (d : disk frame) (p ext : text) : Prop :=
  text_format ext /\ isdir d p = true \/
  ext = T ".json" /\ isfile d p = false /\ exists dir, p = dir ++ T ".json" /\ isdir d dir = true.
Theorem C69_one {frame} (d : disk frame) path p ext index periods : located d path p ext ->
  (only_directory d p ext -> get_data_frame d path index periods = Fail NoAttribute) /\
  (~ only_directory d p ext -> get_data_frame d path index periods = from_outside (read d p ext index periods)).
Proof.
  intros L. assert (K : known ext) by (destruct L; unfold known; auto).
  assert (J : ext = T ".json" -> exists dir, p = dir ++ T ".json").
  { intros ->. inversion L; subst; try discriminate; [|eexists; reflexivity].
    match goal with H : extension_of _ _ |- _ => destruct H as (b & r & -> & _ & E) end. exists b. injection E as <-. reflexivity. }
  apply C69_located in L. unfold get_data_frame. rewrite L.
  destruct K as [->|[->| ->]].
  - change (text_eqb (T ".xlsx") csv) with false. change (text_eqb (T ".xlsx") json_) with false. cbn iota.
    split; [|reflexivity]. intros [[[H|H] _]|[H _]]; discriminate.
  - change (text_eqb (T ".csv") csv) with true. cbn iota. unfold only_directory, text_format.
    destruct (isdir d p) eqn:D; (split; intros H; [|]); try reflexivity.
    + elim H. left. split; [left; reflexivity|reflexivity].
    + destruct H as [[_ H]|[H _]]; discriminate.
  - change (text_eqb (T ".json") csv) with false. change (text_eqb (T ".json") json_) with true. cbn iota.
    destruct (J eq_refl) as [dir ->]. unfold only_directory, text_format.
    rewrite (cut5_app dir (T ".json") eq_refl).
    destruct (isdir d (dir ++ T ".json")) eqn:D.
    { split; [reflexivity|]. intros H. elim H. left. auto. }
    destruct (isfile d (dir ++ T ".json")) eqn:F; cbn [negb andb].
    { split; [|reflexivity]. intros [[_ H]|(_ & H & _)]; discriminate. }
    destruct (isdir d dir) eqn:E.
    { split; [reflexivity|]. intros H. elim H. right. split; [reflexivity|]. split; [reflexivity|]. exists dir. auto. }
    split; [|reflexivity]. intros [[_ H]|(_ & _ & x & H & G)]; [discriminate|]. apply app_inv_tail in H. subst x. congruence.
Qed.
Print Assumptions C69_one.

(** a disk with a workbook of two sheets, a csv file, and the directory of two
    json files *)
Definition some_disk : disk nat := mkdisk nat
  (fun p => text_in p [T "d/one.xlsx"; T "d/two.csv"; T "d/three/threea.json"; T "d/three/threeb.json"; T "v.json/a/b.json"])
  (fun p => text_in p [T "d"; T "d/three"; T "v.json/a"])
  (fun q => if text_eqb q (T "d/three/*.json") then [T "d/three/threea.json"; T "d/three/threeb.json"]
            else if text_eqb q (T "v.json/a/*.json") then [T "v.json/a/b.json"] else [])
  (fun p => if text_eqb p (T "d/one.xlsx") then Ok [T "M"; T "Q"] else Err EOther)
  (fun p ext i periods => Ok (List.length p + 100 * i + (if periods then 0 else 1000))%nat).
Ltac no_dots := cbn; intuition discriminate.
Ltac bare_ := intros ? ?E ?K; apply extension_iff in E; vm_compute in E; inversion E; subst; destruct K as [K|[K|K]]; discriminate K.
Example C69_case :
  sane some_disk /\
  located some_disk (T "d/one") (T "d/one.xlsx") (T ".xlsx") /\ located some_disk (T "d/two") (T "d/two.csv") (T ".csv") /\
  sources some_disk (T "d/one") false [(T "d/one.xlsx", T ".xlsx", 0%nat, false); (T "d/one.xlsx", T ".xlsx", 1%nat, false)] /\
  sources some_disk (T "d/two") false [(T "d/two.csv", T ".csv", 0%nat, true)] /\
  sources some_disk (T "d/three.json") false [(T "d/three/threea.json", T ".json", 0%nat, true); (T "d/three/threeb.json", T ".json", 0%nat, true)] /\
  sources some_disk (T "d/four.csv") false [] /\
  get_data_frames some_disk (T "d/one") false = Fine [1010; 1110]%nat /\ get_data_frames some_disk (T "d/three.json") false = Fine [19; 19]%nat /\
  get_data_frames some_disk (T "d/four.csv") false = Fine [] /\ get_data_frames some_disk (T "d/four") false = Fail NoSerialized /\
  get_data_frames some_disk (T "d/three") false = Fail (Outside EOther) /\ get_data_frame some_disk (T "d/three.json") 1 true = Fail NoAttribute.
Proof.
  assert (L1 : located some_disk (T "d/one") (T "d/one.xlsx") (T ".xlsx")) by (apply (lo_xlsx some_disk (T "d/one")); [bare_|reflexivity]).
  assert (L2 : located some_disk (T "d/two") (T "d/two.csv") (T ".csv")) by (apply (lo_csv some_disk (T "d/two")); [bare_|reflexivity..]).
  split.
  { intros p H. apply text_in_In in H. cbn [In] in H. repeat (destruct H as [<-|H]; [reflexivity|]). destruct H. }
  split; [exact L1|]. split; [exact L2|].
  split; [apply (so_sheets some_disk (T "d/one") false (T "d/one.xlsx") [T "M"; T "Q"]); [exact L1|reflexivity]|].
  split; [apply (so_file some_disk (T "d/two") false (T "d/two.csv") (T ".csv")); [exact L2|left; reflexivity|reflexivity]|].
  split.
  { apply (so_files some_disk (T "d/three.json") false (T "d/three") (T ".json") [T "d/three/threea.json"; T "d/three/threeb.json"]); try reflexivity.
    - right. reflexivity.
    - apply lo_named; [apply extension_iff; reflexivity|right; right; reflexivity].
    - intros a b H. assert (I : In "."%char (T "d/three")) by (rewrite H; apply in_or_app; right; left; reflexivity). cbn in I. intuition discriminate.
    - repeat constructor; apply extension_iff; reflexivity. }
  split.
  { apply (so_nothing some_disk (T "d/four.csv") false (T "d/four") (T ".csv")); try reflexivity.
    - left. reflexivity.
    - apply lo_named; [apply extension_iff; reflexivity|right; left; reflexivity].
    - intros a b H. assert (I : In "."%char (T "d/four")) by (rewrite H; apply in_or_app; right; left; reflexivity). cbn in I. intuition discriminate. }
  repeat split.
Qed.

(** The frames of the directory named like the file: not when the extension is
    elsewhere in the path, where it is removed too. *)
Theorem C69_elsewhere_refuted : exists (d : disk nat) dir files,
  sane d /\ isfile d (dir ++ T ".json") = false /\ isdir d dir = true /\ files <> [] /\
  glob d (path_join dir (T "*.json")) = files /\ Forall (fun f => extension_of f (T ".json") /\ isfile d f = true /\ exists x, read d f (T ".json") 0 true = Ok x) files /\
  get_data_frames d (dir ++ T ".json") true = Fine [].
Proof.
  exists some_disk, (T "v.json/a"), [T "v.json/a/b.json"]. split; [apply C69_case|]. repeat split; try discriminate.
  repeat constructor; [apply extension_iff; reflexivity|eexists; reflexivity].
Qed.
Print Assumptions C69_elsewhere_refuted.

(** ** C70 Every workbook of a directory is written as json and csv *)
Theorem C70_singles {frame} there (inside : text -> disk frame) module old base dir fs ws :
  (there base = true /\ dir = base \/ there base = false /\ dir = path_join module base) -> there dir = true ->
  Forall2 (single (inside dir)) (glob (inside dir) (T "*.xlsx")) fs -> Forall3 both_files (glob (inside dir) (T "*.xlsx")) fs ws ->
  dfs_to_json_and_csv there inside module old base = (List.concat ws, old, Fine tt).
Proof.
  intros D TH F W. unfold dfs_to_json_and_csv.
  replace (if there base then base else path_join module base) with dir by (destruct D as [[-> ->]|[-> ->]]; reflexivity).
  rewrite TH. pose proof (convert_singles (inside dir) _ fs ws F W []) as C. rewrite app_nil_r in C. rewrite C. cbn. rewrite app_nil_r. reflexivity.
Qed.
Print Assumptions C70_singles.

(** at the first workbook of several sheets it raises, and the current
    directory is not the one it was *)
Theorem C70_several {frame} there (inside : text -> disk frame) module old base cases fs ws t rest :
  there base = true -> glob (inside base) (T "*.xlsx") = cases ++ t :: rest ->
  Forall2 (single (inside base)) cases fs -> Forall3 both_files cases fs ws -> several (inside base) t ->
  exists made, dfs_to_json_and_csv there inside module old base = (List.concat ws ++ made, base, Fail NoAttribute) /\
    (made = [] \/ exists stem, t = stem ++ T ".xlsx" /\ made = [MadeDir stem]).
Proof.
  intros TH G F W M. destruct (convert_several (inside base) t rest M) as (stem & E & C). unfold dfs_to_json_and_csv. rewrite TH, TH, G.
  rewrite (convert_singles (inside base) cases fs ws F W (t :: rest)), C. cbn [fst snd].
  eexists. split; [reflexivity|]. destruct (isdir (inside base) stem); [left; reflexivity|right; exists stem; auto].
Qed.
Print Assumptions C70_several.

Definition books : disk nat := mkdisk nat (fun p => text_in p [T "a.xlsx"; T "b.xlsx"; T "c.xlsx"]) (fun p => false)
  (fun q => if text_eqb q (T "*.xlsx") then [T "a.xlsx"; T "b.xlsx"] else [])
  (fun p => if text_eqb p (T "c.xlsx") then Ok [T "M"; T "Q"] else Ok [T "M"])
  (fun p ext i periods => if text_eqb p (T "a.xlsx") then Ok 1%nat else Ok 2%nat).
Definition more_books : disk nat := mkdisk nat (isfile books) (isdir books)
  (fun q => if text_eqb q (T "*.xlsx") then [T "a.xlsx"; T "c.xlsx"; T "b.xlsx"] else []) (sheet_names books) (read books).
Example C70_case :
  (Forall2 (single books) (glob books (T "*.xlsx")) [1; 2]%nat /\
   dfs_to_json_and_csv (fun p => text_eqb p (T "cases")) (fun _ => books) (T "m") (T "here") (T "cases") =
     ([WroteJson (T "a.json") 1%nat; WroteCsv (T "a.csv") 1%nat; WroteJson (T "b.json") 2%nat; WroteCsv (T "b.csv") 2%nat], T "here", Fine tt)) /\
  (several more_books (T "c.xlsx") /\
   dfs_to_json_and_csv (fun p => text_eqb p (T "cases")) (fun _ => more_books) (T "m") (T "here") (T "cases") =
     ([WroteJson (T "a.json") 1%nat; WroteCsv (T "a.csv") 1%nat; MadeDir (T "c")], T "cases", Fail NoAttribute)).
Proof.
  split; (split; [|vm_compute; reflexivity]).
  - repeat constructor; try (apply extension_iff; reflexivity); eexists; split; reflexivity.
  - split; [apply extension_iff; reflexivity|]. exists [T "M"; T "Q"], [2; 2]%nat. repeat constructor.
Qed.
(** not always back to the directory it was called from *)
Theorem C70_back_refuted : exists there (inside : text -> disk nat) module old base w r,
  there old = true /\ there base = true /\ dfs_to_json_and_csv there inside module old base = (w, base, r) /\ base <> old.
Proof.
  exists (fun p => text_in p [T "cases"; T "here"]), (fun _ => more_books), (T "m"), (T "here"), (T "cases"). eexists. eexists.
  repeat split. discriminate.
Qed.
Print Assumptions C70_back_refuted.

(** ** C71 The directory of the package is the nearest one of that name *)
Theorem C71_nearest sys_path a name b x : a_name name -> Forall a_name a -> Forall a_name b -> a_name x -> ~ In name b ->
  get_package_dir sys_path name (abs_path (a ++ [name] ++ b ++ [x])) = Found (abs_path (a ++ [name])).
Proof.
  intros N A B X NB. unfold get_package_dir. rewrite !app_assoc, abs_is_abs, <- !app_assoc. apply up_found; auto.
  assert (L : (List.length (a ++ [name] ++ b ++ [x]) <= List.length (abs_path (a ++ [name] ++ b ++ [x])))%nat).
  { apply abs_length. apply Forall_app. split; [exact A|]. constructor; [exact N|]. apply Forall_app. auto. }
  rewrite !app_length in L at 1. cbn [List.length] in L. lia.
Qed.
Print Assumptions C71_nearest.

(** a path outside of any such directory: the calls never end *)
Theorem C71_outside sys_path b x name : name <> [] -> Forall a_name b -> a_name x -> ~ In name b ->
  get_package_dir sys_path name (abs_path (b ++ [x])) = RecursionError.
Proof. intros N B X NB. unfold get_package_dir. rewrite abs_is_abs. apply up_never; assumption. Qed.
Print Assumptions C71_outside.

(** a relative path: the first of sys.path of that name *)
Theorem C71_relative sys_path name path : (forall r, path <> "/"%char :: r) ->
  (forall p, get_package_dir sys_path name path = Found p <-> exists l r, sys_path = l ++ p :: r /\ last_name p name /\ Forall (fun q => ~ last_name q name) l) /\
  (get_package_dir sys_path name path = NotFound <-> Forall (fun q => ~ last_name q name) sys_path).
Proof.
  intros R. unfold get_package_dir. replace (is_abs path) with false.
  2:{ destruct path as [|c r]; [reflexivity|]. cbn. destruct (is_slash c) eqn:E; [|reflexivity]. apply slash_iff in E. subst. destruct (R r eq_refl). }
  clear R. induction sys_path as [|q l IH]; cbn [find].
  - split; [|split; auto]. intros p. split; [discriminate|]. intros ([|] & r & H & _); discriminate.
  - destruct (text_eqb (path_tail q) name) eqn:E.
    + apply text_eqb_eq, tail_iff in E. split.
      * intros p. split; [intros H; inversion H; subst; exists [], l; repeat split; auto|].
        intros ([|y l'] & r & H & P & F); cbn in H; inversion H; subst; [reflexivity|]. inversion F; contradiction.
      * split; [discriminate|]. intros F. inversion F; contradiction.
    + apply text_eqb_neq in E. assert (NE : ~ last_name q name) by (intros Q; apply tail_iff in Q; contradiction). destruct IH as [IH1 IH2]. split.
      * intros p. rewrite IH1. split.
        { intros (l' & r & -> & P & F). exists (q :: l'), r. repeat split; auto. }
        intros ([|y l'] & r & H & P & F); cbn in H; inversion H; subst; [contradiction|]. inversion F; subst. exists l', r. auto.
      * rewrite IH2. split; [auto|]. intros F. inversion F; auto.
Qed.
Print Assumptions C71_relative.

(** different numbers of cases, different paths; 0 counts as no number *)
Theorem C71_cases package relative ext m n : 0 < m -> 0 < n -> cases_path package relative ext (Some m) = cases_path package relative ext (Some n) -> m = n.
Proof.
  intros M N. unfold cases_path. replace (m =? 0) with false by lia. replace (n =? 0) with false by lia.
  generalize (path_join package relative). intros b. unfold path_join. intros H.
  assert (E : T "test_case" ++ Z_text m ++ ext = T "test_case" ++ Z_text n ++ ext).
  { destruct (rev b) as [|c r]; [exact H|]. destruct (ch_eqb c "/"%char); [apply app_inv_head in H; exact H|]. apply app_inv_head in H. apply app_inv_head in H. exact H. }
  apply app_inv_head, app_inv_tail in E. apply Z_text_inj in E; lia.
Qed.
Print Assumptions C71_cases.
(** without a number, and with the number 0, the directory itself; otherwise a
    file in it named after the number *)
Theorem C71_numbered package relative ext m : package <> [] -> (forall a, package <> a ++ ["/"%char]) ->
  relative <> [] -> (forall a, relative <> a ++ ["/"%char]) ->
  let base := package ++ T "/" ++ relative in
  cases_path package relative ext None = base /\ cases_path package relative ext (Some 0) = base /\
  (0 < m -> exists digits, SpecData.decimal digits m /\
     cases_path package relative ext (Some m) = base ++ T "/test_case" ++ digits ++ ext).
Proof.
  intros P PS R RS base.
  assert (J : forall a b : text, a <> [] -> (forall x, a <> x ++ ["/"%char]) -> path_join a b = a ++ T "/" ++ b).
  { intros a b N S0. unfold path_join. destruct (rev a) as [|c r] eqn:E; [apply (f_equal (@rev _)) in E; rewrite rev_involutive in E; contradiction|].
    destruct (ch_eqb c "/"%char) eqn:C; [|reflexivity]. apply ch_eqb_eq in C. subst c.
    apply (f_equal (@rev _)) in E. rewrite rev_involutive in E. cbn in E. elim (S0 (rev r)). exact E. }
  unfold cases_path. rewrite (J package relative P PS). fold base. split; [reflexivity|]. split; [reflexivity|].
  intros M. replace (m =? 0) with false by lia. exists (Z_text m). split; [apply NumberFacts.decimal_iff; split; [apply Z_text_digits|apply Z_text_val]; lia|].
  rewrite J; [reflexivity|unfold base; intros H; apply app_eq_nil in H as [H _]; contradiction|].
  intros x H. unfold base in H. destruct (exists_last R) as (r' & c & ->). rewrite !app_assoc in H. apply app_inj_tail in H as [_ ->].
  exact (RS r' eq_refl).
Qed.
Print Assumptions C71_numbered.

Example C71_case :
  let home := [T "home"; T "xlseries"] in
  get_package_dir [] (T "xlseries") (T "/home/xlseries/xlseries/utils/path_finders.py") = Found (T "/home/xlseries/xlseries") /\
  T "/home/xlseries/xlseries/utils/path_finders.py" = abs_path (home ++ [T "xlseries"] ++ [T "utils"] ++ [T "path_finders.py"]) /\
  Forall a_name home /\ ~ In (T "xlseries") [T "utils"] /\
  get_package_dir [] (T "xlseries") (T "/usr/lib/x.py") = RecursionError /\
  get_package_dir [T "/a"; T "/b/xlseries"; T "xlseries"] (T "xlseries") (T "utils/x.py") = Found (T "/b/xlseries") /\
  get_package_dir [T "/a"] (T "xlseries") (T "/xlseries") = RecursionError /\
  cases_path (T "/x") (T "tests/original") (T ".xlsx") (Some 12) = T "/x/tests/original/test_case12.xlsx" /\
  cases_path (T "/x") (T "tests/original") (T ".xlsx") (Some 0) = T "/x/tests/original".
Proof.
  cbv zeta. split; [reflexivity|]. split; [reflexivity|]. split; [repeat constructor; try discriminate; cbn; intuition discriminate|].
  split; [intros [E|[]]; discriminate E|]. repeat split.
Qed.
