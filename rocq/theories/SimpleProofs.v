(** Dates written as day, month and year (C45). *)
From Coq Require Import ZifyBool ZifyNat ZifyN.
From Verif Require Import Base BaseFacts CoordFacts Coord Params Cal CalFacts CalProofs Peg ParseTime TimeIndex SpecCal SpecCoord SpecCoordFacts SpecTime SpecData SpecParse SpecSimple TimeFacts TimeProofs
  TimeProofs2 NumberFacts DataFacts TextProofs HeaderFacts ParseFacts PoolProofs IndexWalk IndexTexts ComposedProofs.
Local Open Scope Z_scope.

(** ** the parts *)
Lemma day_iff t n : day_part t n <-> exists o, match_day t = Ok o /\ or_else o 1 = n.
Proof.
  split.
  - intros [|u k L D]; [exists None; auto|]. apply decimal_iff in D as [D V]. exists (Some k). split; auto. unfold match_day.
    destruct u as [|a [|b [|c u]]]; cbn [List.length] in L |- *; try lia; rewrite D, V; auto.
  - intros (o & H & E). unfold match_day in H. destruct t as [|a [|b [|c u]]]; cbn [List.length] in H; try discriminate.
    + injection H as <-. cbn in E. subst. constructor.
    + destruct (forallb is_digit [a]) eqn:D; [|discriminate]. injection H as <-. subst n. apply dp_number; [cbn; lia|]. apply decimal_iff. auto.
    + destruct (forallb is_digit [a; b]) eqn:D; [|discriminate]. injection H as <-. subst n. apply dp_number; [cbn; lia|]. apply decimal_iff. auto.
Qed.
Lemma digits_forall t : forallb is_digit t = true <-> Forall digit t.
Proof.
  rewrite forallb_forall, Forall_forall. split; intros H c I; apply H in I; apply digit_iff; auto.
Qed.
Lemma month_iff e k t n : month_part e k t n <-> exists o, match_month e k t = Ok o /\ or_else o 1 = n.
Proof.
  split.
  - intros [|u z L D|u z L D A].
    + exists None; auto.
    + apply decimal_iff in D as [D V]. exists (Some z). split; auto. unfold match_month.
      destruct u as [|a [|b [|c u]]]; cbn [List.length] in L |- *; try lia; rewrite D, V; auto.
    + exists (Some z). split; auto. rewrite <- digits_forall in D. unfold match_month.
      destruct u as [|a [|b [|c u]]]; cbn [List.length] in L |- *; try lia. destruct (forallb is_digit _); [congruence|]. rewrite A. auto.
  - intros (o & H & E). unfold match_month in H. destruct t as [|a [|b [|c t]]]; cbn [List.length] in H.
    + injection H as <-. cbn in E. subst. constructor.
    + destruct (forallb is_digit [a]) eqn:D; [|discriminate]. injection H as <-. subst n. apply mp_number; [cbn; lia|]. apply decimal_iff. auto.
    + destruct (forallb is_digit [a; b]) eqn:D; [|discriminate]. injection H as <-. subst n. apply mp_number; [cbn; lia|]. apply decimal_iff. auto.
    + destruct (forallb is_digit _) eqn:D; [discriminate|]. destruct (arrow_month e k _) as [z|] eqn:A; [|discriminate]. injection H as <-. cbn in E. subst n.
      apply mp_name; auto; [cbn; lia|]. rewrite <- digits_forall, D. discriminate.
Qed.
Lemma short_iff u y : year2 u y <-> exists a b, u = [a; b] /\ forallb is_digit u = true /\ y = short_year (digits_val u).
Proof.
  split.
  - intros [t z L D Y]. apply decimal_iff in D as [D V]. destruct t as [|a [|b [|c t]]]; cbn in L; try lia. exists a, b. split; auto. split; auto.
    rewrite V. unfold short_year.
    assert (z mod 100 = z - 1900 \/ z mod 100 = z - 2000) by (assert (z / 100 = 19 \/ z / 100 = 20) by (pose proof (Z.div_mod z 100); pose proof (Z.mod_pos_bound z 100); lia); pose proof (Z.div_mod z 100); lia).
    destruct (68 <? z mod 100) eqn:B; lia.
  - intros (a & b & -> & D & ->). unfold short_year.
    assert (R : 0 <= digits_val [a; b] <= 99).
    { clear - D. cbn in D. unfold digits_val, digit_val, is_digit in *. cbn [fold_left]. lia. }
    constructor; [auto| |destruct (Z.ltb_spec 68 (digits_val [a; b])); lia]. apply decimal_iff. split; auto.
    destruct (68 <? digits_val [a; b]); [replace (1900 + digits_val [a; b]) with (digits_val [a; b] + 19 * 100) by lia|replace (2000 + digits_val [a; b]) with (digits_val [a; b] + 20 * 100) by lia];
      rewrite Z.mod_add by lia; symmetry; apply Z.mod_small; lia.
Qed.
Ltac four L u := destruct u as [|?a [|?b [|?c [|?d [|? ?]]]]]; cbn [List.length] in L; try discriminate L.
Lemma year_iff t n : year_part t n <-> exists o, match_year t = Ok o /\ or_else o 1 = n.
Proof.
  split.
  - intros [|u H|u y Y|u y L D|u x y L D U|u v y L D Y].
    + exists None; auto.
    + exists None. split; auto. assert (L : List.length u = 1%nat) by (unfold upper in H; rewrite <- (map_length up_ch), H; auto).
      destruct u as [|a [|b u]]; cbn [List.length] in L; try discriminate L. cbn [match_year]. rewrite H. auto.
    + exists (Some y). split; auto. apply short_iff in Y as (a & b & -> & D & ->). cbn [match_year]. rewrite D. auto.
    + apply decimal_iff in D as [D V]. exists (Some y). split; auto. four L u. cbn [match_year]. rewrite D, V. auto.
    + apply decimal_iff in D as [D V]. exists (Some y). split; auto. four L u. cbn [app match_year]. rewrite D, U, V. auto.
    + apply short_iff in Y as (a & b & -> & D2 & ->). apply digits_forall in D. eexists (Some _). split; [|reflexivity]. four L u. cbn [app match_year].
      replace (forallb is_digit _) with true; auto. symmetry. change (forallb is_digit ([a0; b0; c; d] ++ [a; b]) = true). rewrite forallb_app, D, D2. auto.
  - intros (o & H & E). destruct t as [|a [|b [|c [|d [|x [|y [|z t]]]]]]]; cbn [match_year] in H; try discriminate.
    + injection H as <-. cbn in E. subst. constructor.
    + destruct (text_eqb (upper [a]) (T "Y")) eqn:J; [|discriminate]. injection H as <-. cbn in E. subst. apply yp_letter. apply text_eqb_eq. auto.
    + destruct (forallb is_digit [a; b]) eqn:D; [|discriminate]. injection H as <-. subst n. apply yp_two. apply short_iff. exists a, b. auto.
    + destruct (forallb is_digit [a; b; c; d]) eqn:D; [|discriminate]. injection H as <-. subst n. apply yp_four; auto. apply decimal_iff. auto.
    + destruct (forallb is_digit [a; b; c; d]) eqn:D; [|discriminate]. destruct (text_eqb (upper [x]) (T "Y")) eqn:U; [|discriminate]. cbn [andb] in H.
      injection H as <-. subst n. apply (yp_five [a; b; c; d] x); auto; [apply decimal_iff; auto|apply text_eqb_eq; auto].
    + destruct (forallb is_digit [a; b; c; d; x; y]) eqn:D; [|discriminate]. injection H as <-. subst n.
      change (forallb is_digit ([a; b; c; d] ++ [x; y]) = true) in D. rewrite forallb_app in D. apply andb_prop in D as [D1 D2].
      apply (yp_six [a; b; c; d] [x; y]); auto; [apply digits_forall; auto|apply short_iff; exists x, y; auto].
Qed.

(** ** the three orders *)
Lemma make_iff y m d x : make_date y m d = Ok x <-> x = mkdt y m d 0 /\ real_date (mkdt y m d 0).
Proof.
  rewrite <- valid_real. unfold make_date, valid_dt. cbn. destruct (valid_ymd y m d); split.
  - intros H. injection H as <-. auto.
  - intros [-> _]. auto.
  - discriminate.
  - intros [_ H]. discriminate.
Qed.
Lemma get_iff e k a b c x : arrow_get e k a b c = Ok x <-> exists d m y, day_part a d /\ month_part e k b m /\ year_part c y /\ x = mkdt y m d 0 /\ real_date x.
Proof.
  unfold arrow_get. split.
  - intros H. destruct (match_day a) as [d|] eqn:D; [|discriminate]. destruct (match_month e k b) as [m|] eqn:M; [|discriminate].
    destruct (match_year c) as [y|] eqn:Y; [|discriminate]. cbn [bind] in H. apply make_iff in H as [-> R].
    exists (or_else d 1), (or_else m 1), (or_else y 1). rewrite day_iff, month_iff, year_iff. repeat split; eauto; apply R.
  - intros (d & m & y & D & M & Y & -> & R). apply day_iff in D as (od & -> & <-). apply month_iff in M as (om & -> & <-). apply year_iff in Y as (oy & -> & <-).
    cbn [bind]. apply make_iff. auto.
Qed.

Definition dash (c : ascii) : ascii := if ch_eqb c "." then "-"%char else if ch_eqb c "/" then "-"%char else c.
Lemma dash_eq c : (fun c => if ch_eqb c "/" then "-"%char else c) (if ch_eqb c "." then "-"%char else c) = dash c.
Proof. unfold dash. cbv beta. destruct (ch_eqb c ".") eqn:E; auto. Qed.
Lemma dashes_map t : dashes t = map dash t.
Proof. unfold dashes, replace_ch. rewrite map_map. apply map_ext. intros c. apply dash_eq. Qed.
Lemma dash_sep c : separates c -> dash c = "-"%char.
Proof. intros [<-|[<-|[<-|[]]]]; reflexivity. Qed.
Lemma sep_dec c : separates c \/ ~ separates c.
Proof. unfold separates, among. destruct (in_dec ascii_dec c (T "-./")); auto. Qed.
Lemma dash_other c : ~ separates c -> dash c = c /\ ch_eqb c "-" = false.
Proof.
  intros N. unfold separates, among in N. cbn in N. unfold dash.
  destruct (ch_eqb c ".") eqn:E; [apply ch_eqb_eq in E; subst; destruct N; tauto|].
  destruct (ch_eqb c "/") eqn:E2; [apply ch_eqb_eq in E2; subst; destruct N; tauto|]. split; auto.
  destruct (ch_eqb c "-") eqn:E3; auto. apply ch_eqb_eq in E3; subst; destruct N; tauto.
Qed.
Lemma split_dashes u : match split_ch "-" (map dash u) with
  | [] => False
  | [a] => u = a /\ unseparated a
  | a :: l => exists s u', u = a ++ s :: u' /\ unseparated a /\ separates s /\ split_ch "-" (map dash u') = l
  end.
Proof.
  induction u as [|x u IH]; cbn [map split_ch]; [split; [auto|constructor]|].
  destruct (sep_dec x) as [S|S].
  - rewrite (dash_sep x S). change (ch_eqb "-" "-") with true. cbv iota. destruct (split_ch "-" (map dash u)) as [|a l] eqn:E; [contradiction|].
    exists x, u. split; auto. split; [constructor|]. split; auto.
  - destruct (dash_other x S) as [D1 D2]. rewrite D1, D2. destruct (split_ch "-" (map dash u)) as [|a [|b l]] eqn:E; [contradiction| |].
    + destruct IH as [-> IH]. split; auto. constructor; auto.
    + destruct IH as (s & u' & -> & U & S' & R). exists s, u'. split; auto. split; [constructor; auto|auto].
Qed.
Lemma dashes_self a : unseparated a -> map dash a = a /\ ch_in "-" a = false.
Proof.
  induction 1 as [|x a N F [IH1 IH2]]; [auto|]. destruct (dash_other x N) as [D1 D2]. cbn [map]. rewrite D1, IH1. split; auto. unfold ch_in in *. cbn [existsb]. rewrite IH2, orb_false_r.
  destruct (ch_eqb "-" x) eqn:E; auto. apply ch_eqb_eq in E. subst. discriminate.
Qed.
Lemma parts_iff u a b c : parts u a b c <-> split_ch "-" (dashes u) = [a; b; c].
Proof.
  rewrite dashes_map. split.
  - intros [a' s b' s' c' A S B S' C]. rewrite map_app. cbn [map]. rewrite map_app. cbn [map]. rewrite (dash_sep s S), (dash_sep s' S').
    destruct (dashes_self a' A) as [-> A2], (dashes_self b' B) as [-> B2], (dashes_self c' C) as [-> C2].
    rewrite split_cons, split_cons, split_none by auto. auto.
  - intros H. pose proof (split_dashes u) as P. rewrite H in P. destruct P as (s & u1 & -> & A & S1 & P1).
    pose proof (split_dashes u1) as P2. rewrite P1 in P2. destruct P2 as (s2 & u2 & -> & B & S2 & P3).
    pose proof (split_dashes u2) as P4. rewrite P3 in P4. destruct P4 as (-> & C). constructor; auto.
Qed.
