(** Theorems about the rounding of numbers written in cells (C53). *)
From Coq Require Import Reals.
From Verif Require Import Base SpecTime SpecFloats SpecRound RoundProofs SpecData NumberFacts DataFacts TextProofs.

(** a cell with an integer is read as the closest float *)
Theorem C53_int_rounded : forall z f, cell_number (VInt z) f -> closest (IZR z) f.
Proof.
  intros z f H. inversion H as [|z' O|b|t neg m e D|t f' S]; subst. destruct (of_Z_rounded z false) as [C|[(E & P & _)|(E & P & _)]]; [exact C| |].
  - destruct O. unfold float_of_Z. rewrite E. f_equal. symmetry. apply Z.ltb_ge. apply Rlt_le, le_IZR in P. exact P.
  - destruct O. unfold float_of_Z. rewrite E. f_equal. symmetry. apply Z.ltb_lt. apply lt_IZR in P. exact P.
Qed.
Print Assumptions C53_int_rounded.
(** and a text with a decimal number as the float closest to it, infinity if it
    is beyond them all *)
Theorem C53_decimal_rounded : forall t neg m e f, decimal_text t neg m e -> cell_number (VStr t) f -> best (decimal_value neg m e) f.
Proof.
  intros t neg m e f D H. apply cell_number_iff in H. cbn [py_float] in H. rewrite (float_decimal _ _ _ _ D) in H. injection H as <-.
  apply of_dec_rounded. eapply text_nonneg; eauto.
Qed.
Print Assumptions C53_decimal_rounded.
Example C53_decimal_case : exists f, decimal_text (T " -0.1 ") true 1 (-1) /\ cell_number (VStr (T " -0.1 ")) f /\ f = S754_finite true 7205759403792794 (-56).
Proof.
  eexists. split; [|split; [apply cell_number_iff; vm_compute; reflexivity|reflexivity]].
  apply (dt_intro [" "%char] ["-"%char] (T "0.1") [] [" "%char] true (T "01") 1 1 0).
  - constructor; [unfold white; cbn; auto 12|constructor].
  - constructor; [unfold white; cbn; auto 12|constructor].
  - constructor.
  - apply (mt_point (T "0") (T "0") (T "1") (T "1")); [apply d0_some, dg_one|apply d0_some, dg_one|discriminate]; unfold digit; cbn; lia.
  - constructor.
  - apply (dc_snoc (T "0") 0 "1"%char); [|unfold digit; cbn; lia]. apply (dc_snoc [] 0 "0"%char); [constructor|unfold digit; cbn; lia].
Qed.
