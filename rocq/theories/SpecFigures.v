(** What is expected of the decimals of a series (C80). *)
From Verif Require Import Base SpecData.
Local Open Scope Z_scope.

(** the text of a number shows [k] decimals: those after the point but for the
    zeros at the end *)
Definition digits_only (t : text) : Prop := Forall digit t.
Inductive last_is (P : ascii -> Prop) : text -> Prop := li_of a c : P c -> last_is P (a ++ [c]).
Inductive shows : text -> nat -> Prop :=
| sh_decimals sign ip fp zs : sign = [] \/ sign = T "-" -> ip <> [] -> digits_only ip -> digits_only fp -> last_is (fun c => c <> "0"%char) fp ->
    Forall (fun c => c = "0"%char) zs -> shows (sign ++ ip ++ T "." ++ fp ++ zs) (List.length fp)
| sh_none sign ip zs : sign = [] \/ sign = T "-" -> ip <> [] -> digits_only ip ->
    Forall (fun c => c = "0"%char) zs -> shows (sign ++ ip ++ T "." ++ zs) 0.
