(** Parsing expressions as parsley 1.3 runs them, for the operators used by the
    grammars of strategies/clean/parse_time.py.

    Parsley runs a rule on the text, tries alternatives in order, repeats
    greedily without giving back, and raises ParseError when the rule does not
    match or leaves input behind.  An exception raised by an action is not a
    parse failure: it leaves the parser. *)
From Verif Require Import Base.
Local Open Scope Z_scope.

Inductive pres (A : Type) : Type :=
| POk (a : A) (rest : text)
| PFail
| PExn (e : exn).
Arguments POk {A} a rest.
Arguments PFail {A}.
Arguments PExn {A} e.

Definition parser (A : Type) := text -> pres A.

Definition pret {A} (a : A) : parser A := fun t => POk a t.
(** an action: a Python expression that may raise *)
Definition pact {A} (r : res A) : parser A :=
  fun t => match r with Ok a => POk a t | Err e => PExn e end.
Definition pbind {A B} (p : parser A) (f : A -> parser B) : parser B :=
  fun t => match p t with
           | POk a r => f a r
           | PFail => PFail
           | PExn e => PExn e
           end.
Notation "'let_p' x := p 'in' k" := (pbind p (fun x => k))
  (at level 200, x pattern, p at level 100, k at level 200, right associativity).

(** p | q *)
Definition por {A} (p q : parser A) : parser A :=
  fun t => match p t with PFail => q t | r => r end.
(** p? *)
Definition popt {A} (p : parser A) : parser (option A) :=
  fun t => match p t with
           | POk a r => POk (Some a) r
           | PFail => POk None t
           | PExn e => PExn e
           end.
(** anything:x ?(f x) *)
Definition pch (f : ascii -> bool) : parser ascii :=
  fun t => match t with
           | c :: t' => if f c then POk c t' else PFail
           | [] => PFail
           end.
(** 'c' *)
Definition plit (c : ascii) : parser ascii := pch (fun x => ch_eqb x c).
(** <(anything:x ?(f x))*> *)
Definition pmany (f : ascii -> bool) : parser text :=
  fun t => POk (take_while f t) (drop_while f t).

(** at most [n] leading characters satisfying [f] *)
Fixpoint span_max (n : nat) (f : ascii -> bool) (t : text) : text * text :=
  match n, t with
  | S k, c :: t' =>
      if f c then let '(a, r) := span_max k f t' in (c :: a, r) else ([], t)
  | _, _ => ([], t)
  end.
(** <(anything:x ?(f x)){lo, hi}> *)
Definition prep (lo hi : nat) (f : ascii -> bool) : parser text :=
  fun t => let '(a, r) := span_max hi f t in
           if Nat.leb lo (List.length a) then POk a r else PFail.

(** ws: any whitespace, possibly none *)
Definition pws : parser text := pmany is_space.
Definition anything (c : ascii) : bool := true.

(** ref = ws '(' digit{1, 3} ')' ws | '*' *)
Definition pref : parser unit :=
  por (let_p _ := pws in let_p _ := plit "(" in let_p _ := prep 1 3 is_digit in
       let_p _ := plit ")" in let_p _ := pws in pret tt)
      (let_p _ := plit "*" in pret tt).

(** grammar(text).rule(): the whole text has to be consumed *)
Definition run_grammar {A} (p : parser A) (t : text) : res A :=
  match p t with
  | POk a [] => Ok a
  | POk _ _ => Err EParse
  | PFail => Err EParse
  | PExn e => Err e
  end.
