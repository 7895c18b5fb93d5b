(** Specification: some forms users write that are not covered by [written]. *)
From Verif Require Import Base Lexer Ast SpecLex SpecSyntax SpecText.

(** An element of a list as written: a plain operand, or (odd) a negated or a parenthesised one. *)
Inductive element : bool -> list jstr -> Prop :=
| e_plain x n : operand x n -> element false [x]
| e_negated x n : operand x n -> element true [J "-"; x]
| e_bracketed x n : operand x n -> element true (bracketed [x]).
Fixpoint separated (es : list (list jstr)) : list jstr :=
  match es with [] => [] | [e] => e | e :: es' => e ++ J "," :: separated es' end.

(** Words of digits and dots that are no number and no version: ".5", "5.", "12.1.3", "1..2", "...". *)
Definition numeral_like (w : jstr) : Prop :=
  w <> [] /\ Forall (fun c => is_digit c = true \/ c = ch ".") w /\
  ~ digits w /\
  (forall a b, digits a -> digits b -> w <> a ++ J "." ++ b) /\
  (forall c ps, is_digit c = true -> ps <> [] -> Forall digits ps -> w <> c :: concat (map (fun p => J "." ++ p) ps)).
