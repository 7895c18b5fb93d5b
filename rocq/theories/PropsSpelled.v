(** C51: the fields on which a condition depends, by the words of its text. *)
From Verif Require Import Base JNum Values Ast Eval Lexer Grammar Api SpecPath SpecRecover SpecSpelled SpelledFacts.

(** C51: a boolean evaluation of any text depends only on the data of the field names in it, of the default field and of the names its other words
    spell where a condition is expected. *)
Theorem C51_spelled : forall s ts dflt E d1 d2, lex s = Ok ts ->
  (forall f, names ts dflt f \/ (exists t, In t (eof :: ts) /\ spells t f) -> same_field d1 d2 f) ->
  evaluate_boolean E s d1 dflt = evaluate_boolean E s d2 dflt.
Proof. exact spelled_fields. Qed.
Print Assumptions C51_spelled.

Example C51_spelled_case : forall E,
  let d1 := [(J "up", VBool true); (J "other", VInt 1)] in let d2 := [(J "other", VInt 2); (J "up", VBool true)] in let s := J "'up'" in
  (exists ts, lex s = Ok ts /\ (exists t, In t ts /\ spells t (J "up")) /\ (forall f, names ts None f \/ (exists t, In t (eof :: ts) /\ spells t f) -> same_field d1 d2 f)) /\
  evaluate_boolean E s d1 None = Ok true /\ evaluate_boolean E s d2 None = Ok true /\ ~ same_field d1 d2 (J "other").
Proof. exact spelled_case. Qed.
