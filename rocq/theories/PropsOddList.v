(** C39: lists with elements the library has no reading for. *)
From Verif Require Import Base JNum BigDec Dates Values Ops Funcs Ast Eval Lexer Grammar Listener Api SpecGrammar SpecQuote SpecOddList ParseShapes CompareWitness OddListFacts OddListCases.

(** C39: an expression is rejected, not misread, if a list anywhere inside it has an element in parentheses or one made with NOT, a minus sign, CONTAINS_ALL,
    CONTAINS_ANY, AND or OR. *)
Theorem C39_odd_elements : forall s t u items i dflt, lex s = Ok (yield t) -> reads 0 t eof -> inside u t -> list_of u items -> In i items -> odd_element i ->
  exists e, parse_expression s dflt = Err e.
Proof. exact odd_rejected. Qed.
Print Assumptions C39_odd_elements.

Example C39_odd_case : lex (J "x = 1 OR f IN ((1 + 2), 3)") = Ok (yield odd_text) /\ reads 0 odd_text eof /\ inside odd_list odd_text /\ list_of odd_list [odd_item; one (J "3")] /\ odd_element odd_item /\
  parse_expression (J "x = 1 OR f IN ((1 + 2), 3)") None = Err InvalidExpression.
Proof. exact element_case. Qed.
