(** C49 - C51: every text, well-formed or not. *)
From Verif Require Import Base Values Ops Ast Eval Lexer Grammar Recover Api SpecPath SpecLex SpecGrammar SpecRecover ParseShapes AnyText.

(** C49: parsing any text ends with a tree or fails with one of five exceptions. *)
Theorem C49_parsing_ends : forall s dflt, (exists n, parse_expression s dflt = Ok n) \/
  exists e, parse_expression s dflt = Err e /\ In e [InvalidExpression; NumberFormat; NullPointer; ClassCast; EmptyStack].
Proof. exact parse_total. Qed.
Print Assumptions C49_parsing_ends.

Example C49_case :
  map (fun s => parse_expression s None) [J "a AND b"; J "a = 99999999999999999999"; J "a 5 b"; J "-(5)"; J "5 + (a)"] = map Err parse_failures /\
  (exists n, parse_expression (J ") ) $ , IN") None = Ok n).
Proof. exact failures_case. Qed.

(** C50, refuted: a sentence that ends in a literal or ')' may be followed by anything that does not begin with an operator:
    the rest of the text is ignored. *)
Theorem C50_trailing_text_refuted : forall s s' ts us dflt, lex s = Ok ts -> sentence ts -> ends_operand ts ->
  us <> [] -> no_operator_first us -> lex s' = Ok (ts ++ us) ->
  ~ sentence (ts ++ us) /\ parse_expression s' dflt = parse_expression s dflt.
Proof. exact trailing_accepted. Qed.
Print Assumptions C50_trailing_text_refuted.

(** C50, refuted: such a sentence with any unequal numbers of parentheses before and after it is accepted as the sentence. *)
Theorem C50_parentheses_refuted : forall s s' ts k j dflt, lex s = Ok ts -> sentence ts -> ends_operand ts ->
  k <> j -> lex s' = Ok (repeat lparen k ++ ts ++ repeat rparen j) ->
  ~ sentence (repeat lparen k ++ ts ++ repeat rparen j) /\ parse_expression s' dflt = parse_expression s dflt.
Proof. exact parentheses_accepted. Qed.
Print Assumptions C50_parentheses_refuted.

(** C50, refuted: the list of IN, NOT IN, CONTAINS_ALL and CONTAINS_ANY need not be closed at the end of the text. *)
Theorem C50_unclosed_list_refuted : forall s s' ts t dflt, yield t = ts ++ [rparen] -> reads 0 t eof -> list_condition t -> ends_operand ts ->
  lex s = Ok (ts ++ [rparen]) -> lex s' = Ok ts ->
  ~ sentence ts /\ parse_expression s' dflt = parse_expression s dflt.
Proof. exact unclosed_accepted. Qed.
Print Assumptions C50_unclosed_list_refuted.

(** C50: a function call whose list is not closed is rejected. *)
Theorem C50_unclosed_call_rejected : forall s ts fn items dflt, yield (PFunc fn items) = ts ++ [rparen] -> reads 0 (PFunc fn items) eof ->
  ends_operand ts -> lex s = Ok ts -> exists e, parse_expression s dflt = Err e.
Proof. exact unclosed_call_fails. Qed.
Print Assumptions C50_unclosed_call_rejected.

Example C50_case :
  (exists t, lex (J "a = 5") = Ok (yield t) /\ reads 0 t eof /\ ends_operand (yield t)) /\
  no_operator_first [F (J "b"); Tok T_EQ (J "="); Tok T_INTEGER (J "6")] /\
  lex (J "a = 5 b = 6") = Ok ([F (J "a"); Tok T_EQ (J "="); Tok T_INTEGER (J "5")] ++ [F (J "b"); Tok T_EQ (J "="); Tok T_INTEGER (J "6")]) /\
  parse_expression (J "a = 5 b = 6") None = parse_expression (J "a = 5") None /\
  lex (J "((a = 5)") = Ok (repeat lparen 2 ++ [F (J "a"); Tok T_EQ (J "="); Tok T_INTEGER (J "5")] ++ repeat rparen 1) /\
  parse_expression (J "a IN (1, 2") None = parse_expression (J "a IN (1, 2)") None /\
  (exists n, parse_expression (J "a IN (1, 2") None = Ok n) /\
  parse_expression (J "min(1, 2") None = Err InvalidExpression /\ (exists n, parse_expression (J "min(1, 2)") None = Ok n).
Proof. exact refuted_case. Qed.

(** C51: an arithmetic evaluation of any text depends only on the data of the field names in it. *)
Theorem C51_arithmetic_text : forall s ts E d1 d2, lex s = Ok ts ->
  (forall f, names ts None f -> same_field d1 d2 f) -> evaluate_arith E s d1 = evaluate_arith E s d2.
Proof. exact text_arith_fields. Qed.
Print Assumptions C51_arithmetic_text.

(** C51: a boolean evaluation of any text depends only on the data of the field names in it, of the default field and of the
    literals, which are taken for field names where a condition is expected. *)
Theorem C51_boolean_text : forall s ts dflt E d1 d2, lex s = Ok ts ->
  (forall f, names ts dflt f \/ literal_names ts f -> same_field d1 d2 f) ->
  evaluate_boolean E s d1 dflt = evaluate_boolean E s d2 dflt.
Proof. exact text_bool_fields. Qed.
Print Assumptions C51_boolean_text.

Example C51_case : forall E,
  let d1 := [(J "a", VInt 1); (J "c", VInt 2)] in let d2 := [(J "c", VInt 3); (J "a", VInt 1)] in
  (exists ts, lex (J "a + ) (5 4") = Ok ts /\ (forall f, names ts None f -> same_field d1 d2 f) /\ evaluate_arith E (J "a + ) (5 4") d1 = evaluate_arith E (J "a + ) (5 4") d2) /\
  (exists ts, lex (J "a = 1 c") = Ok ts /\ names ts None (J "c") /\ ~ same_field d1 d2 (J "c")).
Proof. exact fields_case. Qed.
