(** C50: lists with words that do not belong there. *)
From Verif Require Import Base JNum BigDec Dates Values Ops Funcs Ast Eval Lexer Grammar Listener Api SpecGrammar SpecRecover SpecStray ParseShapes AnyText CompareWitness StrayCases StrayFacts.

(** C50, refuted: one stray token behind elements of the list of IN, NOT IN, CONTAINS_ALL or CONTAINS_ANY is dropped, whatever follows the list. *)
Theorem C50_stray_word_refuted : forall s s' h ds cs us dflt, list_opening h -> untidy true ds cs -> lex s = Ok (h ++ lparen :: cs ++ us) ->
  sentence (h ++ lparen :: cs ++ us) -> lex s' = Ok (h ++ lparen :: ds ++ us) ->
  ~ sentence (h ++ lparen :: ds ++ us) /\ parse_expression s' dflt = parse_expression s dflt.
Proof. exact stray_accepted. Qed.
Print Assumptions C50_stray_word_refuted.

(** C50, refuted: with more stray tokens the list ends there, and everything up to the next operator is dropped, the closing parenthesis included. *)
Theorem C50_broken_list_refuted : forall s s' h ds cs us dflt, list_opening h -> broken ds cs -> us = [] \/ (exists o rest, us = o :: rest /\ level (kind o) <> None) ->
  lex s = Ok (h ++ lparen :: cs ++ us) -> sentence (h ++ lparen :: cs ++ us) -> lex s' = Ok (h ++ lparen :: ds ++ us) ->
  ~ sentence (h ++ lparen :: ds ++ us) /\ parse_expression s' dflt = parse_expression s dflt.
Proof. exact broken_accepted. Qed.
Print Assumptions C50_broken_list_refuted.

(** C50, refuted: so is one stray token behind arguments of a call: sum(f g, h) is read as sum(f, h). *)
Theorem C50_stray_argument_refuted : forall s s' fn ds cs us dflt, function_kind (kind fn) -> untidy true ds cs -> lex s = Ok (fn :: lparen :: cs ++ us) ->
  sentence (fn :: lparen :: cs ++ us) -> lex s' = Ok (fn :: lparen :: ds ++ us) ->
  ~ sentence (fn :: lparen :: ds ++ us) /\ parse_expression s' dflt = parse_expression s dflt.
Proof. exact stray_argument. Qed.
Print Assumptions C50_stray_argument_refuted.

(** C50: with more stray tokens than one a call is rejected. *)
Theorem C50_broken_call : forall s fn ds cs us dflt, function_kind (kind fn) -> broken ds cs -> us = [] \/ (exists o rest, us = o :: rest /\ level (kind o) <> None) ->
  lex s = Ok (fn :: lparen :: ds ++ us) -> parse_expression s dflt = Err InvalidExpression.
Proof. exact broken_call. Qed.
Print Assumptions C50_broken_call.

Example C50_stray_case : list_opening f_in /\ untidy true [num (J "1"); num (J "2"); comma; num (J "3"); rparen] [num (J "1"); comma; num (J "3"); rparen] /\
  lex (J "f IN (1, 3) AND g IN (7)") = Ok (f_in ++ lparen :: [num (J "1"); comma; num (J "3"); rparen] ++ and_g) /\
  sentence (f_in ++ lparen :: [num (J "1"); comma; num (J "3"); rparen] ++ and_g) /\
  lex (J "f IN (1 2, 3) AND g IN (7)") = Ok (f_in ++ lparen :: [num (J "1"); num (J "2"); comma; num (J "3"); rparen] ++ and_g) /\
  evaluate_boolean witness_env (J "f IN (1 2, 3) AND g IN (7)") (f_is 2 7) None = Ok false /\ evaluate_boolean witness_env (J "f IN (1 2, 3) AND g IN (7)") (f_is 3 7) None = Ok true.
Proof. exact dropped_case. Qed.
Example C50_broken_case : broken [num (J "1"); num (J "2"); num (J "3"); comma; num (J "4"); rparen] [num (J "1"); rparen] /\
  lex (J "f IN (1) AND g IN (7)") = Ok (f_in ++ lparen :: [num (J "1"); rparen] ++ and_g) /\ sentence (f_in ++ lparen :: [num (J "1"); rparen] ++ and_g) /\
  lex (J "f IN (1 2 3, 4) AND g IN (7)") = Ok (f_in ++ lparen :: [num (J "1"); num (J "2"); num (J "3"); comma; num (J "4"); rparen] ++ and_g) /\
  evaluate_boolean witness_env (J "f IN (1 2 3, 4) AND g IN (7)") (f_is 4 7) None = Ok false /\ evaluate_boolean witness_env (J "f IN (1 2 3, 4) AND g IN (7)") (f_is 1 7) None = Ok true /\
  evaluate_boolean witness_env (J "f IN (1 2 3, 4) AND g IN (7)") (f_is 1 8) None = Ok false.
Proof. exact broken_case. Qed.
Example C50_stray_argument_case : function_kind (kind sum_of) /\ untidy true [F (J "f"); F (J "g"); comma; F (J "f"); rparen] [F (J "f"); comma; F (J "f"); rparen] /\
  lex (J "sum(f, f) > 10") = Ok (sum_of :: lparen :: [F (J "f"); comma; F (J "f"); rparen] ++ above_ten) /\ sentence (sum_of :: lparen :: [F (J "f"); comma; F (J "f"); rparen] ++ above_ten) /\
  lex (J "sum(f g, f) > 10") = Ok (sum_of :: lparen :: [F (J "f"); F (J "g"); comma; F (J "f"); rparen] ++ above_ten) /\
  evaluate_boolean witness_env (J "sum(f, g, f) > 10") (f_is 3 10) None = Ok true /\ evaluate_boolean witness_env (J "sum(f g, f) > 10") (f_is 3 10) None = Ok false.
Proof. exact argument_case. Qed.
Example C50_broken_call_case : function_kind (kind sum_of) /\ broken [F (J "f"); F (J "g"); F (J "h"); rparen] [F (J "f"); rparen] /\
  lex (J "sum(f g h) > 10") = Ok (sum_of :: lparen :: [F (J "f"); F (J "g"); F (J "h"); rparen] ++ above_ten) /\
  parse_expression (J "sum(f g h) > 10") None = Err InvalidExpression.
Proof. exact call_case. Qed.
