(** C86: which part of a rejected text the message quotes. *)
From Verif Require Import Base JNum Values Ops Funcs Ast Eval Lexer Grammar Listener Api SpecCompare SpecLex SpecGrammar SpecSyntax SpecText Messages ParseMessages SpecMessage SpecQuote
  LexCases CompareWitness QuoteFacts QuoteCases.

(** C86: apart from the messages the outcomes are those of the two evaluators. *)
Theorem C86_same : forall E s d dflt, forget (condition_told E s d dflt) = evaluate_boolean E s d dflt.
Proof. exact forget_condition. Qed.
Print Assumptions C86_same.
Theorem C86_same_arithmetic : forall E s d, forget (formula_told E s d) = evaluate_arith E s d.
Proof. exact forget_formula. Qed.
Print Assumptions C86_same_arithmetic.

(** C86: when a text that is a sentence of the grammar is rejected, exactly the library's own exception brings a message, and the message is about an expression inside
    the text: it is one of three, and quotes the words of that expression. *)
Theorem C86_quotes : forall s t dflt e m, lex s = Ok (yield t) -> reads 0 t eof -> parse_told s dflt = Throws e m ->
  (e = InvalidExpression <-> m <> None) /\
  forall x, m = Some x -> exists before u after, inside u t /\ lex s = Ok (before ++ yield u ++ after) /\ complaint u x.
Proof. exact text_quoting. Qed.
Print Assumptions C86_quotes.

(** C86: from the text to the result, exactly the library's own exceptions bring a message. *)
Theorem C86_speaks : forall E s t d dflt e m, lex s = Ok (yield t) -> reads 0 t eof -> condition_told E s d dflt = Throws e m -> (own e <-> m <> None).
Proof. exact condition_speaks. Qed.
Print Assumptions C86_speaks.
Theorem C86_speaks_arithmetic : forall E s t d e m, lex s = Ok (yield t) -> reads 0 t eof -> formula_told E s d = Throws e m -> (own e <-> m <> None).
Proof. exact formula_speaks. Qed.
Print Assumptions C86_speaks_arithmetic.

(** C86: the messages of the rejections known from C38, C40, C57 and C84.  A comparison swallowed by what stands before it: *)
Theorem C86_swallowed : forall E d dflt s ws w o op x c q y m n, written Nothing s ws w -> s = Member \/ s = Function \/ s = Arithmetic ->
  In (o, op) connectives -> operand x m -> In (c, q) comparators -> operand y n ->
  let text := bracketed ws ++ o :: bracketed [x; c; y] in
  condition_told E (unwords text) d dflt = Throws InvalidExpression (Some (J "Error parsing binary expression for the string " ++ concat text)).
Proof. exact quote_swallowed. Qed.
Print Assumptions C86_swallowed.
Theorem C86_swallowed_bare : forall E d dflt s ws w o op x c q y m n, written Nothing s ws w -> s = Member \/ s = Function ->
  In (o, op) connectives -> operand x m -> In (c, q) comparators -> operand y n ->
  let text := ws ++ [o; x; c; y] in
  condition_told E (unwords text) d dflt = Throws InvalidExpression (Some (J "Error parsing binary expression for the string " ++ concat text)).
Proof. exact quote_swallowed_bare. Qed.
Print Assumptions C86_swallowed_bare.
(** Fields or literals joined by AND or OR: *)
Theorem C86_plain : forall E d dflt x m o op y n, operand x m -> In (o, op) connectives -> operand y n ->
  condition_told E (unwords [x; o; y]) d dflt = Throws InvalidExpression (Some (J "Error parsing binary expression for the string " ++ concat [x; o; y])).
Proof. exact quote_plain. Qed.
Print Assumptions C86_plain.
(** Operands in parentheses: *)
Theorem C86_operands : forall E d x m o op y n, operand x m -> In (o, op) arithmetic_symbols -> operand y n ->
  let text := bracketed [x] ++ o :: bracketed [y] in
  formula_told E (unwords text) d = Throws InvalidExpression (Some (J "Error parsing expression for the string " ++ concat text)).
Proof. exact quote_operands. Qed.
Print Assumptions C86_operands.
(** C86, refuted: the message of a comparison of two compound sides speaks of an array, and there need not be one. *)
Theorem C86_array_refuted : forall E d dflt s1 s2 ws1 c q ws2 m n, written Nothing s1 ws1 m -> In (c, q) comparators -> written s1 s2 ws2 n ->
  condition_told E (unwords (bracketed ws1 ++ c :: bracketed ws2)) d dflt =
    Throws InvalidExpression (Some (J "Array does not support this expression " ++ concat (bracketed ws2))).
Proof. exact quote_two_sides. Qed.
Print Assumptions C86_array_refuted.

(** Five rejected texts and their messages, and a failure without one. *)
Example C86_case : let says s := condition_told witness_env s [] None in let error m := Throws InvalidExpression (Some m) in
  says (J "a IN (1, 2) AND b = 3") = error (J "Error parsing binary expression for the string aIN(1,2)ANDb=3") /\
  says (J "NOT (a = 1 OR b)") = error (J "Error parsing binary expression for the string a=1ORb") /\
  says (J "x = 1 AND (a + 1) = (b - 1)") = error (J "Array does not support this expression (b-1)") /\
  says (J "min(1, (a)) > 3") = error (J "Array does not support this expression (a)") /\
  formula_told witness_env (J "( a ) + ( b )") [] = Throws InvalidExpression (Some (J "Error parsing expression for the string (a)+(b)")) /\
  formula_told witness_env (J "a + (b)") [] = Throws EmptyStack None /\
  exists t, lex (J "NOT (a = 1 OR b)") = Ok (yield t) /\ reads 0 t eof.
Proof. exact quote_case. Qed.
