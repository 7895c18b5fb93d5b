(** C36-C41: whole texts. *)
From Verif Require Import Base JNum BigDec Dates Values Ops Funcs Ast Eval Lexer Grammar Listener Api SpecCompare SpecArith SpecLex SpecGrammar SpecSyntax SpecText SpecDefault
  ParseShapes TextFacts TextApi ListText DefaultFacts TextCases CompareWitness.

(** C36: two arithmetic operators: how x o1 y o2 z is read. *)
Theorem C36_arithmetic_grouping : forall E d x y z m n p o1 o2 op1 op2, operand x m -> operand y n -> operand z p ->
  In (o1, op1) arithmetic_symbols -> In (o2, op2) arithmetic_symbols ->
  evaluate_arith E (unwords [x; o1; y; o2; z]) d =
    if tightness op1 <? tightness op2 then evaluate_arith E (unwords (x :: o1 :: bracketed [y; o2; z])) d
    else evaluate_arith E (unwords (bracketed [x; o1; y] ++ [o2; z])) d.
Proof. exact arithmetic_grouping. Qed.
Print Assumptions C36_arithmetic_grouping.

(** C36: x - y + z is not (x - y) + z. *)
Theorem C36_minus_plus_refuted : exists E, evaluate_arith E (J "10 - 2 + 3") [] <> evaluate_arith E (J "( 10 - 2 ) + 3") [].
Proof. exact minus_plus_refuted. Qed.
Print Assumptions C36_minus_plus_refuted.

(** C36: x * y / z is not (x * y) / z. *)
Theorem C36_multiply_divide_refuted : exists E, evaluate_arith E (J "2 * 7 / 2") [] <> evaluate_arith E (J "( 2 * 7 ) / 2") [].
Proof. exact divide_multiply_refuted. Qed.
Print Assumptions C36_multiply_divide_refuted.

(** C36: three comparisons with any two connectives are grouped from the left. *)
Theorem C36_connective_grouping : forall E d dflt x1 o1 y1 x2 o2 y2 x3 o3 y3 m1 n1 m2 n2 m3 n3 p1 p2 p3 c1 c2 q1 q2,
  operand x1 m1 -> operand y1 n1 -> operand x2 m2 -> operand y2 n2 -> operand x3 m3 -> operand y3 n3 ->
  In (o1, p1) comparators -> In (o2, p2) comparators -> In (o3, p3) comparators -> In (c1, q1) connectives -> In (c2, q2) connectives ->
  evaluate_boolean E (unwords [x1; o1; y1; c1; x2; o2; y2; c2; x3; o3; y3]) d dflt =
  evaluate_boolean E (unwords (bracketed (bracketed [x1; o1; y1] ++ c1 :: bracketed [x2; o2; y2]) ++ c2 :: bracketed [x3; o3; y3])) d dflt.
Proof. exact connective_grouping. Qed.
Print Assumptions C36_connective_grouping.

(** C36: AND does not bind tighter than OR. *)
Theorem C36_or_and_refuted : exists E d, evaluate_boolean E (J "x = 1 OR y = 2 AND z = 3") d None = Ok false /\
  evaluate_boolean E (J "x = 1 OR ( y = 2 AND z = 3 )") d None = Ok true.
Proof. exact or_and_refuted. Qed.
Print Assumptions C36_or_and_refuted.

(** C36: comparing a sum without parentheses gives false, whatever the operands and the data. *)
Theorem C36_sum_compared_refuted : forall E d dflt x y z m n p o c op1 op2, operand x m -> operand y n -> operand z p ->
  In (o, op1) arithmetic_symbols -> In (c, op2) comparators -> evaluate_boolean E (unwords [x; o; y; c; z]) d dflt = Ok false.
Proof. exact sum_compared. Qed.
Print Assumptions C36_sum_compared_refuted.

Example C36_case :
  operand (J "a") (NField (Some (J "a"))) /\ operand (J "7") (NUnary INTEGER (VInt 7)) /\
  evaluate_arith witness_env (J "10 - 2 + 3") [] = Ok (VInt 5) /\ evaluate_arith witness_env (J "( 10 - 2 ) + 3") [] = Ok (VInt 11) /\
  evaluate_arith witness_env (J "10 + 2 - 3") [] = Ok (VInt 9).
Proof. exact grouping_case. Qed.
Example C36_case_compared : exists E, evaluate_boolean E (J "1 + 2 < 7") [] None = Ok false /\ evaluate_boolean E (J "( 1 + 2 ) < 7") [] None = Ok true.
Proof. exact sum_compared_refuted. Qed.

(** C37: the text of a condition of any size has the meaning of the condition. *)
Theorem C37_condition_text : forall E d dflt s ws n, written Nothing s ws n -> evaluate_boolean E (unwords ws) d dflt = bool_eval E d n.
Proof. exact written_boolean. Qed.
Print Assumptions C37_condition_text.

(** C37: the same for arithmetic. *)
Theorem C37_arithmetic_text : forall E d s ws n, written Nothing s ws n -> evaluate_arith E (unwords ws) d = arith_eval E d n.
Proof. exact written_arith. Qed.
Print Assumptions C37_arithmetic_text.

(** C37: the connectives, in terms of the texts of their parts. *)
Theorem C37_connectives : forall E d dflt s1 s2 ws1 o op ws2 m n, written Nothing s1 ws1 m -> In (o, op) connectives -> written s1 s2 ws2 n ->
  evaluate_boolean E (unwords (bracketed ws1 ++ o :: bracketed ws2)) d dflt =
    match op with
    | AND => b <- evaluate_boolean E (unwords ws1) d dflt ;; if b then evaluate_boolean E (unwords ws2) d dflt else Ok false
    | OR => b <- evaluate_boolean E (unwords ws1) d dflt ;; if b then Ok true else evaluate_boolean E (unwords ws2) d dflt
    | NOT => Err InvalidExpression
    end.
Proof. exact compose_connect. Qed.
Print Assumptions C37_connectives.

(** C37: negation, in terms of the text of its part. *)
Theorem C37_negation : forall E d dflt s no ws n, In no not_words -> written Nothing s ws n ->
  evaluate_boolean E (unwords (no :: bracketed ws)) d dflt = (b <- evaluate_boolean E (unwords ws) d dflt ;; Ok (negb b)).
Proof. exact compose_not. Qed.
Print Assumptions C37_negation.

(** C37: parentheses around the whole change nothing. *)
Theorem C37_parentheses : forall E d dflt s ws n, written Nothing s ws n ->
  evaluate_boolean E (unwords (bracketed ws)) d dflt = evaluate_boolean E (unwords ws) d dflt /\ evaluate_arith E (unwords (bracketed ws)) d = evaluate_arith E (unwords ws) d.
Proof. exact compose_paren. Qed.
Print Assumptions C37_parentheses.

(** C37: arithmetic on two compound parts is arithmetic on their values. *)
Theorem C37_arithmetic_parts : forall E d s1 s2 ws1 o op ws2 m n v w, written Nothing s1 ws1 m -> In (o, op) arithmetic_symbols -> written s1 s2 ws2 n ->
  evaluate_arith E (unwords ws1) d = Ok v -> evaluate_arith E (unwords ws2) d = Ok w ->
  evaluate_arith E (unwords (bracketed ws1 ++ o :: bracketed ws2)) d = arith_eval E d (bin (lit v) op (lit w)).
Proof. exact compose_arith. Qed.
Print Assumptions C37_arithmetic_parts.

(** C37: any text, with or without parentheses, whose syntax tree is handled by its parts. *)
Theorem C37_syntax_tree : forall E s t n d dflt, lex s = Ok (yield t) -> reads 0 t eof -> loose Nothing t -> denotes dflt t n ->
  evaluate_boolean E s d dflt = bool_eval E d n /\ (dflt = None -> evaluate_arith E s d = arith_eval E d n).
Proof. exact loose_meaning. Qed.
Print Assumptions C37_syntax_tree.

Example C37_case : exists n, written Nothing Logic
    (bracketed (J "NOT" :: bracketed [J "a"; J ">="; J "5"]) ++ J "AND" :: bracketed (bracketed [J "b"; J "IN"; J "("; J "1"; J ","; J "2"; J ")"] ++
     J "OR" :: bracketed (bracketed [J "a"; J "+"; J "b"] ++ [J "<"; J "10"]))) n /\
  unwords (bracketed (J "NOT" :: bracketed [J "a"; J ">="; J "5"]) ++ J "AND" :: bracketed (bracketed [J "b"; J "IN"; J "("; J "1"; J ","; J "2"; J ")"] ++
     J "OR" :: bracketed (bracketed [J "a"; J "+"; J "b"] ++ [J "<"; J "10"]))) = J "( NOT ( a >= 5 ) ) AND ( ( b IN ( 1 , 2 ) ) OR ( ( a + b ) < 10 ) )" /\
  bool_eval witness_env [(J "a", VInt 3); (J "b", VInt 4)] n = Ok true /\ bool_eval witness_env [(J "a", VInt 3); (J "b", VInt 40)] n = Ok false.
Proof. exact written_case. Qed.

(** C38: a comparison of plain operands after an IN, a range, a CONTAINS, a function call or an arithmetic expression makes the whole fail,
    for all operands and all data. *)
Theorem C38_comparison_second_refuted : forall E d dflt s ws w o op x c q y m n, written Nothing s ws w -> s = Member \/ s = Function \/ s = Arithmetic ->
  In (o, op) connectives -> operand x m -> In (c, q) comparators -> operand y n ->
  evaluate_boolean E (unwords (bracketed ws ++ o :: bracketed [x; c; y])) d dflt = Err InvalidExpression.
Proof. exact comparison_steals. Qed.
Print Assumptions C38_comparison_second_refuted.

(** C38: the same without parentheses. *)
Theorem C38_bare_comparison_second_refuted : forall E d dflt s ws w o op x c q y m n, written Nothing s ws w -> s = Member \/ s = Function ->
  In (o, op) connectives -> operand x m -> In (c, q) comparators -> operand y n ->
  evaluate_boolean E (unwords (ws ++ [o; x; c; y])) d dflt = Err InvalidExpression.
Proof. exact comparison_steals_bare. Qed.
Print Assumptions C38_bare_comparison_second_refuted.

(** C38: the other order works and means the connective of the two parts (with C37_connectives). *)
Theorem C38_comparison_first : forall E d dflt s ws w o op x c q y m n, written Logic s ws w -> s = Member ->
  In (o, op) connectives -> operand x m -> In (c, q) comparators -> operand y n ->
  evaluate_boolean E (unwords ([x; c; y; o] ++ ws)) d dflt = evaluate_boolean E (unwords (bracketed [x; c; y] ++ o :: bracketed ws)) d dflt.
Proof. exact membership_second. Qed.
Print Assumptions C38_comparison_first.

Example C38_case : exists n, written Nothing Member [J "f"; J "IN"; J "("; J "1"; J ","; J "2"; J ")"] n /\ written Logic Member [J "f"; J "IN"; J "("; J "1"; J ","; J "2"; J ")"] n /\
  evaluate_boolean witness_env (J "g = 3 AND f IN (1,2)") [(J "f", VInt 1); (J "g", VInt 3)] None = Ok true /\
  evaluate_boolean witness_env (J "f IN (1,2) AND g = 3") [(J "f", VInt 1); (J "g", VInt 3)] None = Err InvalidExpression.
Proof. exact order_case. Qed.

(** C39: list elements with at most one arithmetic operator between plain operands, and functions of such, keep their meaning. *)
Theorem C39_simple_elements : forall E s t n d dflt, lex s = Ok (yield t) -> reads 0 t eof -> loose Nothing t -> denotes dflt t n ->
  evaluate_boolean E s d dflt = bool_eval E d n /\ (dflt = None -> evaluate_arith E s d = arith_eval E d n).
Proof. exact loose_meaning. Qed.
Print Assumptions C39_simple_elements.

(** C39: an element with two operators has its outer operator applied twice, for all operands, operators and data. *)
Theorem C39_longer_elements_refuted : forall E d f fn x o1 op1 y o2 op2 z ws m n p ns, In (f, fn) function_names -> operand x m -> operand y n -> operand z p ->
  In (o1, op1) arithmetic_symbols -> In (o2, op2) arithmetic_symbols -> listed ws ns ->
  evaluate_arith E (unwords (f :: bracketed ([x; o1; y; o2; z; J ","] ++ commas ws))) d =
    arith_eval E d (NFunc fn ((if tightness op1 <? tightness op2 then bin m op1 (bin m op1 (bin n op2 p)) else bin (bin (bin m op1 n) op2 p) op2 p) :: ns)).
Proof. exact element_duplicated. Qed.
Print Assumptions C39_longer_elements_refuted.

Theorem C39_sum_refuted : exists E d, evaluate_arith E (J "sum (1 + 2 + 3, 10)") d = Ok (VInt 19).
Proof. exact element_duplicated_sum. Qed.
Print Assumptions C39_sum_refuted.

Example C39_case : lex (J "min(a + 2, 9) > 4") = Ok (yield list_tree) /\ reads 0 list_tree eof /\ loose Nothing list_tree /\ exists n, denotes None list_tree n /\
  bool_eval witness_env [(J "a", VInt 3)] n = Ok true /\ bool_eval witness_env [(J "a", VInt 2)] n = Ok false.
Proof. exact list_case. Qed.

(** C40: a bare field is false, whatever the data. *)
Theorem C40_bare_field_false : forall E d dflt f, field_name f -> evaluate_boolean E f d dflt = Ok false.
Proof. exact bare_field. Qed.
Print Assumptions C40_bare_field_false.

Theorem C40_bare_field_refuted : exists E f d, field_name f /\ arith_eval E d (NField (Some f)) = Ok (VBool true) /\ evaluate_boolean E f d None = Ok false.
Proof. exact bare_field_refuted. Qed.
Print Assumptions C40_bare_field_refuted.

(** C40: as an arithmetic expression a bare field is looked up. *)
Theorem C40_bare_field_value : forall E d f, field_name f -> evaluate_arith E f d = arith_eval E d (NField (Some f)).
Proof. exact field_looked_up. Qed.
Print Assumptions C40_bare_field_value.

(** C40: a bare true or false is not the constant: a field of that name is looked up. *)
Theorem C40_bare_boolean_refuted : forall E d dflt w, In w [J "true"; J "TRUE"; J "false"; J "FALSE"] ->
  evaluate_boolean E w d dflt = boolean (arith_eval E d (NField (Some w))).
Proof. exact bare_boolean. Qed.
Print Assumptions C40_bare_boolean_refuted.

(** C40: a bare quoted text is not a constant either. *)
Theorem C40_bare_quoted : forall E d dflt q s, q = ch "'" \/ q = 34%N -> ~ In q s ->
  evaluate_boolean E (q :: s ++ [q]) d dflt = boolean (arith_eval E d (NField (Some s))).
Proof. exact bare_quoted. Qed.
Print Assumptions C40_bare_quoted.

(** C40: NOT of a bare field negates the field. *)
Theorem C40_not_field : forall E d dflt no f, In no not_words -> field_name f ->
  evaluate_boolean E (unwords [no; f]) d dflt = (b <- boolean (arith_eval E d (NField (Some f))) ;; Ok (negb b)).
Proof. exact bare_not. Qed.
Print Assumptions C40_not_field.

(** C40: a bare number, truth value or version evaluates to its text, not to its value. *)
Theorem C40_bare_number_text : forall E d w n, operand w n -> match n with NUnary dt _ => In dt [INTEGER; LONG; DECIMAL; BOOLEAN; VERSION] | _ => False end ->
  evaluate_arith E w d = Ok (VStr w).
Proof. exact bare_number. Qed.
Print Assumptions C40_bare_number_text.

Example C40_case : field_name (J "flag") /\
  evaluate_boolean witness_env (J "flag") [(J "flag", VBool true)] None = Ok false /\
  evaluate_boolean witness_env (J "NOT flag") [(J "flag", VBool true)] None = Ok false /\
  evaluate_boolean witness_env (J "NOT flag") [(J "flag", VBool false)] None = Ok true /\
  evaluate_boolean witness_env (J "true") [] None = Err DataNotFound /\
  evaluate_boolean witness_env (J "'flag'") [(J "flag", VBool true)] None = Ok true /\
  evaluate_arith witness_env (J "flag") [(J "flag", VInt 7)] = Ok (VInt 7) /\ evaluate_arith witness_env (J "7") [] = Ok (VStr (J "7")).
Proof. exact bare_case. Qed.

(** C41: a text in which operands are omitted is parsed like the text in which the default field is written in their place. *)
Theorem C41_default_written : forall s s' t d dflt, field_name d -> lex s = Ok (yield t) -> reads 0 t eof -> nots_written t -> ~ omitted t ->
  lex s' = Ok (yield (fill d t)) -> parse_expression s (Some d) = parse_expression s' dflt.
Proof. exact default_written. Qed.
Print Assumptions C41_default_written.

(** C41: if no operand is omitted the default field does not matter. *)
Theorem C41_default_irrelevant : forall s t d1 d2, lex s = Ok (yield t) -> reads 0 t eof -> complete t -> parse_expression s d1 = parse_expression s d2.
Proof. exact default_irrelevant. Qed.
Print Assumptions C41_default_irrelevant.

(** C41: a comparison without its left operand. *)
Theorem C41_comparison : forall E data d dflt o op y n, field_name d -> In (o, op) comparators -> operand y n ->
  evaluate_boolean E (unwords [o; y]) data (Some d) = evaluate_boolean E (unwords [d; o; y]) data dflt.
Proof. exact default_comparison. Qed.
Print Assumptions C41_comparison.

(** C41: the empty text and a NOT without operand do not use the default field. *)
Theorem C41_lone_operand_refuted : exists d, field_name d /\ parse_expression [] (Some d) <> parse_expression d None /\
  parse_expression (J "NOT") (Some d) <> parse_expression (J "NOT " ++ d) None.
Proof. exact default_not_used. Qed.
Print Assumptions C41_lone_operand_refuted.

Example C41_case : field_name (J "n") /\ lex (J "(>= 5) AND (NOT (= 7))") = Ok (yield omitted_tree) /\ reads 0 omitted_tree eof /\ nots_written omitted_tree /\ ~ omitted omitted_tree /\
  lex (J "(n >= 5) AND (NOT (n = 7))") = Ok (yield (fill (J "n") omitted_tree)) /\ complete (fill (J "n") omitted_tree) /\
  evaluate_boolean witness_env (J "(>= 5) AND (NOT (= 7))") [(J "n", VInt 6)] (Some (J "n")) = Ok true /\
  evaluate_boolean witness_env (J "(>= 5) AND (NOT (= 7))") [(J "n", VInt 7)] (Some (J "n")) = Ok false.
Proof. exact default_case. Qed.
