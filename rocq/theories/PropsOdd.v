(** C53-C58: layout of texts, and forms of text that do not mean what they seem to. *)
From Coq Require Import QArith.
From Verif Require Import Base JNum BigDec Values Ops Funcs Ast Eval Lexer Grammar Listener Api SpecNum SpecCompare SpecArith SpecLex SpecTight SpecGrammar SpecSyntax SpecText SpecOdd
  OddText OddCases CompareWitness.
Local Open Scope nat_scope.

(** C53: where white space is left out, and how much of it there is otherwise, is irrelevant: any layout of the words of a text
    has the same tokens, the same tree and the same results. *)
Theorem C53_layout : forall s s' ts dflt, lex s = Ok ts -> laid_out (map text ts) s' ->
  lex s' = Ok ts /\ parse_expression s' dflt = parse_expression s dflt /\
  forall E d, evaluate_boolean E s' d dflt = evaluate_boolean E s d dflt /\ evaluate_arith E s' d = evaluate_arith E s d.
Proof. exact layout_irrelevant. Qed.
Print Assumptions C53_layout.

(** C53: a condition or an arithmetic expression of any size, in any layout, has the meaning of its tree (with C37). *)
Theorem C53_condition : forall E d dflt s ws n t, written Nothing s ws n -> laid_out ws t ->
  evaluate_boolean E t d dflt = bool_eval E d n /\ evaluate_arith E t d = arith_eval E d n.
Proof. exact layout_condition. Qed.
Print Assumptions C53_condition.

(** C53: leaving out the white space around "-" is not always harmless: 2020-12-10 is a date, 2020 - 12 - 10 a difference. *)
Theorem C53_date_refuted : forall y m d, Forall (fun c => is_digit c = true) (y ++ m ++ d) -> length y = 4 -> length m = 2 -> length d = 2 ->
  lex (y ++ J "-" ++ m ++ J "-" ++ d) = Ok [Tok T_DATE (y ++ J "-" ++ m ++ J "-" ++ d)] /\
  lex (unwords [y; J "-"; m; J "-"; d]) = Ok [Tok T_INTEGER y; minus; Tok T_INTEGER m; minus; Tok T_INTEGER d].
Proof. exact date_not_difference. Qed.
Print Assumptions C53_date_refuted.

Example C53_case :
  laid_out [J "("; J "a"; J ">="; J "5"; J ")"; J "AND"; J "("; J "b"; J "IN"; J "("; J "1"; J ","; J "'x y'"; J ")"; J ")"] (J "(a>=5)AND(b IN(1,'x y'))") /\
  laid_out [J "a"; J "+"; J "12"; J "-"; J "b"] (J "a+12-b") /\
  lex (J "(a>=5)AND(b IN(1,'x y'))") = lex (J "( a >= 5 ) AND ( b IN ( 1 , 'x y' ) )") /\
  (exists n, written Nothing Arithmetic [J "a"; J "+"; J "12"] n) /\ laid_out [J "a"; J "+"; J "12"] (J "a+ 12").
Proof. exact layout_case. Qed.
Example C53_date_case : evaluate_arith witness_env (J "2020-12-10") [] <> evaluate_arith witness_env (J "2020 -12-10") [] /\
  evaluate_arith witness_env (J "2020 -12-10") [] = Ok (VInt 1998) /\ evaluate_arith witness_env (J "220-12-10") [] = Ok (VInt 198).
Proof. exact date_case. Qed.

(** C54: a negated operand on the right of a comparison is compared by its negated value. *)
Theorem C54_right_operand : forall E d dflt x m o op y n s, operand x m -> In (o, op) comparators -> operand y n -> laid_out [x; o; J "-"; y] s ->
  evaluate_boolean E s d dflt = bool_eval E d (NCmp m (NArith n None UNARY) op STRING).
Proof. exact negative_right. Qed.
Print Assumptions C54_right_operand.

(** C54: in numbers: x o -y compares the value p of x with minus the number q written as y. *)
Theorem C54_negative_number : forall E d dflt x m o op y ty w v p q b s, operand x m -> In (o, op) comparators ->
  operand y (NUnary ty w) -> In ty [INTEGER; LONG; DECIMAL] -> laid_out [x; o; J "-"; y] s ->
  yields E d m v -> number v p -> number w q -> question op p (- q)%Q = Some b -> evaluate_boolean E s d dflt = Ok b.
Proof. exact negative_number. Qed.
Print Assumptions C54_negative_number.

(** C54, refuted for lists: a function call, an IN or a CONTAINS with a negative (or parenthesised) element anywhere in its
    list fails, whatever the data. *)
Theorem C54_function_list_refuted : forall E d dflt f fn es s, In (f, fn) function_names -> es <> [] ->
  Forall (fun e => exists b, element b e) es -> Exists (element true) es -> laid_out (f :: bracketed (separated es)) s ->
  evaluate_boolean E s d dflt = Err InvalidExpression /\ evaluate_arith E s d = Err InvalidExpression.
Proof. exact odd_function. Qed.
Print Assumptions C54_function_list_refuted.
Theorem C54_in_list_refuted : forall E d dflt f no i es s, field_name f -> no = [] \/ (exists w, In w not_words /\ no = [w]) -> In i in_words -> es <> [] ->
  Forall (fun e => exists b, element b e) es -> Exists (element true) es -> laid_out (f :: no ++ i :: bracketed (separated es)) s ->
  evaluate_boolean E s d dflt = Err InvalidExpression.
Proof. exact odd_in. Qed.
Print Assumptions C54_in_list_refuted.
Theorem C54_contains_list_refuted : forall E d dflt f c op es s, field_name f -> In (c, op) array_operators -> es <> [] ->
  Forall (fun e => exists b, element b e) es -> Exists (element true) es -> laid_out (f :: c :: bracketed (separated es)) s ->
  evaluate_boolean E s d dflt = Err InvalidExpression.
Proof. exact odd_array. Qed.
Print Assumptions C54_contains_list_refuted.

(** C54, refuted for ranges: a range with a negative lower bound is false for all data. *)
Theorem C54_range_refuted : forall E d dflt x m y ty n to z p s, operand x m -> operand y (NUnary ty n) -> In to to_words -> operand z p ->
  laid_out [x; J "-"; y; to; z] s -> evaluate_boolean E s d dflt = Ok false.
Proof. exact range_negative. Qed.
Print Assumptions C54_range_refuted.

(** C54, refuted on the left: a comparison that begins with a minus sign fails with a ClassCastException. *)
Theorem C54_left_operand_refuted : forall E d dflt x m o op y n s, operand x m -> In (o, op) comparators -> operand y n -> laid_out [J "-"; x; o; y] s ->
  evaluate_boolean E s d dflt = Err ClassCast.
Proof. exact negated_left. Qed.
Print Assumptions C54_left_operand_refuted.

Example C54_case :
  operand (J "g") (NField (Some (J "g"))) /\ operand (J "10") (NUnary INTEGER (VInt 10)) /\ In (J ">", GREATER_THAN) comparators /\ laid_out [J "g"; J ">"; J "-"; J "10"] (J "g>-10") /\
  yields witness_env [(J "g", VInt (-3))] (NField (Some (J "g"))) (VInt (-3)) /\ number (VInt (-3)) (-3 # 1) /\ number (VInt 10) (10 # 1) /\
  question GREATER_THAN (-3 # 1) (- (10 # 1)) = Some true /\ evaluate_boolean witness_env (J "g>-10") [(J "g", VInt (-3))] None = Ok true.
Proof. exact negative_case. Qed.
Example C54_list_case :
  Forall (fun e => exists b, element b e) [[J "3"]; [J "-"; J "10"]; bracketed [J "x"]] /\ Exists (element true) [[J "3"]; [J "-"; J "10"]; bracketed [J "x"]] /\
  laid_out (J "f" :: [] ++ J "IN" :: bracketed (separated [[J "3"]; [J "-"; J "10"]; bracketed [J "x"]])) (J "f IN (3,-10,(x))") /\
  laid_out (J "min" :: bracketed (separated [[J "3"]; [J "-"; J "10"]; bracketed [J "x"]])) (J "min(3, -10, (x))").
Proof. exact odd_list_case. Qed.
Example C54_range_case : operand (J "20") (NUnary INTEGER (VInt 20)) /\ laid_out [J "t"; J "-"; J "20"; J "TO"; J "5"] (J "t -20 TO 5") /\
  evaluate_boolean witness_env (J "t -20 TO 5") [(J "t", VInt 0)] None = Ok false.
Proof. exact range_case. Qed.

(** C55, refuted: NOT directly before a comparison does not negate it; the expression fails, whatever the data. *)
Theorem C55_not_comparison_refuted : forall E d dflt no x m o op y n s, In no not_words -> operand x m -> In (o, op) comparators -> operand y n ->
  laid_out [no; x; o; y] s -> evaluate_boolean E s d dflt = Err InvalidExpression.
Proof. exact not_comparison. Qed.
Print Assumptions C55_not_comparison_refuted.
Example C55_case : laid_out [J "NOT"; J "a"; J "="; J "1"] (J "NOT a=1") /\ operand (J "a") (NField (Some (J "a"))) /\ operand (J "1") (NUnary INTEGER (VInt 1)) /\
  evaluate_boolean witness_env (J "NOT a=1") [(J "a", VInt 2)] None = Err InvalidExpression /\ evaluate_boolean witness_env (J "NOT (a=1)") [(J "a", VInt 2)] None = Ok true.
Proof. exact not_case. Qed.

(** C56: an arithmetic evaluator rejects every condition. *)
Theorem C56_condition_as_arithmetic : forall E d s ws n t, written Nothing s ws n -> s = Logic \/ s = Member -> laid_out ws t ->
  evaluate_arith E t d = Err UnsupportedToken.
Proof. exact condition_as_arithmetic. Qed.
Print Assumptions C56_condition_as_arithmetic.
(** C56, refuted: a boolean evaluator does not reject arithmetic, it answers false for every expression and all data. *)
Theorem C56_arithmetic_as_condition_refuted : forall E d dflt s ws n t, written Nothing s ws n -> s = Arithmetic \/ s = Function -> laid_out ws t ->
  evaluate_boolean E t d dflt = Ok false.
Proof. exact arithmetic_as_condition. Qed.
Print Assumptions C56_arithmetic_as_condition_refuted.
Example C56_case : (exists n, written Nothing Arithmetic [J "a"; J "+"; J "1"] n) /\ (exists n, written Nothing Logic [J "a"; J "="; J "1"] n) /\
  evaluate_boolean witness_env (J "a+1") [(J "a", VInt 2)] None = Ok false /\ evaluate_boolean witness_env (J "NOT (a+1)") [(J "a", VInt 2)] None = Ok true /\
  evaluate_arith witness_env (J "a=1") [(J "a", VInt 2)] = Err UnsupportedToken.
Proof. exact mismatch_case. Qed.

(** C57, refuted: parentheses around a plain operand of a comparison or of an arithmetic operator make the expression fail. *)
Theorem C57_comparison_refuted : forall E d dflt x m o op y n s (l r : bool), operand x m -> In (o, op) comparators -> operand y n -> l || r = true ->
  laid_out ((if l then bracketed [x] else [x]) ++ o :: (if r then bracketed [y] else [y])) s -> evaluate_boolean E s d dflt = Err InvalidExpression.
Proof. exact bracket_compare. Qed.
Print Assumptions C57_comparison_refuted.
Theorem C57_arithmetic_refuted : forall E d x m o op y n s (l r : bool), operand x m -> In (o, op) arithmetic_symbols -> operand y n -> l || r = true ->
  laid_out ((if l then bracketed [x] else [x]) ++ o :: (if r then bracketed [y] else [y])) s ->
  evaluate_arith E s d = Err (if l && r then InvalidExpression else EmptyStack).
Proof. exact bracket_arith. Qed.
Print Assumptions C57_arithmetic_refuted.
Example C57_case : laid_out (bracketed [J "a"] ++ J "=" :: [J "1"]) (J "(a)=1") /\ laid_out ([J "a"] ++ J "+" :: bracketed [J "1"]) (J "a+(1)") /\
  evaluate_boolean witness_env (J "(a)=1") [(J "a", VInt 1)] None = Err InvalidExpression /\ evaluate_arith witness_env (J "a+(1)") [(J "a", VInt 1)] = Err EmptyStack /\
  evaluate_boolean witness_env (J "(a=1)") [(J "a", VInt 1)] None = Ok true.
Proof. exact bracket_case. Qed.

(** C58, refuted: digits and dots that are no number and no version of the form accepted (one digit before the first dot) are
    not rejected, they are the name of a field. *)
Theorem C58_numeral_compared_refuted : forall E d dflt x m o op w s, operand x m -> In (o, op) comparators -> numeral_like w -> laid_out [x; o; w] s ->
  evaluate_boolean E s d dflt = bool_eval E d (NCmp m (NField (Some w)) op STRING).
Proof. exact numeral_compared. Qed.
Print Assumptions C58_numeral_compared_refuted.
Theorem C58_numeral_looked_up_refuted : forall E d w, numeral_like w -> evaluate_arith E w d = arith_eval E d (NField (Some w)).
Proof. exact numeral_looked_up. Qed.
Print Assumptions C58_numeral_looked_up_refuted.
Example C58_case : numeral_like (J ".5") /\ numeral_like (J "5.") /\ numeral_like (J "12.1.3") /\ laid_out [J "v"; J ">"; J "12.1.3"] (J "v > 12.1.3") /\
  evaluate_boolean witness_env (J "v > 12.1.3") [(J "v", VStr (J "13.0.0"))] None = Err NoSuchElement /\
  evaluate_boolean witness_env (J "v > 9.1.3") [(J "v", VStr (J "13.0.0"))] None = Ok true /\
  evaluate_boolean witness_env (J "x > .5") [(J "x", VInt 1)] None = Err NoSuchElement.
Proof. exact numeral_case. Qed.
