(** Properties of comparisons with two compound sides. *)
From Coq Require Import QArith.
From Verif Require Import Base JNum BigDec Dates Values Ops Funcs Ast Eval Lexer Grammar Listener Api SpecNum SpecCompare SpecArith SpecLex SpecGrammar SpecSyntax SpecText SpecChain SpecQuote SpecRepr
  SidesFacts SidesCases CompareWitness.

(** C92, refuted: a text with a comparison of two compound sides, one of them in parentheses, is rejected, wherever in the text the comparison stands. *)
Theorem C92_rejected_refuted : forall s t dflt l o r, lex s = Ok (yield t) -> reads 0 t eof -> inside (PCmp l o r) t -> compound l -> compound r ->
  (exists t', l = PParen t' \/ r = PParen t') -> exists e, parse_expression s dflt = Err e /\ forall E d, evaluate_boolean E s d dflt = Err e.
Proof. exact sides_rejected. Qed.
Print Assumptions C92_rejected_refuted.
Example C92_rejected_case : lex (J "x = 1 AND ( a + b ) > ( c - 1 )") = Ok (yield two_sums_row) /\ reads 0 two_sums_row eof /\ inside two_sums two_sums_row /\
  parse_expression (J "x = 1 AND ( a + b ) > ( c - 1 )") None = Err InvalidExpression.
Proof. exact sides_case. Qed.

(** C92: written as the difference compared with zero, the comparison is accepted, and it compares the two numbers exactly if there is room for the difference. *)
Theorem C92_difference : forall E d dflt ws1 m1 r1 n1 ws2 m2 r2 n2 c op v w p q b,
  terms ws1 m1 r1 -> r1 <> [] -> grouped m1 r1 n1 -> terms ws2 m2 r2 -> r2 <> [] -> grouped m2 r2 n2 ->
  In (c, op) comparators -> evaluate_arith E (unwords ws1) d = Ok v -> evaluate_arith E (unwords ws2) d = Ok w ->
  number v p -> number w q -> room v SUBTRACT w -> question op p q = Some b ->
  evaluate_boolean E (unwords (bracketed (bracketed ws1 ++ J "-" :: bracketed ws2) ++ [c; J "0"])) d dflt = Ok b.
Proof. exact as_difference. Qed.
Print Assumptions C92_difference.
Example C92_difference_case : let sum1 := [J "a"; J "+"; J "b"] in let sum2 := [J "c"; J "-"; J "1"] in let d := [(J "a", VInt 1); (J "b", VInt 2); (J "c", VDec (BD 25 1))] in
  (exists m r n, terms sum1 m r /\ r <> [] /\ grouped m r n) /\ (exists m r n, terms sum2 m r /\ r <> [] /\ grouped m r n) /\
  evaluate_arith witness_env (unwords sum1) d = Ok (VInt 3) /\ evaluate_arith witness_env (unwords sum2) d = Ok (VDec (BD 15 1)) /\
  number (VInt 3) 3 /\ number (VDec (BD 15 1)) (3 # 2) /\ room (VInt 3) SUBTRACT (VDec (BD 15 1)) /\ question GREATER_THAN 3 (3 # 2) = Some true /\
  unwords (bracketed (bracketed sum1 ++ J "-" :: bracketed sum2) ++ [J ">"; J "0"]) = J "( ( a + b ) - ( c - 1 ) ) > 0" /\
  evaluate_boolean witness_env (J "( ( a + b ) - ( c - 1 ) ) > 0") d None = Ok true.
Proof. exact difference_case. Qed.
