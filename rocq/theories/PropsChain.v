(** Properties of texts of any length, with parentheses only where they are wanted. *)
From Verif Require Import Base JNum BigDec Dates Values Ops Funcs Ast Eval Lexer Grammar Listener Api SpecArith SpecLex SpecSyntax SpecText SpecChain ChainFacts ChainText ChainCases CompareWitness.

(** C87: a row of conditions of any length, joined by AND and OR, is asked from the left, and no further than needed. *)
Theorem C87_left_to_right : forall E d dflt ws rest, opening ws -> followers rest ->
  evaluate_boolean E (unwords (chained ws rest)) d dflt =
  fold_left (go_on (fun w => evaluate_boolean E (unwords w) d dflt)) rest (evaluate_boolean E (unwords ws) d dflt).
Proof. exact chain_value. Qed.
Print Assumptions C87_left_to_right.

(** C87: with AND only, the answer is true exactly if each condition alone is true. *)
Theorem C87_all : forall E d dflt ws rest, opening ws -> followers rest -> Forall (fun p => snd (fst p) = AND) rest ->
  (evaluate_boolean E (unwords (chained ws rest)) d dflt = Ok true <-> Forall (fun w => evaluate_boolean E (unwords w) d dflt = Ok true) (ws :: map snd rest)).
Proof. exact all_and. Qed.
Print Assumptions C87_all.

(** C87: with OR only, the answer is false exactly if each condition alone is false. *)
Theorem C87_none : forall E d dflt ws rest, opening ws -> followers rest -> Forall (fun p => snd (fst p) = OR) rest ->
  (evaluate_boolean E (unwords (chained ws rest)) d dflt = Ok false <-> Forall (fun w => evaluate_boolean E (unwords w) d dflt = Ok false) (ws :: map snd rest)).
Proof. exact none_or. Qed.
Print Assumptions C87_none.

(** C87: a text whose parentheses contain such texts again has the meaning of the tree. *)
Theorem C87_nested : forall E d dflt s ws n, passage Nothing s ws n ->
  evaluate_boolean E (unwords ws) d dflt = bool_eval E d n /\ evaluate_arith E (unwords ws) d = arith_eval E d n.
Proof. exact passage_value. Qed.
Print Assumptions C87_nested.

(** C87: an arithmetic expression of any length is computed as its operators are grouped. *)
Theorem C87_arithmetic : forall E d ws m rest n, terms ws m rest -> rest <> [] -> grouped m rest n ->
  evaluate_arith E (unwords ws) d = arith_eval E d n /\ forall dflt, evaluate_boolean E (unwords ws) d dflt = bool_eval E d n.
Proof. exact formula_value. Qed.
Print Assumptions C87_arithmetic.

(** C87: every row of operands is grouped in one way. *)
Theorem C87_grouped_somehow : forall rest m, exists n, grouped m rest n.
Proof. exact grouped_total. Qed.
Print Assumptions C87_grouped_somehow.
Theorem C87_grouped_once : forall m rest n, grouped m rest n -> forall n', grouped m rest n' -> n' = n.
Proof. exact grouped_unique. Qed.
Print Assumptions C87_grouped_once.

(** C87: with one operator only, from the left. *)
Theorem C87_same_operator : forall op rest, Forall (fun p : operator * node => fst p = op) rest ->
  forall m, grouped m rest (fold_left (fun l p => NArith l (Some (snd p)) op) rest m).
Proof. exact same_operator. Qed.
Print Assumptions C87_same_operator.

(** C87: parentheses around what is grouped anyway make no difference. *)
Theorem C87_superfluous : forall E d dflt ws1 m before o op ws2 n after, terms ws1 m before -> In (o, op) arithmetic_symbols -> terms ws2 n after ->
  Forall (fun p => tightness op <= tightness (fst p))%nat before -> Forall (fun p => tightness op < tightness (fst p))%nat after ->
  let whole w1 w2 := unwords (w1 ++ o :: w2) in
  (before <> [] -> evaluate_arith E (whole (bracketed ws1) ws2) d = evaluate_arith E (whole ws1 ws2) d /\
     evaluate_boolean E (whole (bracketed ws1) ws2) d dflt = evaluate_boolean E (whole ws1 ws2) d dflt) /\
  (after <> [] -> evaluate_arith E (whole ws1 (bracketed ws2)) d = evaluate_arith E (whole ws1 ws2) d /\
     evaluate_boolean E (whole ws1 (bracketed ws2)) d dflt = evaluate_boolean E (whole ws1 ws2) d dflt).
Proof. exact superfluous. Qed.
Print Assumptions C87_superfluous.

(** 20 - a * 2 + 3 - 10 / 5 is (20 - (a * 2 + 3)) - 10 / 5. *)
Example C87_case_arithmetic : let i z := NUnary INTEGER (VInt z) in let a := NField (Some (J "a")) in
  let ws := [J "20"; J "-"; J "a"; J "*"; J "2"; J "+"; J "3"; J "-"; J "10"; J "/"; J "5"] in
  let rest := [(SUBTRACT, a); (MULTIPLY, i 2%Z); (ADD, i 3%Z); (SUBTRACT, i 10%Z); (DIVIDE, i 5%Z)] in
  terms ws (i 20%Z) rest /\ grouped (i 20%Z) rest (bin (bin (i 20%Z) SUBTRACT (bin (bin a MULTIPLY (i 2%Z)) ADD (i 3%Z))) SUBTRACT (bin (i 10%Z) DIVIDE (i 5%Z))) /\
  evaluate_arith witness_env (unwords ws) [(J "a", VInt 4)] = Ok (VInt 7).
Proof. exact sum_case. Qed.

(** A row of four conditions of different kinds. *)
Example C87_case : opening row_start /\ followers row_rest /\
  unwords (chained row_start row_rest) = J "x = 1 OR y IN ( 1 , 2 ) AND NOT z 1 TO 5 OR ( x + y * 2 ) > 9" /\
  evaluate_boolean witness_env (J "x = 1 OR y IN ( 1 , 2 ) AND NOT z 1 TO 5 OR ( x + y * 2 ) > 9") [(J "x", VInt 1); (J "y", VInt 3); (J "z", VInt 4)] None = Ok false /\
  evaluate_boolean witness_env (J "x = 1 OR y IN ( 1 , 2 ) AND NOT z 1 TO 5 OR ( x + y * 2 ) > 9") [(J "x", VInt 1); (J "y", VInt 3); (J "z", VInt 6)] None = Ok true /\
  evaluate_boolean witness_env (J "x = 1 OR y IN ( 1 , 2 ) AND NOT z 1 TO 5 OR ( x + y * 2 ) > 9") [(J "x", VInt 4); (J "y", VInt 3); (J "z", VInt 4)] None = Ok true.
Proof. exact row_case. Qed.
