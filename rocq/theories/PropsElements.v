(** Properties of conditions on computed lists and arguments. *)
From Verif Require Import Base JNum BigDec Dates Values Ops Funcs Ast Eval Lexer Grammar Listener Api SpecArith SpecLex SpecSyntax SpecText SpecChain SpecElements ElementText ElementCases CompareWitness.

(** C91: alone, a condition on computed elements has the meaning of its tree. *)
Theorem C91_alone : forall E d dflt s wss ws n, laden s wss ws n -> evaluate_boolean E (unwords ws) d dflt = bool_eval E d n.
Proof. exact laden_alone. Qed.
Print Assumptions C91_alone.

(** C91: first in a row of conditions of any length, it is asked like every other condition. *)
Theorem C91_first : forall E d dflt wss ws n rest, laden Logic wss ws n -> followers rest ->
  evaluate_boolean E (unwords (chained ws rest)) d dflt =
  fold_left (go_on (fun w => evaluate_boolean E (unwords w) d dflt)) rest (evaluate_boolean E (unwords ws) d dflt).
Proof. exact laden_first. Qed.
Print Assumptions C91_first.
Example C91_first_case : (exists n, laden Logic quotient rounded n) /\ followers [(J "AND", AND, simple_start)] /\
  unwords (chained rounded [(J "AND", AND, simple_start)]) = J "INT ( a / b ) = 3 AND b = 2" /\
  evaluate_boolean witness_env (J "INT ( a / b ) = 3 AND b = 2") seven None = Ok true.
Proof. exact first_case. Qed.

(** C91: later in a row it hides all that stands before it: AND is false, and OR is this condition alone, whatever stands before. *)
Theorem C91_later_refuted : forall E d dflt ws1 m o op s wss ws2 n rest, (exists s1, passage Nothing s1 ws1 m) \/ (exists s1 wss1, laden s1 wss1 ws1 m) ->
  In (o, op) connectives -> laden s wss ws2 n -> compound wss -> followers rest ->
  evaluate_boolean E (unwords (chained (ws1 ++ o :: ws2) rest)) d dflt =
  fold_left (go_on (fun w => evaluate_boolean E (unwords w) d dflt)) rest (match op with AND => Ok false | _ => evaluate_boolean E (unwords ws2) d dflt end).
Proof. exact laden_later. Qed.
Print Assumptions C91_later_refuted.
Example C91_later_case : (exists m, passage Nothing Logic simple_start m) /\ compound quotient /\ compound [[J "a"; J "-"; J "5"]; [J "1"]] /\
  (exists n, laden Logic quotient rounded n) /\ (exists n, laden Member [[J "a"; J "-"; J "5"]; [J "1"]] chosen n) /\
  unwords (chained (simple_start ++ J "AND" :: rounded) []) = J "b = 2 AND INT ( a / b ) = 3" /\
  unwords (chained (simple_start ++ J "OR" :: chosen) []) = J "b = 2 OR c IN ( a - 5 , 1 )" /\
  evaluate_boolean witness_env (J "b = 2") seven None = Ok true /\ evaluate_boolean witness_env (J "INT ( a / b ) = 3") seven None = Ok true /\
  evaluate_boolean witness_env (J "b = 2 AND INT ( a / b ) = 3") seven None = Ok false /\
  evaluate_boolean witness_env (J "b = 2 OR c IN ( a - 5 , 1 )") seven None = Ok false.
Proof. exact later_case. Qed.

(** C91: in arithmetic, the last computed argument of a call is used in place of the call or parentheses to the left of it. *)
Theorem C91_arithmetic_refuted : forall E d ws1 m o op f fn before ws0 us nsb n0 nsu, term ws1 m -> length ws1 <> 1%nat -> In (o, op) arithmetic_symbols -> In (f, fn) function_names ->
  element_list before nsb -> element ws0 n0 -> length ws0 <> 1%nat -> Forall2 operand us nsu ->
  evaluate_arith E (unwords (ws1 ++ o :: f :: bracketed (listing (before ++ ws0 :: map (fun w => [w]) us)))) d =
  arith_eval E d (NArith n0 (Some (NFunc fn (nsb ++ n0 :: nsu))) op).
Proof. exact computed_later. Qed.
Print Assumptions C91_arithmetic_refuted.
(** MIN ( a , b ) is 2 and INT ( a / b ) is 3, but their sum is 6.5: 3.5 + 3. *)
Example C91_arithmetic_case : let least := J "MIN" :: bracketed (commas [J "a"; J "b"]) in
  let call := J "INT" :: bracketed (listing ([] ++ [J "a"; J "/"; J "b"] :: map (fun w => [w]) [])) in
  (exists m, term least m) /\ length least <> 1%nat /\ (exists n0, element [J "a"; J "/"; J "b"] n0) /\ unwords (least ++ J "+" :: call) = J "MIN ( a , b ) + INT ( a / b )" /\
  evaluate_arith witness_env (unwords least) seven = Ok (VInt 2) /\ evaluate_arith witness_env (unwords call) seven = Ok (VInt 3) /\
  evaluate_arith witness_env (J "MIN ( a , b ) + INT ( a / b )") seven = Ok (VDec (BD 6500 3)).
Proof. exact computed_case. Qed.
