(** C39: conditions on a list whose first element has two operators. *)
From Verif Require Import Base Values Ops Funcs Ast Eval Api SpecLex SpecSyntax SpecText SpecChain SpecDoubled CompareWitness ElementCases DoubledCases DoubledText.
Local Open Scope nat_scope.

(** C39: in the list of an IN, a NOT IN or a CONTAINS too the outer operator of such an element is applied twice, for all operands, operators and data. *)
Theorem C39_longer_lists_refuted : forall E d dflt ws n, doubled ws n -> evaluate_boolean E (unwords ws) d dflt = bool_eval E d n.
Proof. exact doubled_alone. Qed.
Print Assumptions C39_longer_lists_refuted.

(** C39: the conditions before and after are those that are written: a row with such a condition is settled from left to right. *)
Theorem C39_longer_lists_row : forall E d dflt ws1 m o op ws2 n rest, passage Nothing Logic ws1 m -> In (o, op) connectives -> doubled ws2 n -> followers rest ->
  evaluate_boolean E (unwords (chained ws1 ((o, op, ws2) :: rest))) d dflt =
  fold_left (go_on (fun w => evaluate_boolean E (unwords w) d dflt)) ((o, op, ws2) :: rest) (evaluate_boolean E (unwords ws1) d dflt).
Proof. exact doubled_later. Qed.
Print Assumptions C39_longer_lists_row.

Example C39_longer_lists_case : (exists m, passage Nothing Logic simple_start m) /\ (exists n, doubled long_words n) /\ followers [(J "OR", OR, simple_start)] /\
  unwords (chained simple_start [(J "AND", AND, long_words)]) = J "b = 2 AND c IN ( a + 1 + 1 , 4 )" /\
  evaluate_boolean witness_env (J "b = 2 AND c IN ( a + 1 + 1 , 4 )") (eight 9) None = Ok false /\
  evaluate_boolean witness_env (J "b = 2 AND c IN ( a + 1 + 1 , 4 )") (eight 10) None = Ok true.
Proof. exact long_case. Qed.
