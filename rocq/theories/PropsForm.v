(** Properties of numbers that reach the data as text. *)
From Coq Require Import QArith.
From Verif Require Import RecoverFacts.
From Verif Require Import Base JNum BigDec Dates Values Ops Funcs Ast Eval Lexer Grammar Api SpecNum SpecCompare SpecArith SpecFunc SpecLex SpecPath SpecSyntax SpecText SpecChain SpecTrend SpecRepr SpecMixed SpecForm
  FormFacts FormCases CompareWitness.
Local Open Scope Z_scope.

(** C94: where texts are only compared with numbers they are good for, the condition answers as with the numbers. *)
Theorem C94_condition : forall E d d' n, received E d d' n -> bool_eval E d n = bool_eval E d' n.
Proof. exact received_answer. Qed.
Print Assumptions C94_condition.

(** C94: the same for texts of any length. *)
Theorem C94_text : forall E d d' dflt s ws n, passage Nothing s ws n -> received E d d' n -> evaluate_boolean E (unwords ws) d dflt = evaluate_boolean E (unwords ws) d' dflt.
Proof. exact received_text. Qed.
Print Assumptions C94_text.

(** C94: the decimal digits of a whole number are a text that denotes it, and no two numbers have the same. *)
Theorem C94_numeral : forall a, written_number (print_Z a) (inject_Z a).
Proof. exact numeral_text. Qed.
Print Assumptions C94_numeral.
Theorem C94_numeral_unique : forall a b, print_Z a = print_Z b -> a = b.
Proof. exact numeral_inj. Qed.
Print Assumptions C94_numeral_unique.

(** C94, refuted: + joins texts instead of adding. *)
Theorem C94_sum_refuted : exists E a, fits32 a /\
  evaluate_boolean E (J "( x + 1 ) > 20") [(J "x", VInt a)] None = Ok false /\ evaluate_boolean E (J "( x + 1 ) > 20") [(J "x", VStr (print_Z a))] None = Ok true.
Proof. exact form_sum_refuted. Qed.
Print Assumptions C94_sum_refuted.
(** C94, refuted: a text with a fraction cannot be compared with a whole number. *)
Theorem C94_fraction_refuted : exists E b s q, number (VDec b) q /\ written_number s q /\
  evaluate_boolean E (J "x > 5") [(J "x", VDec b)] None = Ok true /\ evaluate_boolean E (J "x > 5") [(J "x", VStr s)] None = Err InvalidDataType.
Proof. exact form_fraction_refuted. Qed.
Print Assumptions C94_fraction_refuted.
(** C94, refuted: = compares the texts, so 5 is not 5.0. *)
Theorem C94_equal_refuted : exists E a, fits32 a /\
  evaluate_boolean E (J "x = 5.0") [(J "x", VInt a)] None = Ok true /\ evaluate_boolean E (J "x = 5.0") [(J "x", VStr (print_Z a))] None = Ok false.
Proof. exact form_equal_refuted. Qed.
Print Assumptions C94_equal_refuted.
(** C94, refuted: two texts are compared letter by letter. *)
Theorem C94_both_refuted : exists E a b, fits32 a /\ fits32 b /\
  evaluate_boolean E (J "x > y") [(J "x", VInt a); (J "y", VInt b)] None = Ok true /\
  evaluate_boolean E (J "x > y") [(J "x", VStr (print_Z a)); (J "y", VStr (print_Z b))] None = Ok false.
Proof. exact form_both_refuted. Qed.
Print Assumptions C94_both_refuted.

(** age >= 18 AND NOT ( kind = 7 ) with 20.0 and 12, and with the texts 2e1 and 12; C90 does not cover it. *)
Example C94_case : let ws := [J "age"; J ">="; J "18"; J "AND"; J "NOT"] ++ bracketed [J "kind"; J "="; J "7"] in
  let n := NBool (NCmp (NField (Some (J "age"))) (NUnary INTEGER (VInt 18)) GREATER_THAN_EQUAL INTEGER)
     (Some (NBool (NCmp (NField (Some (J "kind"))) (NUnary INTEGER (VInt 7)) EQUALS INTEGER) None NOT)) AND in
  let d := [(J "age", VDec (BD 200 1)); (J "kind", VLong 12)] in let d' := [(J "age", VStr (J "2e1")); (J "kind", VStr (J "12"))] in
  passage Nothing Logic ws n /\ received witness_env d d' n /\ ~ measured witness_env d d' (NCmp (NField (Some (J "age"))) (NUnary INTEGER (VInt 18)) GREATER_THAN_EQUAL INTEGER) /\
  evaluate_boolean witness_env (unwords ws) d None = Ok true.
Proof. exact form_case. Qed.
