(** Properties of conditions when the same numbers are held in other types. *)
From Coq Require Import QArith.
From Verif Require Import RecoverFacts.
From Verif Require Import Base JNum BigDec Dates Values Ops Funcs Ast Eval Lexer Grammar Api SpecNum SpecCompare SpecArith SpecFunc SpecLex SpecPath SpecSyntax SpecText SpecChain SpecTrend SpecRepr
  TrendFacts GrowFacts ReprFacts ReprCases CompareWitness.
Local Open Scope Z_scope.

(** C90: comparisons, ranges and lists of numbers, and what AND, OR and NOT make of them, answer the same whatever types the numbers have. *)
Theorem C90_condition : forall E d d' n, measured E d d' n -> bool_eval E d n = bool_eval E d' n.
Proof. exact measured_answer. Qed.
Print Assumptions C90_condition.

(** C90: the same for texts of any length. *)
Theorem C90_text : forall E d d' dflt s ws n, passage Nothing s ws n -> measured E d d' n -> evaluate_boolean E (unwords ws) d dflt = evaluate_boolean E (unwords ws) d' dflt.
Proof. exact measured_text. Qed.
Print Assumptions C90_text.

(** C90: which operands are the same number: fields, literals, exact sums, differences and products, quotients, INT. *)
Theorem C90_field : forall E d d' f v w, to_lower f <> J "null" -> arith_eval E d (NField (Some f)) = Ok v -> arith_eval E d' (NField (Some f)) = Ok w -> same_number v w ->
  same_measure E d d' (NField (Some f)).
Proof. exact field_measure. Qed.
Print Assumptions C90_field.

Theorem C90_literal : forall E d d' t v q, number v q -> same_measure E d d' (NUnary t v).
Proof. exact literal_measure. Qed.
Print Assumptions C90_literal.

Theorem C90_arithmetic : forall E d d' l r op v w v' w', arith_eval E d l = Ok v -> arith_eval E d r = Ok w -> arith_eval E d' l = Ok v' -> arith_eval E d' r = Ok w' ->
  same_number v v' -> same_number w w' -> op = ADD \/ op = SUBTRACT \/ op = MULTIPLY -> room v op w -> room v' op w' -> same_measure E d d' (bin l op r).
Proof. exact arithmetic_measure. Qed.
Print Assumptions C90_arithmetic.

Theorem C90_quotient : forall E d d' l r v w v' w' x, arith_eval E d l = Ok v -> arith_eval E d r = Ok w -> arith_eval E d' l = Ok v' -> arith_eval E d' r = Ok w' ->
  same_number v v' -> same_number w w' -> arith_eval E d (bin l DIVIDE r) = Ok x -> same_measure E d d' (bin l DIVIDE r).
Proof. exact divide_measure. Qed.
Print Assumptions C90_quotient.

Theorem C90_int : forall E d d' n v v', arith_eval E d n = Ok v -> arith_eval E d' n = Ok v' -> same_number v v' ->
  arith_eval E d (NFunc F_INT [n]) = arith_eval E d' (NFunc F_INT [n]).
Proof. exact int_measure. Qed.
Print Assumptions C90_int.

(** C90: what rises (C88, C89) from one map to the other and back is the same number; so C89 covers LEN, MIN, MAX and SUM. *)
Theorem C90_both_ways : forall E d d' m, rises E d d' m -> rises E d' d m -> same_measure E d d' m.
Proof. exact both_ways. Qed.
Print Assumptions C90_both_ways.

(** C90, refuted for negation, remainders, comparisons with texts, CONTAINS, and differences of Integers that wrap. *)
Theorem C90_negate_refuted : exists E v w, same_number v w /\
  evaluate_arith E (J "- x") [(J "x", v)] = Ok (VDec (BD (-30) 1)) /\ evaluate_arith E (J "- x") [(J "x", w)] = Err ClassCast.
Proof. exact repr_negate_refuted. Qed.
Print Assumptions C90_negate_refuted.

Theorem C90_modulus_refuted : exists E v w, same_number v w /\
  evaluate_boolean E (J "( x % 2 ) = 1") [(J "x", v)] None = Ok true /\ evaluate_boolean E (J "( x % 2 ) = 1") [(J "x", w)] None = Err InvalidDataType.
Proof. exact repr_modulus_refuted. Qed.
Print Assumptions C90_modulus_refuted.

Theorem C90_text_refuted : exists E v w, same_number v w /\
  evaluate_boolean E (J "x = '3'") [(J "x", v)] None = Ok true /\ evaluate_boolean E (J "x = '3'") [(J "x", w)] None = Ok false.
Proof. exact repr_text_refuted. Qed.
Print Assumptions C90_text_refuted.

Theorem C90_contains_refuted : exists E v w, same_number v w /\
  evaluate_boolean E (J "x CONTAINS_ANY ( 3 )") [(J "x", VColl true [v])] None = Ok true /\ evaluate_boolean E (J "x CONTAINS_ANY ( 3 )") [(J "x", VColl true [w])] None = Ok false.
Proof. exact repr_contains_refuted. Qed.
Print Assumptions C90_contains_refuted.

Theorem C90_difference_refuted : exists E v w, same_number v w /\
  evaluate_boolean E (J "( x - 1 ) < 0") [(J "x", v)] None = Ok false /\ evaluate_boolean E (J "( x - 1 ) < 0") [(J "x", w)] None = Ok true.
Proof. exact repr_difference_refuted. Qed.
Print Assumptions C90_difference_refuted.

Example C90_three : same_number (VInt 3) (VLong 3) /\ same_number (VInt 3) (VDec (BD 30 1)) /\ same_number (VDec (BD 30 1)) (VFloat true (J "3.0")).
Proof. exact three_numbers. Qed.

(** ( price * 2 ) >= 10 AND qty IN ( 1 , 3 ) *)
Example C90_case : let ws := (bracketed [J "price"; J "*"; J "2"] ++ [J ">="; J "10"]) ++ J "AND" :: (J "qty" :: J "IN" :: bracketed (commas [J "1"; J "3"])) in
  let n := NBool (NCmp (bin (NField (Some (J "price"))) MULTIPLY (NUnary INTEGER (VInt 2))) (NUnary INTEGER (VInt 10)) GREATER_THAN_EQUAL INTEGER)
    (Some (NIn (Some (J "qty")) [NUnary INTEGER (VInt 1); NUnary INTEGER (VInt 3)])) AND in
  let d := [(J "price", VInt 5); (J "qty", VDec (BD 30 1))] in let d' := [(J "price", VDec (BD 500 2)); (J "qty", VFloat true (J "3.0"))] in
  passage Nothing Logic ws n /\ measured witness_env d d' n /\ evaluate_boolean witness_env (unwords ws) d None = Ok true.
Proof. exact repr_case. Qed.
