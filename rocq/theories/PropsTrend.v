(** Properties of conditions when numbers in the data rise or fall. *)
From Coq Require Import QArith.
From Verif Require Import RecoverFacts.
From Verif Require Import Base JNum BigDec Dates Values Ops Funcs Ast Eval Lexer Grammar Api SpecNum SpecCompare SpecArith SpecLex SpecPath SpecSyntax SpecText SpecChain SpecTrend
  LexCases TextCases TrendFacts TrendCases CompareWitness.
Local Open Scope Z_scope.

(** C88: where a condition with a trend answers both before and after, the answer follows the trend. *)
Theorem C88_trend : forall E d d' up n, trend E d d' up n -> forall b b', bool_eval E d n = Ok b -> bool_eval E d' n = Ok b' ->
  if up then b = true -> b' = true else b' = true -> b = true.
Proof. exact trend_follows. Qed.
Print Assumptions C88_trend.

(** C88: the same for texts of any length. *)
Theorem C88_text : forall E d d' dflt s ws n up b b', passage Nothing s ws n -> trend E d d' up n ->
  evaluate_boolean E (unwords ws) d dflt = Ok b -> evaluate_boolean E (unwords ws) d' dflt = Ok b' -> if up then b = true -> b' = true else b' = true -> b = true.
Proof. exact trend_text_both. Qed.
Print Assumptions C88_text.

(** C88: a condition made of comparisons of numbers stays true when all it looks at goes its way. *)
Theorem C88_stays_true : forall E d d' dflt s ws n, passage Nothing s ws n -> trend E d d' true n -> numeric E d' n ->
  evaluate_boolean E (unwords ws) d dflt = Ok true -> evaluate_boolean E (unwords ws) d' dflt = Ok true.
Proof. exact trend_text. Qed.
Print Assumptions C88_stays_true.

(** C88: fields rise with their values, literals are constant, sums of whole numbers rise as long as they fit. *)
Theorem C88_field_rises : forall E d d' f v p v' p', to_lower f <> J "null" -> arith_eval E d (NField (Some f)) = Ok v -> number v p ->
  arith_eval E d' (NField (Some f)) = Ok v' -> number v' p' -> (p <= p')%Q -> rises E d d' (NField (Some f)).
Proof. exact field_rises. Qed.
Print Assumptions C88_field_rises.
Theorem C88_literal_rises : forall E d d' t v p, number v p -> rises E d d' (NUnary t v).
Proof. exact literal_rises. Qed.
Print Assumptions C88_literal_rises.
Theorem C88_sum_rises : forall E d d' l r a b a' b' vl vr vl' vr',
  arith_eval E d l = Ok vl -> arith_eval E d r = Ok vr -> arith_eval E d' l = Ok vl' -> arith_eval E d' r = Ok vr' ->
  whole vl a -> whole vr b -> whole vl' a' -> whole vr' b' -> a <= a' -> b <= b' -> fits64 (a + b) -> fits64 (a' + b') -> rises E d d' (bin l ADD r).
Proof. exact sum_rises. Qed.
Print Assumptions C88_sum_rises.

(** C88, refuted for sums that do not fit: a larger number makes the condition false. *)
Theorem C88_sum_refuted : exists E a a', a <= a' /\ fits64 a /\ fits64 a' /\
  evaluate_boolean E (J "( a + 1 ) > 0") [(J "a", VLong a)] None = Ok true /\ evaluate_boolean E (J "( a + 1 ) > 0") [(J "a", VLong a')] None = Ok false.
Proof. exact trend_sum_refuted. Qed.
Print Assumptions C88_sum_refuted.

(** age >= 18 AND NOT ( debt > 100 ) : the age rises, the debt falls. *)
Example C88_case : let ws := [J "age"; J ">="; J "18"; J "AND"; J "NOT"] ++ bracketed [J "debt"; J ">"; J "100"] in
  let n := NBool (NCmp (NField (Some (J "age"))) (NUnary INTEGER (VInt 18)) GREATER_THAN_EQUAL INTEGER)
     (Some (NBool (NCmp (NField (Some (J "debt"))) (NUnary INTEGER (VInt 100)) GREATER_THAN INTEGER) None NOT)) AND in
  let d := [(J "age", VInt 18); (J "debt", VDec (BD 1005 1))] in let d' := [(J "age", VLong 30); (J "debt", VInt 90)] in
  passage Nothing Logic ws n /\ trend witness_env d d' true n /\ numeric witness_env d' n /\
  evaluate_boolean witness_env (unwords ws) d None = Ok false /\ evaluate_boolean witness_env (unwords ws) d' None = Ok true.
Proof. exact trend_case. Qed.
