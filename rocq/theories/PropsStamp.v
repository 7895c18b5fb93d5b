(** Properties of dates and date-times held as objects or as text. *)
From Coq Require Import QArith.
From Verif Require Import RecoverFacts.
From Verif Require Import Base JNum BigDec Dates Values Ops Funcs Ast Eval Lexer Grammar Api SpecNum SpecCompare SpecArith SpecFunc SpecDate SpecLex SpecPath SpecSyntax SpecText SpecChain SpecTrend SpecRepr SpecMixed SpecForm SpecCourse SpecStamp
  StampFacts StampCases CompareWitness.
Local Open Scope Z_scope.

(** C95: comparisons and lists of days and moments do not tell an object from a text for the same day or moment. *)
Theorem C95_condition : forall E d d' n, stamped E d d' n -> bool_eval E d n = bool_eval E d' n.
Proof. exact stamped_answer. Qed.
Print Assumptions C95_condition.

(** C95: the same for texts of any length. *)
Theorem C95_text : forall E d d' dflt s ws n, passage Nothing s ws n -> stamped E d d' n -> evaluate_boolean E (unwords ws) d dflt = evaluate_boolean E (unwords ws) d' dflt.
Proof. exact stamped_text. Qed.
Print Assumptions C95_text.

(** C95: fields of any depth, and date words of the text. *)
Theorem C95_field : forall E d d' f v w, to_lower f <> J "null" -> arith_eval E d (NField (Some f)) = Ok v -> arith_eval E d' (NField (Some f)) = Ok w -> same_stamp v w ->
  same_time E d d' (NField (Some f)).
Proof. exact field_time. Qed.
Print Assumptions C95_field.
Theorem C95_literal : forall E d d' t v, same_stamp v v -> same_time E d d' (NUnary t v).
Proof. exact literal_time. Qed.
Print Assumptions C95_literal.

(** C95: DAYS_ELAPSED of a date and of its text yyyy-MM-dd is the same number. *)
Theorem C95_elapsed : forall E d d' n y m dd s, arith_eval E d n = Ok (VDate (Date y m dd)) -> arith_eval E d' n = Ok (VStr s) -> plain_text y m dd s -> 1 <= y -> calendar (Date y m dd) ->
  arith_eval E d (NFunc F_DAYS_ELAPSED [n]) = arith_eval E d' (NFunc F_DAYS_ELAPSED [n]).
Proof. exact elapsed_same. Qed.
Print Assumptions C95_elapsed.

(** C95, refuted: CONTAINS_ANY compares what the values print as, and a date-time prints differently from its text. *)
Theorem C95_contains_refuted : exists E x s, denotes_datetime (VDateTime x) x /\ written_datetime s x /\
  evaluate_boolean E (J "l CONTAINS_ANY (x)") [(J "x", VDateTime x); (J "l", VColl true [VStr s])] None = Ok false /\
  evaluate_boolean E (J "l CONTAINS_ANY (x)") [(J "x", VStr s); (J "l", VColl true [VStr s])] None = Ok true.
Proof. exact stamp_contains_refuted. Qed.
Print Assumptions C95_contains_refuted.
(** C95, refuted: a text that comparisons read as a day is not always good for DAYS_ELAPSED. *)
Theorem C95_elapsed_refuted : exists E a s, calendar a /\ written_date s a /\
  evaluate_boolean E (J "DAYS_ELAPSED ( x ) > 5") [(J "x", VDate a)] None = Ok false /\
  evaluate_boolean E (J "DAYS_ELAPSED ( x ) > 5") [(J "x", VStr s)] None = Err InvalidFunctionArgument.
Proof. exact stamp_elapsed_refuted. Qed.
Print Assumptions C95_elapsed_refuted.

(** due <= 2024-03-01 AND day IN ( 2024-05-01 , first ) with an object in one map where the other has a text. *)
Example C95_case : let ws := [J "due"; J "<="; J "2024-03-01"; J "AND"; J "day"; J "IN"] ++ bracketed (commas [J "2024-05-01"; J "first"]) in
  let n := NBool (NCmp (NField (Some (J "due"))) (NUnary DATE (VDate (Date 2024 3 1))) LESS_THAN_EQUAL DATE)
     (Some (NIn (Some (J "day")) [NUnary DATE (VDate (Date 2024 5 1)); NField (Some (J "first"))])) AND in
  let d := [(J "due", VStr (J "2024-02-30")); (J "day", VDate (Date 2024 1 1)); (J "first", VStr (J "2024-01-01"))] in
  let d' := [(J "due", VDate (Date 2024 2 29)); (J "day", VStr (J "2024-01-01")); (J "first", VStr (J "2024-01-01"))] in
  passage Nothing Logic ws n /\ stamped witness_env d d' n /\ evaluate_boolean witness_env (unwords ws) d None = Ok true.
Proof. exact stamp_case. Qed.
