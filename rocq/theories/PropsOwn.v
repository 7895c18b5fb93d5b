(** C98: values and their own text. *)
From Coq Require Import QArith.
From Verif Require Import Base JNum BigDec Dates Version Values Ops Funcs Ast Eval SpecNum SpecDate SpecCompare CompareFacts CompareWitness SpecMixed SpecOwn OwnFacts OwnCases.
Local Open Scope Z_scope.

(** C98: every value of every type equals the text it prints as, from both sides. *)
Theorem C98_equal : forall E d l r v a, yields E d l v -> yields E d r (VStr (show v)) -> stands v a ->
  bool_eval E d (cond l EQUALS r) = Ok true /\ bool_eval E d (cond r EQUALS l) = Ok true.
Proof. exact own_text. Qed.
Print Assumptions C98_equal.

(** C98: unless it is a boolean, it is also at most and at least that text. *)
Theorem C98_order : forall E d l r v a op, op = LESS_THAN_EQUAL \/ op = GREATER_THAN_EQUAL -> yields E d l v -> yields E d r (VStr (show v)) -> stands v a -> a <> BOOLEAN -> jvm_decimal v ->
  bool_eval E d (cond l op r) = Ok true /\ bool_eval E d (cond r op l) = Ok true.
Proof. exact own_order. Qed.
Print Assumptions C98_order.

(** C98: the text of a number denotes that number. *)
Theorem C98_number : forall v q, number v q -> jvm_decimal v -> written_number (show v) q.
Proof. exact number_written. Qed.
Print Assumptions C98_number.

(** C98: ordered against a decimal, the text of a number answers like the number. *)
Theorem C98_against_decimal : forall E d l l' r op v q b, In op [GREATER_THAN; GREATER_THAN_EQUAL; LESS_THAN; LESS_THAN_EQUAL] -> number v q -> jvm_decimal v ->
  yields E d l v -> yields E d l' (VStr (show v)) -> yields E d r (VDec b) ->
  bool_eval E d (cond l' op r) = bool_eval E d (cond l op r) /\ exists x, bool_eval E d (cond l op r) = Ok x.
Proof. exact own_against_decimal. Qed.
Print Assumptions C98_against_decimal.

Example C98_case :
  stands (VDec (BD 123 (-1))) DECIMAL /\ show (VDec (BD 123 (-1))) = J "1.23E+3" /\ jvm_decimal (VDec (BD 123 (-1))) /\ written_number (J "1.23E+3") (inject_Z 1230) /\ equals_own (VDec (BD 123 (-1))) = Ok true /\
  stands (VDate (Date 12020 1 31)) DATE /\ show (VDate (Date 12020 1 31)) = J "+12020-01-31" /\ equals_own (VDate (Date 12020 1 31)) = Ok true /\
  stands (VDate (Date (-5) 1 31)) DATE /\ show (VDate (Date (-5) 1 31)) = J "-0005-01-31" /\ equals_own (VDate (Date (-5) 1 31)) = Ok true /\
  stands (VDateTime (DateTime (Date 2024 1 31) 9 5 0 0)) DATETIME /\ show (VDateTime (DateTime (Date 2024 1 31) 9 5 0 0)) = J "2024-01-31T09:05" /\ equals_own (VDateTime (DateTime (Date 2024 1 31) 9 5 0 0)) = Ok true /\
  stands (VVer (J "1.10.2")) VERSION /\ equals_own (VVer (J "1.10.2")) = Ok true /\ stands (VBool true) BOOLEAN /\ equals_own (VBool true) = Ok true /\
  bool_eval witness_env [] (cond (lit (VDec (BD 123 (-1)))) LESS_THAN_EQUAL (lit (VStr (J "1.23E+3")))) = Ok true /\
  bool_eval witness_env [] (cond (lit (VStr (J "1.23E+3"))) LESS_THAN (lit (VDec (BD 12305 1)))) = Ok true.
Proof. exact own_case. Qed.

(** Ordered against a whole number the text of a number may be refused where the number is not. *)
Theorem C98_whole_refuted : exists E v w, (exists q, number v q) /\ jvm_decimal v /\ (exists p, number w p) /\
  bool_eval E [] (cond (lit v) GREATER_THAN (lit w)) = Ok true /\ bool_eval E [] (cond (lit (VStr (show v))) GREATER_THAN (lit w)) = Err InvalidDataType.
Proof. exact own_against_whole. Qed.
Print Assumptions C98_whole_refuted.

(** A value need not equal the text of a value it equals. *)
Theorem C98_other_refuted : exists E v w, (exists q, number v q /\ number w q) /\
  bool_eval E [] (cond (lit v) EQUALS (lit w)) = Ok true /\ bool_eval E [] (cond (lit v) EQUALS (lit (VStr (show w)))) = Ok false.
Proof. exact other_text. Qed.
Print Assumptions C98_other_refuted.
