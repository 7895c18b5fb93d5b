(** C97: exchanged operands, and equal values in each other's place. *)
From Coq Require Import QArith.
From Verif Require Import Base JNum BigDec Dates Version Values Ops Funcs Ast Eval SpecNum SpecDate SpecCompare CompareFacts CompareWitness SpecMixed SpecPlace PlaceFacts PlaceCases.
Local Open Scope Z_scope.

(** C97: l op r and r op' l come to the same, answer or refusal, op' being op read from the right. *)
Theorem C97_mirror : forall E d l r op v w a b, In op [EQUALS; NOT_EQUAL; GREATER_THAN; GREATER_THAN_EQUAL; LESS_THAN; LESS_THAN_EQUAL] ->
  yields E d l v -> yields E d r w -> stands v a -> stands w b ->
  bool_eval E d (cond l op r) = bool_eval E d (cond r (mirrored op) l).
Proof. exact mirror. Qed.
Print Assumptions C97_mirror.

Example C97_mirror_case : stands (VVer (J "1.5")) VERSION /\ stands (VStr (J "abc")) STRING /\ stands (VDec (BD 150 2)) DECIMAL /\ mirrored LESS_THAN_EQUAL = GREATER_THAN_EQUAL /\
  bool_eval witness_env [] (cond (lit (VVer (J "1.5"))) LESS_THAN_EQUAL (lit (VDec (BD 150 2)))) = Ok true /\
  bool_eval witness_env [] (cond (lit (VDec (BD 150 2))) GREATER_THAN_EQUAL (lit (VVer (J "1.5")))) = Ok true /\
  bool_eval witness_env [] (cond (lit (VStr (J "abc"))) LESS_THAN (lit (VInt 3))) = Err InvalidDataType /\
  bool_eval witness_env [] (cond (lit (VInt 3)) GREATER_THAN (lit (VStr (J "abc")))) = Err InvalidDataType.
Proof. exact mirror_case. Qed.

(** C97: every value equals itself, and is at most and at least itself unless it is a boolean. *)
Theorem C97_itself : forall E d l r v a, yields E d l v -> yields E d r v -> stands v a ->
  bool_eval E d (cond l EQUALS r) = Ok true /\ (a <> BOOLEAN -> bool_eval E d (cond l LESS_THAN_EQUAL r) = Ok true /\ bool_eval E d (cond l GREATER_THAN_EQUAL r) = Ok true).
Proof. exact itself. Qed.
Print Assumptions C97_itself.

(** C97: of two equal values of one family one may replace the other, on either side of every operator. *)
Theorem C97_replace : forall E d l r x v w u op, In op [EQUALS; NOT_EQUAL; GREATER_THAN; GREATER_THAN_EQUAL; LESS_THAN; LESS_THAN_EQUAL] ->
  one_family [v; w; u] -> yields E d l v -> yields E d r w -> yields E d x u -> bool_eval E d (cond l EQUALS r) = Ok true ->
  bool_eval E d (cond l op x) = bool_eval E d (cond r op x) /\ bool_eval E d (cond x op l) = bool_eval E d (cond x op r).
Proof. exact replace. Qed.
Print Assumptions C97_replace.

(** C97: within a family, values equal to the same value are equal. *)
Theorem C97_transitive : forall E d l r x v w u, one_family [v; w; u] -> yields E d l v -> yields E d r w -> yields E d x u ->
  bool_eval E d (cond l EQUALS r) = Ok true -> bool_eval E d (cond r EQUALS x) = Ok true -> bool_eval E d (cond l EQUALS x) = Ok true.
Proof. exact transitive. Qed.
Print Assumptions C97_transitive.

Example C97_case : one_family [VInt 5; VDec (BD 50 1); VLong 7] /\ one_family [VDate (Date 2024 1 31); VStr (J "2024-01-31"); VDate (Date 2024 3 1)] /\
  one_family [VVer (J "1.2"); VVer (J "1.2.0"); VVer (J "1.10")] /\
  bool_eval witness_env [] (cond (lit (VInt 5)) EQUALS (lit (VDec (BD 50 1)))) = Ok true /\
  bool_eval witness_env [] (cond (lit (VInt 5)) LESS_THAN (lit (VLong 7))) = Ok true /\
  bool_eval witness_env [] (cond (lit (VDec (BD 50 1))) LESS_THAN (lit (VLong 7))) = Ok true /\
  bool_eval witness_env [] (cond (lit (VDate (Date 2024 1 31))) EQUALS (lit (VStr (J "2024-01-31")))) = Ok true /\
  bool_eval witness_env [] (cond (lit (VVer (J "1.2"))) EQUALS (lit (VVer (J "1.2.0")))) = Ok true.
Proof. exact place_case. Qed.

(** Across families it fails: a text equals a decimal, the decimal equals a whole number, the text does not equal the whole number. *)
Theorem C97_text_refuted : exists E v w u, stands v STRING /\ ordinary w /\ ordinary u /\
  bool_eval E [] (cond (lit v) EQUALS (lit w)) = Ok true /\ bool_eval E [] (cond (lit w) EQUALS (lit u)) = Ok true /\ bool_eval E [] (cond (lit v) EQUALS (lit u)) = Ok false.
Proof. exact text_between. Qed.
Print Assumptions C97_text_refuted.

(** And two different versions equal the same decimal. *)
Theorem C97_version_refuted : exists E v w u, of_kind Versions v /\ ordinary w /\ of_kind Versions u /\
  bool_eval E [] (cond (lit v) EQUALS (lit w)) = Ok true /\ bool_eval E [] (cond (lit w) EQUALS (lit u)) = Ok true /\ bool_eval E [] (cond (lit v) EQUALS (lit u)) = Ok false.
Proof. exact decimal_between. Qed.
Print Assumptions C97_version_refuted.
