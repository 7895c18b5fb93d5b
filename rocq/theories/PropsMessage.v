(** Properties: what the messages of failures say. *)
From Coq Require Import QArith.
From Verif Require Import SpecRecover AnyText.
From Verif Require Import Base JNum BigDec Dates Values Ops Funcs Ast Eval Lexer Api SpecNum SpecCompare SpecArith SpecFunc SpecDate SpecMixed SpecCall SpecPath Reads SpecReads Messages SpecMessage
  CompareWitness MessageFacts.
Local Open Scope nat_scope.

(** C81: apart from the messages the outcomes are those of the evaluators. *)
Theorem C81_same : forall E d n, forget (bool_told E d n) = bool_eval E d n.
Proof. exact forget_bool. Qed.
Print Assumptions C81_same.
Theorem C81_same_arithmetic : forall E d n, forget (arith_told E d n) = arith_eval E d n.
Proof. exact forget_arith. Qed.
Print Assumptions C81_same_arithmetic.

(** C81: exactly the library's own exceptions bring a message of the library, and what it mentions occurs in the expression and is at fault. *)
Theorem C81_speaks : forall E d n e m, bool_told E d n = Throws e m ->
  (own e <-> m <> None) /\ forall s, m = Some s -> remark d (bool_fields n) (operators n) (calls n) e s.
Proof. exact bool_speaks. Qed.
Print Assumptions C81_speaks.
Theorem C81_speaks_arithmetic : forall E d n e m, arith_told E d n = Throws e m ->
  (own e <-> m <> None) /\ forall s, m = Some s -> remark d (arith_fields n) (operators n) (calls n) e s.
Proof. exact arith_speaks. Qed.
Print Assumptions C81_speaks_arithmetic.

(** C81: the key in "Data not found" is one the expression mentions, the data do not have it, and it is the last one that was looked up. *)
Theorem C81_missing : forall E d n s, bool_told E d n = Throws DataNotFound (Some s) ->
  exists key tr, s = J "Data not found for the key " ++ key /\ In key (bool_fields n) /\ absent d key /\
    snd (bool_act E (fun _ => (today E, d)) n 0) = tr ++ [Field key].
Proof. exact bool_missing. Qed.
Print Assumptions C81_missing.
Theorem C81_missing_arithmetic : forall E d n s, arith_told E d n = Throws DataNotFound (Some s) ->
  exists key tr, s = J "Data not found for the key " ++ key /\ In key (arith_fields n) /\ absent d key /\
    snd (arith_act E (fun _ => (today E, d)) n 0) = tr ++ [Field key].
Proof. exact arith_missing. Qed.
Print Assumptions C81_missing_arithmetic.

(** C81: the message of every refused comparison. *)
Theorem C81_comparison : forall E d l r op c v w a b m, accepts op c <> None -> yields E d l v -> yields E d r w -> stands v a -> stands w b ->
  (bool_told E d (cond l op r) = Throws InvalidDataType (Some m) <-> refusal op v w a b m).
Proof. exact refusal_exact. Qed.
Print Assumptions C81_comparison.

(** C81: of every refused operation and negation. *)
Theorem C81_operator : forall E d l r op v w a b m, arithmetic op -> arith_eval E d l = Ok v -> arith_eval E d r = Ok w -> argument_type v a -> argument_type w b ->
  (arith_told E d (bin l op r) = Throws InvalidDataType (Some m) <-> arithmetic_refusal op a b m).
Proof. exact arithmetic_exact. Qed.
Print Assumptions C81_operator.
Theorem C81_negation : forall E d l v a m, arith_eval E d l = Ok v -> argument_type v a ->
  (arith_told E d (neg l) = Throws InvalidDataType (Some m) <->
   ~ supported UNARY a /\ m = J "Invalid left operand data type " ++ type_name a ++ J " for operator " ++ operator_name UNARY).
Proof. exact negation_exact. Qed.
Print Assumptions C81_negation.

(** C81: and of every refused call. *)
Theorem C81_call : forall E d f items ms ts e m, arguments E d items ms -> Forall2 argument_type ms ts ->
  (arith_told E d (NFunc f items) = Throws e (Some m) <-> call_refusal f ms ts e m).
Proof. exact call_exact. Qed.
Print Assumptions C81_call.

(** C81: the message does not tell the sides apart: an operand of a wrong type on the right of an arithmetic operator is reported as if it stood on
    the left. *)
Theorem C81_side_refuted : forall E d l r op v w a b, arithmetic op -> arith_eval E d l = Ok v -> arith_eval E d r = Ok w ->
  argument_type v a -> argument_type w b -> supported op a -> ~ supported op b ->
  exists s, arith_told E d (bin l op r) = Throws InvalidDataType (Some s) /\ arith_told E d (bin r op l) = Throws InvalidDataType (Some s).
Proof. exact side_lost. Qed.
Print Assumptions C81_side_refuted.

(** C81: a NaN or an infinity is shown if it stands on the left, but on the right its type is shown in its place. *)
Theorem C81_value_left : forall E d l r op dbl t, arithmetic op -> op <> MODULUS -> arith_eval E d l = Ok (VFloat dbl t) -> (exists w, arith_eval E d r = Ok w) -> not_finite t ->
  arith_told E d (bin l op r) = Throws InvalidDataType (Some (J "Validation failed for the operator " ++ operator_name op ++ J " for the operand " ++ t)).
Proof. exact not_finite_left. Qed.
Print Assumptions C81_value_left.
Theorem C81_value_refuted : forall E d l r op v a dbl t, arithmetic op -> op <> MODULUS -> arith_eval E d l = Ok v -> argument_type v a -> supported op a ->
  arith_eval E d r = Ok (VFloat dbl t) -> not_finite t ->
  arith_told E d (bin l op r) = Throws InvalidDataType (Some (J "Validation failed for the operator " ++ operator_name op ++ J " for the operand DECIMAL")).
Proof. exact not_finite_right. Qed.
Print Assumptions C81_value_refuted.

(** C81: a field missing on the right of a comparison is not named at all. *)
Theorem C81_right_refuted : forall E d l op k v, yields E d l v -> absent d k -> to_lower k <> J "null" ->
  bool_told E d (cond l op (NField (Some k))) = Throws NoSuchElement None.
Proof. exact right_unnamed. Qed.
Print Assumptions C81_right_refuted.

(** C81: operators, types and functions are called what the documentation calls them, and no two alike. *)
Theorem C81_words : forall op t f s, (operator_name op = s <-> In (op, s) operator_words) /\ (type_name t = s <-> In (t, s) type_words) /\ (func_name f = s <-> In (f, s) function_words).
Proof. exact (fun op t f s => conj (operator_worded op s) (conj (type_worded t s) (function_worded f s))). Qed.
Print Assumptions C81_words.
Theorem C81_distinct : (forall o o', operator_name o = operator_name o' -> o = o') /\ (forall t t', type_name t = type_name t' -> t = t') /\ forall f f', func_name f = func_name f' -> f = f'.
Proof. exact words_distinct. Qed.
Print Assumptions C81_distinct.

(** C81: a condition given to the arithmetic evaluator is refused by the name of its kind. *)
Theorem C81_condition : forall E d n s, called n s -> arith_told E d n = Throws UnsupportedToken (Some (J "Unsupported Token " ++ s)).
Proof. exact condition_named. Qed.
Print Assumptions C81_condition.

(** Cases: parsed from texts and evaluated on the data below, with the messages in full. *)
Example C81_case : let d := [(J "n", VInt 7); (J "s", VStr (J "blue")); (J "b", VBool true); (J "l", VColl true [VInt 1; VStr (J "x")]); (J "f", VFloat true (J "NaN"))] in
  let told s := match parse_expression s None with Ok n => Some (bool_told witness_env d n) | Err _ => None end in
  let number s := match parse_expression s None with Ok n => Some (arith_told witness_env d n) | Err _ => None end in
  let fail e m := (e, Some m) in
  map told [J "n > 5 AND zz = 3"; J "b < 5"; J "n >= b"; J "s > 5"; J "n = zz"; J "n IN (1, zz)"; J "s CONTAINS_ANY (1, 2)"; J "l CONTAINS_ANY (1, 'x')"; J "'s'"] =
  map (fun p => Some (Throws (fst p) (snd p))) [fail DataNotFound (J "Data not found for the key zz"); fail InvalidDataType (J "Invalid left operand data type BOOLEAN for operator LESS_THAN");
    fail InvalidDataType (J "Invalid right operand data type BOOLEAN for operator GREATER_THAN_EQUAL"); fail InvalidDataType (J "Incompatible data types STRING and INTEGER");
    (NoSuchElement, None); fail DataNotFound (J "Data not found for the key zz"); fail InvalidDataType (J "Validation failed for the operator CONTAINS_ANY for the operand blue");
    fail HeterogeneousArray (J "Heterogeneous input of array not allowed"); fail InvalidUnaryOperand (J "Invalid operand data type in unary expression")] /\
  map number [J "n - s"; J "s - n"; J "f + n"; J "n + f"; J "min(n)"; J "int(n, n)"; J "sum(n, s)"; J "sum(f, n)"; J "days_elapsed('2024-02-30')"; J "n > 5"; J "7 / 0"; J "sum(n, y.z)"] =
  map (fun p => Some (Throws (fst p) (snd p))) [fail InvalidDataType (J "Invalid left operand data type STRING for operator SUBTRACT"); fail InvalidDataType (J "Invalid left operand data type STRING for operator SUBTRACT");
    fail InvalidDataType (J "Validation failed for the operator ADD for the operand NaN"); fail InvalidDataType (J "Validation failed for the operator ADD for the operand DECIMAL");
    fail InvalidContainerType (J "Invalid container type PRIMITIVE for function MIN"); fail InvalidContainerType (J "Invalid container type LIST for function INT");
    fail InvalidDataType (J "Invalid data type for function SUM"); fail InvalidDataType (J "Validation failed for the function SUM for the operand NaN");
    fail InvalidFunctionArgument (J "DAYS_ELAPSED function requires a valid date argument, got: 2024-02-30"); fail UnsupportedToken (J "Unsupported Token COMPARISON");
    (ArithmeticExc, None); fail DataNotFound (J "Data not found for the key y.z")].
Proof. exact message_cases. Qed.
(** Some of them as instances of the theorems. *)
Example C81_instances : let d := [(J "n", VInt 7); (J "s", VStr (J "blue")); (J "b", VBool true)] in let field k := NField (Some k) in
  yields witness_env d (field (J "s")) (VStr (J "blue")) /\ yields witness_env d (field (J "n")) (VInt 7) /\ stands (VStr (J "blue")) STRING /\ stands (VInt 7) INTEGER /\
  refusal GREATER_THAN (VStr (J "blue")) (VInt 7) STRING INTEGER (J "Incompatible data types STRING and INTEGER") /\
  (forall m, ~ refusal EQUALS (VStr (J "blue")) (VInt 7) STRING INTEGER m) /\
  refusal EQUALS (VInt 7) (VBool true) INTEGER BOOLEAN (J "Invalid data type for value true for data type INTEGER") /\
  arithmetic_refusal SUBTRACT INTEGER STRING (J "Invalid left operand data type STRING for operator SUBTRACT") /\
  call_refusal F_SUM [VInt 7; VStr (J "blue")] [INTEGER; STRING] InvalidDataType (J "Invalid data type for function SUM") /\ absent d (J "zz").
Proof. exact message_instances. Qed.
