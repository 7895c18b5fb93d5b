(** Specification of concurrent construction and use. *)
From Verif Require Import Base Values Ops Funcs Registry.

(** The class that must serve each key, by name. *)
Definition serving_class (k : rkey) : option impl :=
  match k with
  | KLogical EQUALS => Some (J "EqualsOperator")
  | KLogical NOT_EQUAL => Some (J "NotEqualsOperator")
  | KLogical GREATER_THAN => Some (J "GreaterThanOperator")
  | KLogical GREATER_THAN_EQUAL => Some (J "GreaterThanEqualOperator")
  | KLogical LESS_THAN => Some (J "LessThanOperator")
  | KLogical LESS_THAN_EQUAL => Some (J "LessThanEqualOperator")
  | KLogical IN_OP => Some (J "InOperator")
  | KLogical CONTAINS_ALL => Some (J "ContainsAllOperator")
  | KLogical CONTAINS_ANY => Some (J "ContainsAnyOperator")
  | KLogical _ => None
  | KArithmetic ADD => Some (J "AddOperator")
  | KArithmetic SUBTRACT => Some (J "SubtractOperator")
  | KArithmetic MULTIPLY => Some (J "MultiplyOperator")
  | KArithmetic DIVIDE => Some (J "DivideOperator")
  | KArithmetic MODULUS => Some (J "ModulusOperator")
  | KArithmetic EXPONENT => Some (J "ExponentOperator")
  | KArithmetic UNARY => Some (J "UnaryOperator")
  | KArithmetic _ => None
  | KType STRING => Some (J "StringDataType")
  | KType INTEGER => Some (J "IntegerDataType")
  | KType LONG => Some (J "LongDataType")
  | KType DECIMAL => Some (J "DecimalDataType")
  | KType VERSION => Some (J "VersionDataType")
  | KType BOOLEAN => Some (J "BooleanDataType")
  | KType DATE => Some (J "DateDataType")
  | KType DATETIME => Some (J "DateTimeDataType")
  | KFunction F_MIN => Some (J "MinFunction")
  | KFunction F_MAX => Some (J "MaxFunction")
  | KFunction F_AVG => Some (J "AvgFunction")
  | KFunction F_SUM => Some (J "SumFunction")
  | KFunction F_MEAN => Some (J "MeanFunction")
  | KFunction F_MODE => Some (J "ModeFunction")
  | KFunction F_MEDIAN => Some (J "MedianFunction")
  | KFunction F_INT => Some (J "IntFunction")
  | KFunction F_LEN => Some (J "LenFunction")
  | KFunction F_DAYS_ELAPSED => Some (J "DaysElapsedFunction")
  end.

(** What a thread does, in the user's terms: construct objects, and look things up while evaluating. *)
Inductive activity := NewParser | NewArithmeticEvaluator | NewBooleanEvaluator | LookUp (k : rkey).

Definition actions (a : activity) : list raction :=
  match a with
  | NewParser => puts_of parser_puts
  | NewArithmeticEvaluator => puts_of arith_evaluator_puts
  | NewBooleanEvaluator => puts_of bool_evaluator_puts
  | LookUp k => [Get k]
  end.
Definition program (l : list activity) : list raction := flat_map actions l.

(** The constructions after which a key can be looked up: that of an evaluator, and for an operator also that of a parser. *)
Definition operator_key (k : rkey) : Prop := match k with KLogical _ | KArithmetic _ => True | _ => False end.
Definition provides (a : activity) (k : rkey) : Prop :=
  match a with NewArithmeticEvaluator | NewBooleanEvaluator => True | NewParser => operator_key k | LookUp _ => False end.
(** The thread only looks up keys for which an implementation exists, and each after such a construction of its own. *)
Definition proper (l : list activity) : Prop :=
  forall before k after, l = before ++ LookUp k :: after -> serving_class k <> None /\ exists a, In a before /\ provides a k.

Definition initial (scripts : list (list activity)) : rstate :=
  RState empty_registry (map (fun l => RThread (program l) []) scripts).
