(** The three static registries: B/operator/OperatorFactory.java, B/datatype/DataTypeFactory.java,
    B/function/FunctionFactory.java, and the constructors that fill them. *)
From Verif Require Import Base Values Ops Funcs.

(** A key of one of the four enum maps (OperatorFactory.java:30-33, DataTypeFactory.java:12, FunctionFactory.java:23). *)
Inductive rkey := KLogical (o : operator) | KArithmetic (o : operator) | KType (d : dtype) | KFunction (f : func).

Definition rkey_eq_dec (a b : rkey) : {a = b} + {a <> b}.
Proof. decide equality; decide equality. Defined.

(** An implementation object, identified by its class. *)
Definition impl := jstr.

(** OperatorFactory.initialize, B/operator/OperatorFactory.java:40-60: the puts, in order. *)
Definition operator_puts : list (rkey * impl) :=
  [ (KLogical EQUALS, J "EqualsOperator"); (KLogical GREATER_THAN, J "GreaterThanOperator");
    (KLogical GREATER_THAN_EQUAL, J "GreaterThanEqualOperator"); (KLogical LESS_THAN, J "LessThanOperator");
    (KLogical LESS_THAN_EQUAL, J "LessThanEqualOperator"); (KLogical NOT_EQUAL, J "NotEqualsOperator");
    (KLogical IN_OP, J "InOperator"); (KLogical CONTAINS_ALL, J "ContainsAllOperator");
    (KLogical CONTAINS_ANY, J "ContainsAnyOperator");
    (KArithmetic ADD, J "AddOperator"); (KArithmetic SUBTRACT, J "SubtractOperator");
    (KArithmetic DIVIDE, J "DivideOperator"); (KArithmetic MULTIPLY, J "MultiplyOperator");
    (KArithmetic EXPONENT, J "ExponentOperator"); (KArithmetic MODULUS, J "ModulusOperator");
    (KArithmetic UNARY, J "UnaryOperator") ].

(** DataTypeFactory.initialize, B/datatype/DataTypeFactory.java:18-27 *)
Definition type_puts : list (rkey * impl) :=
  [ (KType STRING, J "StringDataType"); (KType INTEGER, J "IntegerDataType"); (KType DECIMAL, J "DecimalDataType");
    (KType LONG, J "LongDataType"); (KType VERSION, J "VersionDataType"); (KType BOOLEAN, J "BooleanDataType");
    (KType DATE, J "DateDataType"); (KType DATETIME, J "DateTimeDataType") ].

(** FunctionFactory.initialize, B/function/FunctionFactory.java:29-40 *)
Definition function_puts : list (rkey * impl) :=
  [ (KFunction F_MIN, J "MinFunction"); (KFunction F_MAX, J "MaxFunction"); (KFunction F_AVG, J "AvgFunction");
    (KFunction F_SUM, J "SumFunction"); (KFunction F_MEAN, J "MeanFunction"); (KFunction F_MEDIAN, J "MedianFunction");
    (KFunction F_MODE, J "ModeFunction"); (KFunction F_INT, J "IntFunction"); (KFunction F_LEN, J "LenFunction");
    (KFunction F_DAYS_ELAPSED, J "DaysElapsedFunction") ].

(** The puts performed by the constructors: BoolParser (B/parser/antlr/BoolParser.java:15-17, OperatorFactory only),
    ArithmeticExpressionEvaluator (B/application/ArithmeticExpressionEvaluator.java:35-39: OperatorService, then
    FunctionEvaluatorService) and BooleanExpressionEvaluator (B/application/BooleanExpressionEvaluator.java:42-46:
    OperatorService, then an ArithmeticExpressionEvaluator). *)
Definition service_puts : list (rkey * impl) := type_puts ++ operator_puts.
Definition parser_puts : list (rkey * impl) := operator_puts.
Definition arith_evaluator_puts : list (rkey * impl) := service_puts ++ function_puts.
Definition bool_evaluator_puts : list (rkey * impl) := service_puts ++ arith_evaluator_puts.

(** The shared memory: the current entry of every key.  A put or get of one EnumMap slot is one reference write or read,
    hence atomic; in this first model memory is sequentially consistent (the second model, [execution], is not). *)
Definition registry := rkey -> option impl.
Definition empty_registry : registry := fun _ => None.
Definition put (k : rkey) (i : impl) (r : registry) : registry := fun k' => if rkey_eq_dec k k' then Some i else r k'.

(** One atomic action of a thread. *)
Inductive raction := Put (k : rkey) (i : impl) | Get (k : rkey).

(** A thread: what it still has to do, and what its lookups returned. *)
Record rthread := RThread { todo : list raction; seen : list (rkey * option impl) }.
Record rstate := RState { reg : registry; threads : list rthread }.

Definition run_action (a : raction) (r : registry) (t : rthread) (rest : list raction) : registry * rthread :=
  match a with
  | Put k i => (put k i r, RThread rest (seen t))
  | Get k => (r, RThread rest (seen t ++ [(k, r k)]))
  end.

(** Thread [i] performs its next action; scheduling a finished or unknown thread changes nothing. *)
Fixpoint update {A} (l : list A) (i : nat) (x : A) : list A :=
  match l, i with
  | [], _ => []
  | _ :: l', O => x :: l'
  | y :: l', S i' => y :: update l' i' x
  end.
Definition rstep (s : rstate) (i : nat) : rstate :=
  match nth_error (threads s) i with
  | Some t =>
      match todo t with
      | a :: rest => let (r, t') := run_action a (reg s) t rest in RState r (update (threads s) i t')
      | [] => s
      end
  | None => s
  end.
Definition rrun (s : rstate) (schedule : list nat) : rstate := fold_left rstep schedule s.

Definition puts_of (l : list (rkey * impl)) : list raction := map (fun e => Put (fst e) (snd e)) l.

(** The same programs under the Java memory model (JLS 17.4.5): without synchronisation a read may see any write that the
    happens-before relation does not rule out.  An event is a thread and a position in its program; the initial null of
    every slot is written by the class initialisation, which happens before everything.  The maps are static and final, and
    the fields of the implementation objects are final (B/operator/comparison/InOperator.java:18,
    ContainsAllOperator.java:15, ContainsAnyOperator.java:15, B/datatype/AbstractDataType.java:11) or absent, so
    an object seen through such a read is completely constructed (JLS 17.5). *)
Definition event := (nat * nat)%type.
Inductive source := Initial | Write (w : event).
Record execution := Execution { programs : list (list raction); happens_before : event -> event -> Prop; source_of : event -> source }.
Definition action_at (X : execution) (e : event) : option raction :=
  match nth_error (programs X) (fst e) with Some p => nth_error p (snd e) | None => None end.
(** happens-before consistency (JLS 17.4.5, 17.4.7) *)
Definition consistent (X : execution) : Prop :=
  (forall t i j, i < j -> happens_before X (t, i) (t, j)) /\
  forall e k, action_at X e = Some (Get k) ->
    match source_of X e with
    | Initial => forall w c, action_at X w = Some (Put k c) -> ~ happens_before X w e
    | Write w => (exists c, action_at X w = Some (Put k c)) /\ ~ happens_before X e w /\
        forall w' c, action_at X w' = Some (Put k c) -> ~ (happens_before X w w' /\ happens_before X w' e)
    end.
(** what a lookup finds *)
Definition found (X : execution) (e : event) : option impl :=
  match source_of X e with
  | Initial => None
  | Write w => match action_at X w with Some (Put _ c) => Some c | _ => None end
  end.
