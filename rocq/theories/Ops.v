(** Comparison and arithmetic operators: B/operator/OperatorService.java, B/operator/comparison/*.java,
    B/operator/arithmetic/*.java. *)
From Verif Require Import Base JNum BigDec Dates Values.
Local Open Scope Z_scope.

(** B/constant/Operator.java:18-36 *)
Inductive operator :=
| EQUALS | GREATER_THAN | GREATER_THAN_EQUAL | LESS_THAN | LESS_THAN_EQUAL | NOT_EQUAL | IN_OP
| ADD | SUBTRACT | MULTIPLY | DIVIDE | MODULUS | EXPONENT | UNARY
| CONTAINS_ALL | CONTAINS_ANY.

(** What the library takes from the outside world: LocalDate.now() and Math.pow, the latter applied to the double
    values of two longs and of two BigDecimals (B/function/arithmetic/DaysElapsedFunction.java:45,
    B/operator/arithmetic/ExponentOperator.java:24-28). *)
Record env := Env {
  today : date;
  pow_long : Z -> Z -> dbl;
  pow_dec : bigdec -> bigdec -> dbl
}.

Definition all_types : list dtype := [STRING; INTEGER; LONG; DECIMAL; VERSION; BOOLEAN; DATE; DATETIME].
Definition mem_type (d : dtype) (l : list dtype) : bool := existsb (dtype_eqb d) l.

(** OperatorFactory's logical map, B/operator/OperatorFactory.java:43-51: does the operator have an entry? *)
Definition is_logical (op : operator) : bool :=
  match op with
  | EQUALS | GREATER_THAN | GREATER_THAN_EQUAL | LESS_THAN | LESS_THAN_EQUAL | NOT_EQUAL | IN_OP
  | CONTAINS_ALL | CONTAINS_ANY => true
  | _ => false
  end.

(** getAllowedContainerTypes of the comparison operators (e.g. EqualsOperator.java:46-49, ContainsAllOperator.java:47-50) *)
Definition logical_container (op : operator) : container :=
  match op with CONTAINS_ALL | CONTAINS_ANY => LIST | _ => PRIMITIVE end.

(** getAllowedDataTypes of the comparison operators (e.g. EqualsOperator.java:51-54, GreaterThanOperator.java:45-48) *)
Definition logical_types (op : operator) : list dtype :=
  match op with
  | GREATER_THAN | GREATER_THAN_EQUAL | LESS_THAN | LESS_THAN_EQUAL =>
      [INTEGER; LONG; DECIMAL; STRING; VERSION; DATE; DATETIME]
  | _ => all_types
  end.

(** EqualsOperator.getComparableDataType, B/operator/comparison/EqualsOperator.java:29-34 (same in NotEqualsOperator) *)
Definition equality_type (l r : dtype) : dtype := if priority r <? priority l then l else r.

(** NumericOperator.getComparableDataType, B/operator/comparison/NumericOperator.java:8-16 *)
Definition ordering_type (l r : dtype) : dtype :=
  if (numeric l && negb (numeric r)) || (negb (numeric l) && numeric r)
  then (if numeric l then l else r)
  else if priority r <? priority l then l else r.

(** NumericOperator.validate, B/operator/comparison/NumericOperator.java:18-32 *)
Definition ordering_validate (l : jval) (lt : dtype) (r : jval) (rt : dtype) : res unit :=
  if negb (numeric lt) && negb (numeric rt) then Ok tt
  else if numeric lt && numeric rt then Ok tt
  else
    _ <- (if negb (numeric lt)
          then v <- is_valid rt l ;; if v then Ok tt else Err InvalidDataType
          else Ok tt) ;;
    if negb (numeric rt)
    then v <- is_valid lt r ;; if v then Ok tt else Err InvalidDataType
    else Ok tt.

(** Both operands converted to the comparison type, left first, then compareTo. *)
Definition compare_as (t : dtype) (l r : jval) : res comparison :=
  x <- primitive_value t l ;; y <- primitive_value t r ;; compare_to x y.

(** EqualsOperator.evaluate, B/operator/comparison/EqualsOperator.java:17-27 *)
Definition eval_equals (l : jval) (lt : dtype) (r : evaluated) : res bool :=
  c <- compare_as (equality_type lt (snd r)) l (fst r) ;;
  Ok (match c with Eq => true | _ => false end).

(** NotEqualsOperator.evaluate, B/operator/comparison/NotEqualsOperator.java:17-27 *)
Definition eval_not_equals (l : jval) (lt : dtype) (r : evaluated) : res bool :=
  c <- compare_as (equality_type lt (snd r)) l (fst r) ;;
  Ok (match c with Eq => false | _ => true end).

(** GreaterThanOperator, GreaterThanEqualOperator, LessThanOperator, LessThanEqualOperator .evaluate
    (B/operator/comparison/GreaterThanOperator.java:17-28 and the same lines of the other three) *)
Definition eval_ordering (test : comparison -> bool) (l : jval) (lt : dtype) (r : evaluated) : res bool :=
  _ <- ordering_validate l lt (fst r) (snd r) ;;
  c <- compare_as (ordering_type lt (snd r)) l (fst r) ;;
  Ok (test c).

Definition is_gt (c : comparison) : bool := match c with Gt => true | _ => false end.
Definition is_ge (c : comparison) : bool := match c with Lt => false | _ => true end.
Definition is_lt (c : comparison) : bool := match c with Lt => true | _ => false end.
Definition is_le (c : comparison) : bool := match c with Gt => false | _ => true end.

(** InOperator.evaluate, B/operator/comparison/InOperator.java:20-25 *)
Definition eval_in (l : jval) (lt : dtype) (rs : list evaluated) : res bool := anyM (eval_equals l lt) rs.

(** ContainsAllOperator / ContainsAnyOperator .evaluate, B/operator/comparison/ContainsAllOperator.java:17-30,
    ContainsAnyOperator.java:17-30: the left operand is cast to List, each of its elements carries the data type of
    the whole left operand; every / some right operand must be IN it. *)
Definition eval_contains (all : bool) (l : jval) (lt : dtype) (rs : list evaluated) : res bool :=
  v <- container_is_valid LIST lt l ;;
  if v then
    match l with
    | VColl true items =>
        let arr := map (fun a => (a, lt)) items in
        let test := fun r : evaluated => eval_in (fst r) (snd r) arr in
        if all then allM test rs else anyM test rs
    | _ => Err ClassCast
    end
  else Ok false.

(** rightOperands.get(0); the callers always pass one. *)
Definition first_operand (rs : list evaluated) : res evaluated :=
  match rs with r :: _ => Ok r | [] => Err ArrayIndexOutOfBounds end.

(** AbstractOperator.evaluate, dispatched *)
Definition logical_evaluate (op : operator) (l : jval) (lt : dtype) (rs : list evaluated) : res bool :=
  match op with
  | EQUALS => r <- first_operand rs ;; eval_equals l lt r
  | NOT_EQUAL => r <- first_operand rs ;; eval_not_equals l lt r
  | GREATER_THAN => r <- first_operand rs ;; eval_ordering is_gt l lt r
  | GREATER_THAN_EQUAL => r <- first_operand rs ;; eval_ordering is_ge l lt r
  | LESS_THAN => r <- first_operand rs ;; eval_ordering is_lt l lt r
  | LESS_THAN_EQUAL => r <- first_operand rs ;; eval_ordering is_le l lt r
  | IN_OP => eval_in l lt rs
  | CONTAINS_ALL => eval_contains true l lt rs
  | CONTAINS_ANY => eval_contains false l lt rs
  | _ => Err NullPointer
  end.

(** OperatorService.evaluateLogicalOperator, B/operator/OperatorService.java:24-42 *)
Definition evaluate_logical (op : operator) (c : container) (l : jval) (lt : dtype) (rs : list evaluated) : res bool :=
  if negb (is_logical op) then Err NullPointer
  else if negb (container_eqb (logical_container op) c) then Err InvalidContainerType
  else if negb (mem_type lt (logical_types op)) then Err InvalidDataType
  else
    v <- container_is_valid c lt l ;;
    if negb v then Err InvalidDataType
    else if negb (forallb (fun r : evaluated => mem_type (snd r) (logical_types op)) rs) then Err InvalidDataType
    else logical_evaluate op l lt rs.

(** getAllowedDataTypes of the arithmetic operators (AddOperator.java:50-54 etc.); None: no such operator. *)
Definition arithmetic_types (op : operator) : option (list dtype) :=
  match op with
  | ADD => Some [INTEGER; LONG; DECIMAL; STRING; BOOLEAN; VERSION]
  | SUBTRACT | MULTIPLY | DIVIDE | EXPONENT | UNARY => Some [INTEGER; LONG; DECIMAL]
  | MODULUS => Some [INTEGER; LONG]
  | _ => None
  end.

(** Optional.get *)
Definition opt_get {A} (o : option A) : res A := match o with Some a => Ok a | None => Err NoSuchElement end.

Definition either (d l r : dtype) : bool := dtype_eqb l d || dtype_eqb r d.

(** AddOperator.evaluate, B/operator/arithmetic/AddOperator.java:19-32 *)
Definition eval_add (l : jval) (lt : dtype) (r : jval) (rt : dtype) : res jval :=
  if either STRING lt rt || either VERSION lt rt || either BOOLEAN lt rt then Ok (VStr (show l ++ show r))
  else if either DECIMAL lt rt then
    x <- opt_get (decimal_value l) ;; y <- opt_get (decimal_value r) ;; Ok (VDec (bd_add x y))
  else
    x <- opt_get (long_value l) ;; y <- opt_get (long_value r) ;; Ok (cast_long (wrap64 (x + y))).

(** SubtractOperator.evaluate, B/operator/arithmetic/SubtractOperator.java:19-32 *)
Definition eval_subtract (l : jval) (lt : dtype) (r : jval) (rt : dtype) : res jval :=
  if either DECIMAL lt rt then
    x <- opt_get (decimal_value l) ;; y <- opt_get (decimal_value r) ;; Ok (VDec (bd_sub x y))
  else if either LONG lt rt then
    x <- opt_get (long_value l) ;; y <- opt_get (long_value r) ;; Ok (VLong (wrap64 (x - y)))
  else
    x <- opt_get (integer_value l) ;; y <- opt_get (integer_value r) ;; Ok (VInt (wrap32 (x - y))).

(** MultiplyOperator.evaluate, B/operator/arithmetic/MultiplyOperator.java:19-28 *)
Definition eval_multiply (l : jval) (lt : dtype) (r : jval) (rt : dtype) : res jval :=
  if either DECIMAL lt rt then
    x <- opt_get (decimal_value l) ;; y <- opt_get (decimal_value r) ;; Ok (VDec (bd_mul x y))
  else
    x <- opt_get (long_value l) ;; y <- opt_get (long_value r) ;; Ok (cast_long (wrap64 (x * y))).

(** DivideOperator.evaluate, B/operator/arithmetic/DivideOperator.java:20-26 *)
Definition eval_divide (l r : jval) : res jval :=
  x <- opt_get (decimal_value l) ;; y <- opt_get (decimal_value r) ;;
  q <- bd_divide x y 3 RoundDown ;; cast_decimal q.

(** ModulusOperator.evaluate, B/operator/arithmetic/ModulusOperator.java:19-28; Java's % truncates toward zero. *)
Definition eval_modulus (l : jval) (lt : dtype) (r : jval) (rt : dtype) : res jval :=
  if either LONG lt rt then
    x <- opt_get (long_value l) ;; y <- opt_get (long_value r) ;;
    if y =? 0 then Err ArithmeticExc else Ok (VLong (Z.rem x y))
  else
    x <- opt_get (integer_value l) ;; y <- opt_get (integer_value r) ;;
    if y =? 0 then Err ArithmeticExc else Ok (VInt (Z.rem x y)).

(** ExponentOperator.evaluate, B/operator/arithmetic/ExponentOperator.java:19-29 *)
Definition eval_exponent (E : env) (l : jval) (lt : dtype) (r : jval) (rt : dtype) : res jval :=
  if either DECIMAL lt rt then
    x <- opt_get (decimal_value l) ;; y <- opt_get (decimal_value r) ;; cast_double (pow_dec E x y)
  else
    x <- opt_get (long_value l) ;; y <- opt_get (long_value r) ;; cast_double (pow_long E x y).

(** UnaryOperator.evaluate, B/operator/arithmetic/UnaryOperator.java:16-26: casts, no conversion. *)
Definition eval_unary (l : jval) (lt : dtype) : res jval :=
  match lt with
  | DECIMAL => match l with VDec d => Ok (VDec (bd_neg d)) | VNull => Err NullPointer | _ => Err ClassCast end
  | LONG => match l with VLong z => Ok (VLong (wrap64 (- z))) | VNull => Err NullPointer | _ => Err ClassCast end
  | _ => match l with VInt z => Ok (VInt (wrap32 (- z))) | VNull => Err NullPointer | _ => Err ClassCast end
  end.

(** OperatorService.evaluateArithmeticOperator, B/operator/OperatorService.java:44-63, with container PRIMITIVE (the
    only one its callers pass, and allowed by every operator).  [r = None] is the pair (null, null) passed for
    negation.  A null right operand skips only the validity check (line 59). *)
Definition evaluate_arithmetic (E : env) (op : operator) (l : jval) (lt : dtype) (r : option evaluated) : res jval :=
  match arithmetic_types op with
  | None => Err NullPointer
  | Some types =>
      if negb (mem_type lt types) then Err InvalidDataType
      else
        v <- is_valid lt l ;;
        if negb v then Err InvalidDataType
        else
          match r with
          | None => eval_unary l lt
          | Some (rv, rt) =>
              if negb (mem_type rt types) then Err InvalidDataType
              else
                w <- (match rv with VNull => Ok true | _ => is_valid rt rv end) ;;
                if negb w then Err InvalidDataType
                else
                  match op with
                  | ADD => eval_add l lt rv rt
                  | SUBTRACT => eval_subtract l lt rv rt
                  | MULTIPLY => eval_multiply l lt rv rt
                  | DIVIDE => eval_divide l rv
                  | MODULUS => eval_modulus l lt rv rt
                  | EXPONENT => eval_exponent E l lt rv rt
                  | _ => eval_unary l lt
                  end
          end
  end.
