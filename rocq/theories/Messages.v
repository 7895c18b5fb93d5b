(** The evaluators of Eval.v with the messages of the exceptions they throw (Throwable.getMessage of the cause of the failed Try).  Not modelled: the
    messages of the JDK's own exceptions.  Those thrown while the text is parsed are in ParseMessages.v. *)
From Verif Require Import Base JNum BigDec Dates Values Ops Funcs Ast Eval.
Local Open Scope list_scope.

(** The outcome of an evaluation: a value, or an exception with its message.  [None]: an exception of the JDK. *)
Inductive told (A : Type) :=
| Gives (a : A)
| Throws (e : exn) (m : option jstr).
Arguments Gives {A} _.
Arguments Throws {A} _ _.

(** The outcome without the message. *)
Definition forget {A} (x : told A) : res A := match x with Gives a => Ok a | Throws e _ => Err e end.

Definition tbind {A B} (x : told A) (k : A -> told B) : told B := match x with Gives a => k a | Throws e m => Throws e m end.
Notation "x <! e ;; k" := (tbind e (fun x => k)) (at level 61, e at next level, right associativity).

(** Code in which only the JDK throws. *)
Definition jdk {A} (r : res A) : told A := match r with Ok a => Gives a | Err e => Throws e None end.
(** Code in which the library throws [e], at one place, with the message [m]. *)
Definition exn_eqb (a b : exn) : bool :=
  match a, b with
  | InvalidDataType, InvalidDataType | InvalidFunctionArgument, InvalidFunctionArgument => true
  | _, _ => false
  end.
Definition throwing {A} (e : exn) (m : jstr) (r : res A) : told A :=
  match r with Ok a => Gives a | Err e' => Throws e' (if exn_eqb e e' then Some m else None) end.

(** Enum.toString and Enum.name: the names of the constants in B/constant/DataType.java:11-18, ContainerDataType.java:20-36, Operator.java:18-36,
    FunctionType.java:10-20, NodeType.java:8-16. *)
Definition type_name (t : dtype) : jstr :=
  match t with
  | STRING => J "STRING" | INTEGER => J "INTEGER" | LONG => J "LONG" | DECIMAL => J "DECIMAL" | VERSION => J "VERSION"
  | BOOLEAN => J "BOOLEAN" | DATE => J "DATE" | DATETIME => J "DATETIME"
  end.
Definition container_name (c : container) : jstr := match c with PRIMITIVE => J "PRIMITIVE" | LIST => J "LIST" end.
Definition operator_name (op : operator) : jstr :=
  match op with
  | EQUALS => J "EQUALS" | GREATER_THAN => J "GREATER_THAN" | GREATER_THAN_EQUAL => J "GREATER_THAN_EQUAL" | LESS_THAN => J "LESS_THAN"
  | LESS_THAN_EQUAL => J "LESS_THAN_EQUAL" | NOT_EQUAL => J "NOT_EQUAL" | IN_OP => J "IN"
  | ADD => J "ADD" | SUBTRACT => J "SUBTRACT" | MULTIPLY => J "MULTIPLY" | DIVIDE => J "DIVIDE" | MODULUS => J "MODULUS"
  | EXPONENT => J "EXPONENT" | UNARY => J "UNARY" | CONTAINS_ALL => J "CONTAINS_ALL" | CONTAINS_ANY => J "CONTAINS_ANY"
  end.
Definition func_name (f : func) : jstr :=
  match f with
  | F_MIN => J "MIN" | F_MAX => J "MAX" | F_AVG => J "AVG" | F_SUM => J "SUM" | F_MEAN => J "MEAN" | F_MODE => J "MODE" | F_MEDIAN => J "MEDIAN"
  | F_INT => J "INT" | F_LEN => J "LEN" | F_DAYS_ELAPSED => J "DAYS_ELAPSED"
  end.
Definition node_name (n : node) : jstr :=
  match n with
  | NField _ => J "FIELD" | NUnary _ _ => J "UNARY" | NArith _ _ _ => J "ARITHMETIC" | NFunc _ _ => J "ARITHMETIC_FUNCTION"
  | NCmp _ _ _ _ => J "COMPARISON" | NRange _ _ _ _ _ => J "NUMERIC_RANGE" | NIn _ _ => J "IN" | NArray _ _ _ => J "ARRAY"
  | NBool _ _ _ => J "BOOLEAN"
  end.

(** new DataNotFoundException(key), B/exception/DataNotFoundException.java:6-8 *)
Definition not_found {A} (k : jstr) : told A := Throws DataNotFound (Some (J "Data not found for the key " ++ k)).

(** ContainerDataType.PRIMITIVE.getValue, B/constant/ContainerDataType.java:22-29 *)
Definition primitive_told (t : dtype) (v : jval) : told jval :=
  throwing InvalidDataType (J "Invalid data type for value " ++ show v ++ J " for data type " ++ type_name t) (primitive_value t v).

(** NumericOperator.validate, B/operator/comparison/NumericOperator.java:18-32: both throws have the same message. *)
Definition validate_told (l : jval) (lt : dtype) (r : jval) (rt : dtype) : told unit :=
  throwing InvalidDataType (J "Incompatible data types " ++ type_name lt ++ J " and " ++ type_name rt) (ordering_validate l lt r rt).

Definition compare_told (t : dtype) (l r : jval) : told comparison :=
  x <! primitive_told t l ;; y <! primitive_told t r ;; jdk (compare_to x y).

(** EqualsOperator.evaluate, NotEqualsOperator.evaluate, B/operator/comparison/EqualsOperator.java:17-27, NotEqualsOperator.java:17-27 *)
Definition equals_told (l : jval) (lt : dtype) (r : evaluated) : told bool :=
  c <! compare_told (equality_type lt (snd r)) l (fst r) ;; Gives (match c with Eq => true | _ => false end).
Definition not_equals_told (l : jval) (lt : dtype) (r : evaluated) : told bool :=
  c <! compare_told (equality_type lt (snd r)) l (fst r) ;; Gives (match c with Eq => false | _ => true end).

(** GreaterThanOperator.evaluate and the other three, B/operator/comparison/GreaterThanOperator.java:17-28 *)
Definition ordering_told (test : comparison -> bool) (l : jval) (lt : dtype) (r : evaluated) : told bool :=
  _ <! validate_told l lt (fst r) (snd r) ;; c <! compare_told (ordering_type lt (snd r)) l (fst r) ;; Gives (test c).

(** Stream.anyMatch, allMatch *)
Fixpoint any_told {A} (f : A -> told bool) (l : list A) : told bool :=
  match l with [] => Gives false | a :: l' => b <! f a ;; if b then Gives true else any_told f l' end.
Fixpoint all_told {A} (f : A -> told bool) (l : list A) : told bool :=
  match l with [] => Gives true | a :: l' => b <! f a ;; if b then all_told f l' else Gives false end.

(** InOperator.evaluate, B/operator/comparison/InOperator.java:20-25 *)
Definition in_told (l : jval) (lt : dtype) (rs : list evaluated) : told bool := any_told (equals_told l lt) rs.

(** ContainsAllOperator.evaluate, ContainsAnyOperator.evaluate, B/operator/comparison/ContainsAllOperator.java:17-30, ContainsAnyOperator.java:17-30 *)
Definition contains_told (all : bool) (l : jval) (lt : dtype) (rs : list evaluated) : told bool :=
  v <! jdk (container_is_valid LIST lt l) ;;
  if v then
    match l with
    | VColl true items =>
        let arr := map (fun a => (a, lt)) items in
        let test := fun r : evaluated => in_told (fst r) (snd r) arr in
        if all then all_told test rs else any_told test rs
    | _ => Throws ClassCast None
    end
  else Gives false.

Definition logical_told (op : operator) (l : jval) (lt : dtype) (rs : list evaluated) : told bool :=
  match op with
  | EQUALS => r <! jdk (first_operand rs) ;; equals_told l lt r
  | NOT_EQUAL => r <! jdk (first_operand rs) ;; not_equals_told l lt r
  | GREATER_THAN => r <! jdk (first_operand rs) ;; ordering_told is_gt l lt r
  | GREATER_THAN_EQUAL => r <! jdk (first_operand rs) ;; ordering_told is_ge l lt r
  | LESS_THAN => r <! jdk (first_operand rs) ;; ordering_told is_lt l lt r
  | LESS_THAN_EQUAL => r <! jdk (first_operand rs) ;; ordering_told is_le l lt r
  | IN_OP => in_told l lt rs
  | CONTAINS_ALL => contains_told true l lt rs
  | CONTAINS_ANY => contains_told false l lt rs
  | _ => Throws NullPointer None
  end.

(** The three kinds of messages of OperatorService, B/operator/OperatorService.java:28-38, 48-60 *)
Definition bad_type (side : jstr) (t : dtype) (op : operator) : jstr :=
  J "Invalid " ++ side ++ J " operand data type " ++ type_name t ++ J " for operator " ++ operator_name op.
Definition bad_operand (op : operator) (what : jstr) : jstr :=
  J "Validation failed for the operator " ++ operator_name op ++ J " for the operand " ++ what.

(** rightOperands.forEach, B/operator/OperatorService.java:36-40 *)
Fixpoint right_types_told (op : operator) (rs : list evaluated) : told unit :=
  match rs with
  | [] => Gives tt
  | (_, t) :: rs' =>
      if mem_type t (logical_types op) then right_types_told op rs' else Throws InvalidDataType (Some (bad_type (J "right") t op))
  end.

(** OperatorService.evaluateLogicalOperator, B/operator/OperatorService.java:24-42 *)
Definition evaluate_logical_told (op : operator) (c : container) (l : jval) (lt : dtype) (rs : list evaluated) : told bool :=
  if negb (is_logical op) then Throws NullPointer None
  else if negb (container_eqb (logical_container op) c)
  then Throws InvalidContainerType (Some (J "Invalid left container type " ++ container_name c ++ J " for operator " ++ operator_name op))
  else if negb (mem_type lt (logical_types op)) then Throws InvalidDataType (Some (bad_type (J "left") lt op))
  else
    v <! jdk (container_is_valid c lt l) ;;
    if negb v then Throws InvalidDataType (Some (bad_operand op (show l)))
    else _ <! right_types_told op rs ;; logical_told op l lt rs.

(** OperatorService.evaluateArithmeticOperator, B/operator/OperatorService.java:44-63; line 57 says "left" of the right operand, line 60 gives
    its type where line 54 gives the left operand itself. *)
Definition evaluate_arithmetic_told (E : env) (op : operator) (l : jval) (lt : dtype) (r : option evaluated) : told jval :=
  match arithmetic_types op with
  | None => Throws NullPointer None
  | Some types =>
      if negb (mem_type lt types) then Throws InvalidDataType (Some (bad_type (J "left") lt op))
      else
        v <! jdk (is_valid lt l) ;;
        if negb v then Throws InvalidDataType (Some (bad_operand op (show l)))
        else
          match r with
          | None => jdk (eval_unary l lt)
          | Some (rv, rt) =>
              if negb (mem_type rt types) then Throws InvalidDataType (Some (bad_type (J "left") rt op))
              else
                w <! jdk (match rv with VNull => Ok true | _ => is_valid rt rv end) ;;
                if negb w then Throws InvalidDataType (Some (bad_operand op (type_name rt)))
                else
                  jdk match op with
                      | ADD => eval_add l lt rv rt
                      | SUBTRACT => eval_subtract l lt rv rt
                      | MULTIPLY => eval_multiply l lt rv rt
                      | DIVIDE => eval_divide l rv
                      | MODULUS => eval_modulus l lt rv rt
                      | EXPONENT => eval_exponent E l lt rv rt
                      | _ => eval_unary l lt
                      end
          end
  end.

(** DaysElapsedFunction.evaluate, B/function/arithmetic/DaysElapsedFunction.java:22-47.  Lines 25 and 42 are never reached: the service lets
    through one argument of type DATE only, that is a LocalDate or a String.  (The message of line 42 is therefore left without the class
    name.) *)
Definition days_elapsed_told (E : env) (items : list evaluated) : told jval :=
  match items with
  | [(VStr s, _)] => throwing InvalidFunctionArgument (J "DAYS_ELAPSED function requires a valid date argument, got: " ++ s) (eval_days_elapsed E items)
  | [_] => throwing InvalidFunctionArgument (J "DAYS_ELAPSED function requires a date argument, got: ") (eval_days_elapsed E items)
  | _ => throwing InvalidFunctionArgument (J "DAYS_ELAPSED function requires exactly one argument") (eval_days_elapsed E items)
  end.

Definition func_told (E : env) (f : func) (items : list evaluated) : told jval :=
  match f with F_DAYS_ELAPSED => days_elapsed_told E items | _ => jdk (func_evaluate E f items) end.

(** items.forEach, B/function/FunctionEvaluatorService.java:39-44 *)
Fixpoint validate_items_told (f : func) (items : list evaluated) : told unit :=
  match items with
  | [] => Gives tt
  | (v, t) :: l =>
      b <! jdk (is_valid t v) ;;
      if b then validate_items_told f l
      else Throws InvalidDataType (Some (J "Validation failed for the function " ++ func_name f ++ J " for the operand " ++ show v))
  end.

(** FunctionEvaluatorService.evaluateArithmeticFunction, B/function/FunctionEvaluatorService.java:23-46 *)
Definition evaluate_function_told (E : env) (f : func) (items : list evaluated) : told jval :=
  match items with
  | [] => Throws InvalidExpression (Some (J "Empty items not allowed"))
  | _ =>
      let c := if (1 <? length items)%nat then LIST else PRIMITIVE in
      if negb (existsb (container_eqb c) (func_containers f))
      then Throws InvalidContainerType (Some (J "Invalid container type " ++ container_name c ++ J " for function " ++ func_name f))
      else if negb (forallb (fun i : evaluated => mem_type (snd i) (func_types f)) items)
      then Throws InvalidDataType (Some (J "Invalid data type for function " ++ func_name f))
      else _ <! validate_items_told f items ;; func_told E f items
  end.

(** ... .orElseThrow(() -> new DataNotFoundException(field)) *)
Definition field_told (f : option jstr) (d : data) : told jval :=
  match f with
  | None => Throws NullPointer None
  | Some k => o <! jdk (get_value_from_map k d) ;; match o with Some v => Gives v | None => not_found k end
  end.

(** ArithmeticExpressionEvaluator.evaluateToken, B/application/ArithmeticExpressionEvaluator.java:50-121; new UnsupportedToken(token),
    B/exception/UnsupportedToken.java:6-8. *)
Fixpoint arith_told (E : env) (d : data) (n : node) {struct n} : told jval :=
  match n with
  | NArith l r op =>
      lv <! arith_told E d l ;;
      match op, r with
      | UNARY, _ => evaluate_arithmetic_told E op lv (get_data_type lv) None
      | _, None => Throws NullPointer None
      | _, Some r' =>
          rv <! arith_told E d r' ;;
          evaluate_arithmetic_told E op lv (get_data_type lv) (Some (rv, get_data_type rv))
      end
  | NFunc f items =>
      vs <! (fix go (l : list node) : told (list jval) :=
               match l with
               | [] => Gives []
               | i :: l' => v <! arith_told E d i ;; vs <! go l' ;; Gives (v :: vs)
               end) items ;;
      evaluate_function_told E f (map_to_evaluated vs)
  | NUnary _ v => Gives v
  | NField f => field_told f d
  | _ => Throws UnsupportedToken (Some (J "Unsupported Token " ++ node_name n))
  end.

(** BooleanExpressionEvaluator.evaluateToken, B/application/BooleanExpressionEvaluator.java:57-181.  In evaluateComparisonToken (line 95) the
    left operand is cast to FieldNode: only a field can be absent. *)
Definition left_name (n : node) : told jval :=
  match n with
  | NField (Some k) => not_found k
  | NField None => not_found (J "null")
  | _ => Throws ClassCast None
  end.

Fixpoint bool_told (E : env) (d : data) (n : node) {struct n} : told bool :=
  let value := fun m : node =>
    match m with
    | NField f => jdk (field_value f d)
    | NUnary _ v => jdk (optional_of v)
    | NArith _ _ _ | NFunc _ _ => v <! arith_told E d m ;; jdk (optional_of v)
    | _ => Gives None
    end in
  let resolve := fix go (l : list node) : told (list jval) :=
    match l with
    | [] => Gives []
    | i :: l' =>
        v <! (if is_arith_base i then arith_told E d i else b <! bool_told E d i ;; Gives (VBool b)) ;;
        vs <! go l' ;; Gives (v :: vs)
    end in
  match n with
  | NCmp l r op _ =>                                                    (* evaluateComparisonToken, 91-101 *)
      lo <! (if is_arith_base l then value l else b <! bool_told E d l ;; Gives (Some (VBool b))) ;;
      nc <! jdk (is_null_check l r op) ;;
      lv <! (match lo with
             | Some v => Gives v
             | None => if nc then Gives (VStr (J "null")) else left_name l
             end) ;;
      rv <! (if nc then Gives (VStr (J "null"))
             else
               ro <! (if is_arith_base r then value r else b <! bool_told E d r ;; Gives (Some (VBool b))) ;;
               match ro with Some v => Gives v | None => Throws NoSuchElement None end) ;;
      evaluate_logical_told op PRIMITIVE lv (get_data_type lv) [(rv, get_data_type rv)]
  | NRange f from to fdt tdt =>                                         (* evaluateNumericRangeToken, 103-116 *)
      v <! field_told f d ;;
      a <! evaluate_logical_told GREATER_THAN_EQUAL PRIMITIVE v (get_data_type v) [(from, fdt)] ;;
      b <! evaluate_logical_told LESS_THAN_EQUAL PRIMITIVE v (get_data_type v) [(to, tdt)] ;;
      Gives (a && b)
  | NIn f items =>                                                      (* evaluateInToken, 118-128 *)
      v <! field_told f d ;;
      vs <! resolve items ;;
      evaluate_logical_told IN_OP PRIMITIVE v (get_data_type v) (map_to_evaluated vs)
  | NArray f op items =>                                                (* evaluateArrayToken, 143-158 *)
      v <! field_told f d ;;
      vs <! resolve items ;;
      let es := map_to_evaluated vs in
      let heterogeneous :=
        match es with
        | [] => false
        | (_, t) :: es' => negb (forallb (fun e : evaluated => dtype_eqb (snd e) t) es')
        end in
      if heterogeneous then Throws HeterogeneousArray (Some (J "Heterogeneous input of array not allowed"))
      else evaluate_logical_told op LIST v (get_data_type v) es
  | NUnary dt v =>                                                      (* evaluateUnaryToken, 160-170 *)
      if dtype_eqb dt BOOLEAN then
        match v with VBool b => Gives b | VNull => Throws NullPointer None | _ => Throws ClassCast None end
      else
        s <! jdk (to_string v) ;;
        x <! field_told (Some s) d ;;
        match x with VBool b => Gives b | _ => Throws InvalidUnaryOperand (Some (J "Invalid operand data type in unary expression")) end
  | NBool l r op =>                                                     (* evaluateBooleanNode, 172-181 *)
      match op with
      | NOT => b <! bool_told E d l ;; Gives (negb b)
      | AND =>
          a <! bool_told E d l ;;
          if a then match r with Some r' => bool_told E d r' | None => Throws NullPointer None end else Gives false
      | OR =>
          a <! bool_told E d l ;;
          if a then Gives true else match r with Some r' => bool_told E d r' | None => Throws NullPointer None end
      end
  | NField _ | NArith _ _ _ | NFunc _ _ => Gives false                  (* default, 71-72 *)
  end.
