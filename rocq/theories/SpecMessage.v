(** Specification of what the messages of failures say. *)
From Coq Require Import QArith.
From Verif Require Import Base JNum BigDec Dates Values Ops Funcs Ast Eval SpecNum SpecCompare SpecArith SpecDate SpecMixed SpecCall SpecPath Messages.

(** The library's own exceptions. *)
Definition own (e : exn) : Prop :=
  In e [DataNotFound; HeterogeneousArray; InvalidContainerType; InvalidDataType; InvalidExpression; InvalidFunctionArgument; InvalidUnaryOperand; UnsupportedToken].

(** The operators and the functions that occur in an expression. *)
Fixpoint operators (n : node) : list operator :=
  let of_option := fun o : option node => match o with Some m => operators m | None => [] end in
  match n with
  | NField _ | NUnary _ _ => []
  | NArith l r op => op :: operators l ++ of_option r
  | NFunc _ items => flat_map operators items
  | NCmp l r op _ => op :: operators l ++ operators r
  | NRange _ _ _ _ _ => [GREATER_THAN_EQUAL; LESS_THAN_EQUAL]
  | NIn _ items => IN_OP :: flat_map operators items
  | NArray _ op items => op :: flat_map operators items
  | NBool l r _ => operators l ++ of_option r
  end.
Fixpoint calls (n : node) : list func :=
  let of_option := fun o : option node => match o with Some m => calls m | None => [] end in
  match n with
  | NField _ | NUnary _ _ | NRange _ _ _ _ _ => []
  | NFunc f items => f :: flat_map calls items
  | NArith l r _ | NBool l r _ => calls l ++ of_option r
  | NCmp l r _ _ => calls l ++ calls r
  | NIn _ items | NArray _ _ items => flat_map calls items
  end.

(** <, <=, > and >= *)
Definition orders (op : operator) : Prop := In op [GREATER_THAN; GREATER_THAN_EQUAL; LESS_THAN; LESS_THAN_EQUAL].
(** The types an operator refuses. *)
Definition refuses (op : operator) (t : dtype) : Prop :=
  (orders op /\ t = BOOLEAN) \/ ((arithmetic op \/ op = UNARY) /\ ~ supported op t).
(** Asked for by itself, the field is not found. *)
Definition absent (d : data) (k : jstr) : Prop := forall E, arith_eval E d (NField (Some k)) = Err DataNotFound.

(** The messages about an expression that looks up the fields [ks] and in which the operators [ops] and the functions [fs] occur. *)
Inductive remark (d : data) (ks : list jstr) (ops : list operator) (fs : list func) : exn -> jstr -> Prop :=
| says_key k : In k ks -> absent d k -> remark d ks ops fs DataNotFound (J "Data not found for the key " ++ k)
| says_left op t : In op ops -> refuses op t ->
    remark d ks ops fs InvalidDataType (J "Invalid left operand data type " ++ type_name t ++ J " for operator " ++ operator_name op)
| says_right op t : In op ops -> refuses op t ->
    remark d ks ops fs InvalidDataType (J "Invalid right operand data type " ++ type_name t ++ J " for operator " ++ operator_name op)
| says_operand op s : In op ops -> remark d ks ops fs InvalidDataType (J "Validation failed for the operator " ++ operator_name op ++ J " for the operand " ++ s)
| says_incompatible a b : numeric a <> numeric b -> remark d ks ops fs InvalidDataType (J "Incompatible data types " ++ type_name a ++ J " and " ++ type_name b)
| says_value v t : is_valid t v = Ok false -> remark d ks ops fs InvalidDataType (J "Invalid data type for value " ++ show v ++ J " for data type " ++ type_name t)
| says_container op c : In op ops -> logical_container op <> c ->
    remark d ks ops fs InvalidContainerType (J "Invalid left container type " ++ container_name c ++ J " for operator " ++ operator_name op)
| says_empty : fs <> [] -> remark d ks ops fs InvalidExpression (J "Empty items not allowed")
| says_function_single f : In f fs -> ~ takes f 1 -> remark d ks ops fs InvalidContainerType (J "Invalid container type PRIMITIVE for function " ++ func_name f)
| says_function_list f : In f fs -> ~ takes f 2 -> remark d ks ops fs InvalidContainerType (J "Invalid container type LIST for function " ++ func_name f)
| says_function_type f : In f fs -> (exists t, ~ func_supported f t) -> remark d ks ops fs InvalidDataType (J "Invalid data type for function " ++ func_name f)
| says_function_operand f v t : In f fs -> is_valid t v = Ok false ->
    remark d ks ops fs InvalidDataType (J "Validation failed for the function " ++ func_name f ++ J " for the operand " ++ show v)
| says_date s : In F_DAYS_ELAPSED fs -> get_data_type (VStr s) = DATE -> parse_iso_date s = None ->
    remark d ks ops fs InvalidFunctionArgument (J "DAYS_ELAPSED function requires a valid date argument, got: " ++ s)
| says_array op : In op ops -> remark d ks ops fs HeterogeneousArray (J "Heterogeneous input of array not allowed")
| says_unary k v : In k ks -> (forall E, arith_eval E d (NField (Some k)) = Ok v) -> (forall b, v <> VBool b) ->
    remark d ks ops fs InvalidUnaryOperand (J "Invalid operand data type in unary expression")
| says_token n : is_arith_base n = false -> remark d ks ops fs UnsupportedToken (J "Unsupported Token " ++ node_name n).

(** The value cannot be read as the type. *)
Definition unreadable (v : jval) (t : dtype) : Prop := forall m, ~ read_as v t m.

(** [refusal op v w a b m]: the comparison of [v], of type [a], with [w], of type [b], is refused with the message [m]. *)
Inductive refusal (op : operator) (v w : jval) (a b : dtype) : jstr -> Prop :=
| refuse_left : orders op -> a = BOOLEAN -> refusal op v w a b (J "Invalid left operand data type BOOLEAN for operator " ++ operator_name op)
| refuse_right : orders op -> a <> BOOLEAN -> b = BOOLEAN -> refusal op v w a b (J "Invalid right operand data type BOOLEAN for operator " ++ operator_name op)
| refuse_pair t : orders op -> number_like a <> number_like b -> meeting op a b = Some t -> unreadable v t \/ unreadable w t ->
    refusal op v w a b (J "Incompatible data types " ++ type_name a ++ J " and " ++ type_name b)
| refuse_first t : (orders op -> number_like a = number_like b) -> meeting op a b = Some t -> unreadable v t ->
    refusal op v w a b (J "Invalid data type for value " ++ show v ++ J " for data type " ++ type_name t)
| refuse_second t m : (orders op -> number_like a = number_like b) -> meeting op a b = Some t -> read_as v t m -> unreadable w t ->
    refusal op v w a b (J "Invalid data type for value " ++ show w ++ J " for data type " ++ type_name t).

(** The same for an arithmetic operation.  The side is said to be the left one in both cases. *)
Inductive arithmetic_refusal (op : operator) (a b : dtype) : jstr -> Prop :=
| arithmetic_left : ~ supported op a -> arithmetic_refusal op a b (J "Invalid left operand data type " ++ type_name a ++ J " for operator " ++ operator_name op)
| arithmetic_right : supported op a -> ~ supported op b ->
    arithmetic_refusal op a b (J "Invalid left operand data type " ++ type_name b ++ J " for operator " ++ operator_name op).

(** The same for a call with the arguments [ms] of the types [ts]; the last case is a date that is on no calendar or has a year of too many digits. *)
Inductive call_refusal (f : func) (ms : list jval) (ts : list dtype) : exn -> jstr -> Prop :=
| call_none : ms = [] -> call_refusal f ms ts InvalidExpression (J "Empty items not allowed")
| call_single : length ms = 1%nat -> ~ takes f 1 -> call_refusal f ms ts InvalidContainerType (J "Invalid container type PRIMITIVE for function " ++ func_name f)
| call_several : (2 <= length ms)%nat -> ~ takes f (length ms) -> call_refusal f ms ts InvalidContainerType (J "Invalid container type LIST for function " ++ func_name f)
| call_type : ms <> [] -> takes f (length ms) -> ~ Forall (func_supported f) ts -> call_refusal f ms ts InvalidDataType (J "Invalid data type for function " ++ func_name f)
| call_date s y m d : f = F_DAYS_ELAPSED -> ms = [VStr s] -> ts = [DATE] -> ymd_text y m d s -> ~ (calendar (Date y m d) /\ (length s <= 17)%nat) ->
    call_refusal f ms ts InvalidFunctionArgument (J "DAYS_ELAPSED function requires a valid date argument, got: " ++ s).

(** The words the messages use. *)
Definition operator_words : list (operator * jstr) :=
  [(EQUALS, J "EQUALS"); (NOT_EQUAL, J "NOT_EQUAL"); (GREATER_THAN, J "GREATER_THAN"); (GREATER_THAN_EQUAL, J "GREATER_THAN_EQUAL"); (LESS_THAN, J "LESS_THAN");
   (LESS_THAN_EQUAL, J "LESS_THAN_EQUAL"); (IN_OP, J "IN"); (CONTAINS_ALL, J "CONTAINS_ALL"); (CONTAINS_ANY, J "CONTAINS_ANY");
   (ADD, J "ADD"); (SUBTRACT, J "SUBTRACT"); (MULTIPLY, J "MULTIPLY"); (DIVIDE, J "DIVIDE"); (MODULUS, J "MODULUS"); (EXPONENT, J "EXPONENT"); (UNARY, J "UNARY")].
Definition type_words : list (dtype * jstr) :=
  [(STRING, J "STRING"); (INTEGER, J "INTEGER"); (LONG, J "LONG"); (DECIMAL, J "DECIMAL"); (VERSION, J "VERSION"); (BOOLEAN, J "BOOLEAN"); (DATE, J "DATE"); (DATETIME, J "DATETIME")].
Definition function_words : list (func * jstr) :=
  [(F_MIN, J "MIN"); (F_MAX, J "MAX"); (F_AVG, J "AVG"); (F_SUM, J "SUM"); (F_MEAN, J "MEAN"); (F_MODE, J "MODE"); (F_MEDIAN, J "MEDIAN"); (F_INT, J "INT"); (F_LEN, J "LEN");
   (F_DAYS_ELAPSED, J "DAYS_ELAPSED")].

(** What a condition is called when it is given to the arithmetic evaluator. *)
Inductive called : node -> jstr -> Prop :=
| called_comparison l r op t : called (NCmp l r op t) (J "COMPARISON")
| called_range a b c x y : called (NRange a b c x y) (J "NUMERIC_RANGE")
| called_in l items : called (NIn l items) (J "IN")
| called_array l op items : called (NArray l op items) (J "ARRAY")
| called_boolean l r op : called (NBool l r op) (J "BOOLEAN").
