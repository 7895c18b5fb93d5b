(** The two evaluators on trees: B/application/BooleanExpressionEvaluator.java,
    B/application/ArithmeticExpressionEvaluator.java. *)
From Verif Require Import Base Values Ops Funcs Ast.

(** ValueUtils.getValueFromMap on a possibly null field name (null.split throws). *)
Definition field_value (f : option jstr) (d : data) : res (option jval) :=
  match f with None => Err NullPointer | Some k => get_value_from_map k d end.

(** ... .orElseThrow(() -> new DataNotFoundException(field)) *)
Definition field_value_or_fail (f : option jstr) (d : data) : res jval :=
  o <- field_value f d ;; match o with Some v => Ok v | None => Err DataNotFound end.

(** ArithmeticExpressionEvaluator.evaluateToken and the methods it dispatches to,
    B/application/ArithmeticExpressionEvaluator.java:50-121.  No value is an EvaluatedNode, so of the branches in
    evaluateArithmeticToken only the last ones (94-96, 116-119) are live. *)
Fixpoint arith_eval (E : env) (d : data) (n : node) {struct n} : res jval :=
  match n with
  | NArith l r op =>
      lv <- arith_eval E d l ;;
      match op, r with
      | UNARY, _ => evaluate_arithmetic E op lv (get_data_type lv) None
      | _, None => Err NullPointer
      | _, Some r' =>
          rv <- arith_eval E d r' ;;
          evaluate_arithmetic E op lv (get_data_type lv) (Some (rv, get_data_type rv))
      end
  | NFunc f items =>
      vs <- (fix go (l : list node) : res (list jval) :=
               match l with
               | [] => Ok []
               | i :: l' => v <- arith_eval E d i ;; vs <- go l' ;; Ok (v :: vs)
               end) items ;;
      evaluate_function E f (map_to_evaluated vs)
  | NUnary _ v => Ok v
  | NField f => field_value_or_fail f d
  | _ => Err UnsupportedToken
  end.

(** FieldNode.isNull, B/domain/FieldNode.java:22-24 *)
Definition field_is_null (f : option jstr) : res bool :=
  match f with None => Err NullPointer | Some s => Ok (equals_ignore_case s (J "null")) end.

Definition node_is_null_field (n : node) : res bool :=
  match n with NField f => field_is_null f | _ => Ok false end.

(** ComparisonNode.isNullCheck, B/domain/logical/ComparisonNode.java:34-36 *)
Definition is_null_check (l r : node) (op : operator) : res bool :=
  match op with
  | EQUALS | NOT_EQUAL => b <- node_is_null_field r ;; if b then Ok true else node_is_null_field l
  | _ => Ok false
  end.

(** BooleanExpressionEvaluator.evaluateToken and the methods it dispatches to,
    B/application/BooleanExpressionEvaluator.java:57-181.  [value] is getValue (76-89): None for a missing field;
    Optional.of rejects a null literal. *)
Definition optional_of (v : jval) : res (option jval) :=
  match v with VNull => Err NullPointer | _ => Ok (Some v) end.

Fixpoint bool_eval (E : env) (d : data) (n : node) {struct n} : res bool :=
  let value := fun m : node =>
    match m with
    | NField f => field_value f d
    | NUnary _ v => optional_of v
    | NArith _ _ _ | NFunc _ _ => v <- arith_eval E d m ;; optional_of v
    | _ => Ok None
    end in
  (* resolveArrayElements, 130-141 *)
  let resolve := fix go (l : list node) : res (list jval) :=
    match l with
    | [] => Ok []
    | i :: l' =>
        v <- (if is_arith_base i then arith_eval E d i else b <- bool_eval E d i ;; Ok (VBool b)) ;;
        vs <- go l' ;; Ok (v :: vs)
    end in
  match n with
  | NCmp l r op _ =>                                                    (* evaluateComparisonToken, 91-101 *)
      lo <- (if is_arith_base l then value l else b <- bool_eval E d l ;; Ok (Some (VBool b))) ;;
      nc <- is_null_check l r op ;;
      lv <- (match lo with
             | Some v => Ok v
             | None => if nc then Ok (VStr (J "null")) else Err DataNotFound
             end) ;;
      rv <- (if nc then Ok (VStr (J "null"))
             else
               ro <- (if is_arith_base r then value r else b <- bool_eval E d r ;; Ok (Some (VBool b))) ;;
               match ro with Some v => Ok v | None => Err NoSuchElement end) ;;
      evaluate_logical op PRIMITIVE lv (get_data_type lv) [(rv, get_data_type rv)]
  | NRange f from to fdt tdt =>                                         (* evaluateNumericRangeToken, 103-116 *)
      v <- field_value_or_fail f d ;;
      a <- evaluate_logical GREATER_THAN_EQUAL PRIMITIVE v (get_data_type v) [(from, fdt)] ;;
      b <- evaluate_logical LESS_THAN_EQUAL PRIMITIVE v (get_data_type v) [(to, tdt)] ;;
      Ok (a && b)
  | NIn f items =>                                                      (* evaluateInToken, 118-128 *)
      v <- field_value_or_fail f d ;;
      vs <- resolve items ;;
      evaluate_logical IN_OP PRIMITIVE v (get_data_type v) (map_to_evaluated vs)
  | NArray f op items =>                                                (* evaluateArrayToken, 143-158 *)
      v <- field_value_or_fail f d ;;
      vs <- resolve items ;;
      let es := map_to_evaluated vs in
      let heterogeneous :=
        match es with
        | [] => false
        | (_, t) :: es' => negb (forallb (fun e : evaluated => dtype_eqb (snd e) t) es')
        end in
      if heterogeneous then Err HeterogeneousArray
      else evaluate_logical op LIST v (get_data_type v) es
  | NUnary dt v =>                                                      (* evaluateUnaryToken, 160-170 *)
      if dtype_eqb dt BOOLEAN then
        match v with VBool b => Ok b | VNull => Err NullPointer | _ => Err ClassCast end
      else
        s <- to_string v ;;
        x <- field_value_or_fail (Some s) d ;;
        match x with VBool b => Ok b | _ => Err InvalidUnaryOperand end
  | NBool l r op =>                                                     (* evaluateBooleanNode, 172-181 *)
      match op with
      | NOT => b <- bool_eval E d l ;; Ok (negb b)
      | AND =>
          a <- bool_eval E d l ;;
          if a then match r with Some r' => bool_eval E d r' | None => Err NullPointer end else Ok false
      | OR =>
          a <- bool_eval E d l ;;
          if a then Ok true else match r with Some r' => bool_eval E d r' | None => Err NullPointer end
      end
  | NField _ | NArith _ _ _ | NFunc _ _ => Ok false                     (* default, 71-72 *)
  end.
