(** The evaluators of Eval.v with the accesses they make to the outside: look-ups in the caller's map and readings of
    the clock.  The map and the clock may change between two accesses (another thread, midnight). *)
From Verif Require Import Base Dates Values Ops Funcs Ast Eval Grammar Lexer Listener Api.

(** data.get along the path of a field name (B/util/ValueUtils.java:20-38); LocalDate.now()
    (B/function/arithmetic/DaysElapsedFunction.java:45). *)
Inductive access := Field (f : jstr) | Clock.

(** What the clock shows and what the map holds at the moment of each access; the accesses are numbered.  Simplification: the look-ups
    in nested maps along one dotted name are one access, and an object that has been looked up does not change. *)
Definition world := nat -> date * data.
Definition on_date (E : env) (t : date) : env := Env t (pow_long E) (pow_dec E).

(** A computation that starts at the access numbered [k]: its result and the accesses it made. *)
Definition act (A : Type) := nat -> res A * list access.
Definition pure {A} (r : res A) : act A := fun _ => (r, []).
Definition andthen {A B} (m : act A) (g : A -> act B) : act B := fun k =>
  match m k with
  | (Ok a, t) => let (r, t') := g a (k + length t) in (r, t ++ t')
  | (Err e, t) => (Err e, t)
  end.
Notation "x <~ m ;; c" := (andthen m (fun x => c)) (at level 61, m at next level, right associativity).

(** ValueUtils.getValueFromMap; a null name throws before the map is touched. *)
Definition field_act (w : world) (f : option jstr) : act (option jval) :=
  match f with None => pure (Err NullPointer) | Some s => fun k => (get_value_from_map s (snd (w k)), [Field s]) end.
Definition field_or_fail_act (w : world) (f : option jstr) : act jval :=
  o <~ field_act w f ;; pure (match o with Some v => Ok v | None => Err DataNotFound end).

(** FunctionEvaluatorService.evaluateArithmeticFunction; DAYS_ELAPSED reads the clock last, when nothing can fail any more. *)
Definition function_act (E : env) (w : world) (f : func) (items : list evaluated) : act jval :=
  match f with
  | F_DAYS_ELAPSED => fun k => let r := evaluate_function (on_date E (fst (w k))) f items in (r, match r with Ok _ => [Clock] | Err _ => [] end)
  | _ => pure (evaluate_function E f items)
  end.

(** ArithmeticExpressionEvaluator.evaluateToken, B/application/ArithmeticExpressionEvaluator.java:50-121 *)
Fixpoint arith_act (E : env) (w : world) (n : node) {struct n} : act jval :=
  match n with
  | NArith l r op =>
      lv <~ arith_act E w l ;;
      match op, r with
      | UNARY, _ => pure (evaluate_arithmetic E op lv (get_data_type lv) None)
      | _, None => pure (Err NullPointer)
      | _, Some r' =>
          rv <~ arith_act E w r' ;;
          pure (evaluate_arithmetic E op lv (get_data_type lv) (Some (rv, get_data_type rv)))
      end
  | NFunc f items =>
      vs <~ (fix go (l : list node) : act (list jval) :=
               match l with
               | [] => pure (Ok [])
               | i :: l' => v <~ arith_act E w i ;; vs <~ go l' ;; pure (Ok (v :: vs))
               end) items ;;
      function_act E w f (map_to_evaluated vs)
  | NUnary _ v => pure (Ok v)
  | NField f => field_or_fail_act w f
  | _ => pure (Err UnsupportedToken)
  end.

(** BooleanExpressionEvaluator.evaluateToken, B/application/BooleanExpressionEvaluator.java:57-181 *)
Fixpoint bool_act (E : env) (w : world) (n : node) {struct n} : act bool :=
  let value := fun m : node =>
    match m with
    | NField f => field_act w f
    | NUnary _ v => pure (optional_of v)
    | NArith _ _ _ | NFunc _ _ => v <~ arith_act E w m ;; pure (optional_of v)
    | _ => pure (Ok None)
    end in
  let resolve := fix go (l : list node) : act (list jval) :=
    match l with
    | [] => pure (Ok [])
    | i :: l' =>
        v <~ (if is_arith_base i then arith_act E w i else b <~ bool_act E w i ;; pure (Ok (VBool b))) ;;
        vs <~ go l' ;; pure (Ok (v :: vs))
    end in
  match n with
  | NCmp l r op _ =>                                                    (* evaluateComparisonToken, 91-101 *)
      lo <~ (if is_arith_base l then value l else b <~ bool_act E w l ;; pure (Ok (Some (VBool b)))) ;;
      nc <~ pure (is_null_check l r op) ;;
      lv <~ pure (match lo with
                  | Some v => Ok v
                  | None => if nc then Ok (VStr (J "null")) else Err DataNotFound
                  end) ;;
      rv <~ (if nc then pure (Ok (VStr (J "null")))
             else
               ro <~ (if is_arith_base r then value r else b <~ bool_act E w r ;; pure (Ok (Some (VBool b)))) ;;
               pure (match ro with Some v => Ok v | None => Err NoSuchElement end)) ;;
      pure (evaluate_logical op PRIMITIVE lv (get_data_type lv) [(rv, get_data_type rv)])
  | NRange f from to fdt tdt =>                                         (* evaluateNumericRangeToken, 103-116 *)
      v <~ field_or_fail_act w f ;;
      pure (a <- evaluate_logical GREATER_THAN_EQUAL PRIMITIVE v (get_data_type v) [(from, fdt)] ;;
            b <- evaluate_logical LESS_THAN_EQUAL PRIMITIVE v (get_data_type v) [(to, tdt)] ;;
            Ok (a && b))
  | NIn f items =>                                                      (* evaluateInToken, 118-128 *)
      v <~ field_or_fail_act w f ;;
      vs <~ resolve items ;;
      pure (evaluate_logical IN_OP PRIMITIVE v (get_data_type v) (map_to_evaluated vs))
  | NArray f op items =>                                                (* evaluateArrayToken, 143-158 *)
      v <~ field_or_fail_act w f ;;
      vs <~ resolve items ;;
      pure (let es := map_to_evaluated vs in
            let heterogeneous :=
              match es with
              | [] => false
              | (_, t) :: es' => negb (forallb (fun e : evaluated => dtype_eqb (snd e) t) es')
              end in
            if heterogeneous then Err HeterogeneousArray
            else evaluate_logical op LIST v (get_data_type v) es)
  | NUnary dt v =>                                                      (* evaluateUnaryToken, 160-170 *)
      if dtype_eqb dt BOOLEAN then
        pure (match v with VBool b => Ok b | VNull => Err NullPointer | _ => Err ClassCast end)
      else
        s <~ pure (to_string v) ;;
        x <~ field_or_fail_act w (Some s) ;;
        pure (match x with VBool b => Ok b | _ => Err InvalidUnaryOperand end)
  | NBool l r op =>                                                     (* evaluateBooleanNode, 172-181 *)
      match op with
      | NOT => b <~ bool_act E w l ;; pure (Ok (negb b))
      | AND =>
          a <~ bool_act E w l ;;
          if a then match r with Some r' => bool_act E w r' | None => pure (Err NullPointer) end else pure (Ok false)
      | OR =>
          a <~ bool_act E w l ;;
          if a then pure (Ok true) else match r with Some r' => bool_act E w r' | None => pure (Err NullPointer) end
      end
  | NField _ | NArith _ _ _ | NFunc _ _ => pure (Ok false)              (* default, 71-72 *)
  end.

(** BooleanExpressionEvaluator.evaluate, B/application/BooleanExpressionEvaluator.java:48-55, and
    ArithmeticExpressionEvaluator.evaluate, B/application/ArithmeticExpressionEvaluator.java:41-44.  Parsing accesses neither the map nor the clock. *)
Definition evaluate_boolean_act (E : env) (w : world) (expr : jstr) (dflt : option jstr) : act bool :=
  n <~ pure (parse_expression expr dflt) ;; bool_act E w n.
Definition evaluate_arith_act (E : env) (w : world) (expr : jstr) : act jval :=
  n <~ pure (parse_expression expr None) ;; arith_act E w n.
