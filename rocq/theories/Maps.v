(** Evaluation on any implementation of Map, on null in place of the map, and on null in place of the text. *)
From Verif Require Import Base Values Ops Funcs Ast Eval Lexer Grammar Listener Api Cache.

(** What a call of get on a map object may do: return null, return a value, or throw.  A value may be a map object itself;
    [self] is what it is when used as a value. *)
Inductive entry :=
| Plain (v : jval)
| Nested (self : jval) (get : jstr -> res (option entry)).
Definition map_object := jstr -> res (option entry).
Definition as_value (e : entry) : jval := match e with Plain v => v | Nested self _ => self end.

(** A HashMap with the given entries. *)
Definition hash_map (d : data) : map_object := fun k => Ok (option_map Plain (map_get k d)).
(** null in place of the map. *)
Definition null_map : map_object := fun _ => Err NullPointer.

(** ValueUtils.getValueFromMap, B/util/ValueUtils.java:20-38, on the split key; in data.get(keys[0]) the index is evaluated before the call.
    A ClassCastException of a nested map (a TreeMap whose keys are no strings) is caught in lines 28-35, that of the outermost map is not. *)
Fixpoint walk (keys : list jstr) (g : map_object) : res (option jval) :=
  match keys with
  | [] => Err ArrayIndexOutOfBounds
  | [k] => o <- g k ;; Ok (option_map as_value o)
  | k :: keys' =>
      o <- g k ;;
      match o with
      | Some (Plain (VMap es)) => get_path keys' es
      | Some (Nested _ g') => match walk keys' g' with Err ClassCast => Ok None | r => r end
      | _ => Ok None
      end
  end.
Definition look_up (g : map_object) (f : option jstr) : res (option jval) :=
  match f with None => Err NullPointer | Some k => walk (split_path k) g end.

(** ... .orElseThrow(() -> new DataNotFoundException(field)) *)
Definition look_up_or_fail (g : map_object) (f : option jstr) : res jval :=
  o <- look_up g f ;; match o with Some v => Ok v | None => Err DataNotFound end.

(** ArithmeticExpressionEvaluator.evaluateToken, B/application/ArithmeticExpressionEvaluator.java:50-121 *)
Fixpoint arith_on (E : env) (g : map_object) (n : node) {struct n} : res jval :=
  match n with
  | NArith l r op =>
      lv <- arith_on E g l ;;
      match op, r with
      | UNARY, _ => evaluate_arithmetic E op lv (get_data_type lv) None
      | _, None => Err NullPointer
      | _, Some r' =>
          rv <- arith_on E g r' ;;
          evaluate_arithmetic E op lv (get_data_type lv) (Some (rv, get_data_type rv))
      end
  | NFunc f items =>
      vs <- (fix go (l : list node) : res (list jval) :=
               match l with
               | [] => Ok []
               | i :: l' => v <- arith_on E g i ;; vs <- go l' ;; Ok (v :: vs)
               end) items ;;
      evaluate_function E f (map_to_evaluated vs)
  | NUnary _ v => Ok v
  | NField f => look_up_or_fail g f
  | _ => Err UnsupportedToken
  end.

(** BooleanExpressionEvaluator.evaluateToken, B/application/BooleanExpressionEvaluator.java:57-181 *)
Fixpoint bool_on (E : env) (g : map_object) (n : node) {struct n} : res bool :=
  let value := fun m : node =>
    match m with
    | NField f => look_up g f
    | NUnary _ v => optional_of v
    | NArith _ _ _ | NFunc _ _ => v <- arith_on E g m ;; optional_of v
    | _ => Ok None
    end in
  let resolve := fix go (l : list node) : res (list jval) :=
    match l with
    | [] => Ok []
    | i :: l' =>
        v <- (if is_arith_base i then arith_on E g i else b <- bool_on E g i ;; Ok (VBool b)) ;;
        vs <- go l' ;; Ok (v :: vs)
    end in
  match n with
  | NCmp l r op _ =>                                                    (* evaluateComparisonToken, 91-101 *)
      lo <- (if is_arith_base l then value l else b <- bool_on E g l ;; Ok (Some (VBool b))) ;;
      nc <- is_null_check l r op ;;
      lv <- (match lo with
             | Some v => Ok v
             | None => if nc then Ok (VStr (J "null")) else Err DataNotFound
             end) ;;
      rv <- (if nc then Ok (VStr (J "null"))
             else
               ro <- (if is_arith_base r then value r else b <- bool_on E g r ;; Ok (Some (VBool b))) ;;
               match ro with Some v => Ok v | None => Err NoSuchElement end) ;;
      evaluate_logical op PRIMITIVE lv (get_data_type lv) [(rv, get_data_type rv)]
  | NRange f from to fdt tdt =>                                         (* evaluateNumericRangeToken, 103-116 *)
      v <- look_up_or_fail g f ;;
      a <- evaluate_logical GREATER_THAN_EQUAL PRIMITIVE v (get_data_type v) [(from, fdt)] ;;
      b <- evaluate_logical LESS_THAN_EQUAL PRIMITIVE v (get_data_type v) [(to, tdt)] ;;
      Ok (a && b)
  | NIn f items =>                                                      (* evaluateInToken, 118-128 *)
      v <- look_up_or_fail g f ;;
      vs <- resolve items ;;
      evaluate_logical IN_OP PRIMITIVE v (get_data_type v) (map_to_evaluated vs)
  | NArray f op items =>                                                (* evaluateArrayToken, 143-158 *)
      v <- look_up_or_fail g f ;;
      vs <- resolve items ;;
      let es := map_to_evaluated vs in
      let heterogeneous :=
        match es with
        | [] => false
        | (_, t) :: es' => negb (forallb (fun e : evaluated => dtype_eqb (snd e) t) es')
        end in
      if heterogeneous then Err HeterogeneousArray
      else evaluate_logical op LIST v (get_data_type v) es
  | NUnary dt v =>                                                      (* evaluateUnaryToken, 160-170 *)
      if dtype_eqb dt BOOLEAN then
        match v with VBool b => Ok b | VNull => Err NullPointer | _ => Err ClassCast end
      else
        s <- to_string v ;;
        x <- look_up_or_fail g (Some s) ;;
        match x with VBool b => Ok b | _ => Err InvalidUnaryOperand end
  | NBool l r op =>                                                     (* evaluateBooleanNode, 172-181 *)
      match op with
      | NOT => b <- bool_on E g l ;; Ok (negb b)
      | AND =>
          a <- bool_on E g l ;;
          if a then match r with Some r' => bool_on E g r' | None => Err NullPointer end else Ok false
      | OR =>
          a <- bool_on E g l ;;
          if a then Ok true else match r with Some r' => bool_on E g r' | None => Err NullPointer end
      end
  | NField _ | NArith _ _ _ | NFunc _ _ => Ok false                     (* default, 71-72 *)
  end.

(** BoolParser.parseExpression with a text that may be null, B/parser/antlr/BoolParser.java:19-43: CharStreams.fromString(null) throws, inside Try.of. *)
Definition parse_nullable (expr : option jstr) (dflt : option jstr) : res node :=
  match expr with Some s => parse_expression s dflt | None => Err NullPointer end.

(** BooleanExpressionEvaluator.evaluate, B/application/BooleanExpressionEvaluator.java:48-55, and ArithmeticExpressionEvaluator.evaluate,
    B/application/ArithmeticExpressionEvaluator.java:41-44, on any text and map. *)
Definition evaluate_boolean_on (E : env) (expr : option jstr) (g : map_object) (dflt : option jstr) : res bool :=
  n <- parse_nullable expr dflt ;; bool_on E g n.
Definition evaluate_arith_on (E : env) (expr : option jstr) (g : map_object) : res jval :=
  n <- parse_nullable expr None ;; arith_on E g n.

(** CachedBoolParser.getNode with a text that may be null, B/parser/antlr/CachedBoolParser.java:28-31: null + "_" is "null_". *)
Definition nullable_key (expr : option jstr) (dflt : option jstr) : jstr :=
  match expr with Some s => s | None => J "null" end ++ J "_" ++ match dflt with Some d => d | None => [] end.
Inductive nevent := NCall (expr : option jstr) (dflt : option jstr) | NEvict (key : jstr).
Definition nstep (c : cache) (e : nevent) : cache * option (res node) :=
  match e with
  | NCall expr dflt =>
      let k := nullable_key expr dflt in
      match cache_find k c with
      | Some n => (c, Some (Ok n))
      | None =>
          match parse_nullable expr dflt with
          | Ok n => ((k, n) :: c, Some (Ok n))
          | Err x => (c, Some (Err x))
          end
      end
  | NEvict k => (filter (fun e => negb (jstr_eqb (fst e) k)) c, None)
  end.
Fixpoint nrun (c : cache) (es : list nevent) : cache * list (option (res node)) :=
  match es with
  | [] => (c, [])
  | e :: es' => let (c1, o) := nstep c e in let (c2, os) := nrun c1 es' in (c2, o :: os)
  end.
