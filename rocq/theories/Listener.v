(** The stack machine B/parser/antlr/BooleanFilterListener.java, driven by ANTLR's ParseTreeWalker (children first, then the
    exit method). *)
From Verif Require Import Base JNum Values Ops Funcs Ast Lexer Grammar.

(** currentNodes (top first), lastToken, tokenCount: B/parser/antlr/BooleanFilterListener.java:30-36 *)
Record lstate := LState { stack : list node; last_token : option token; token_count : nat }.

(** Operator.getOperatorFromSymbol(ctx.op.getText()).orElse(EQUALS), B/constant/Operator.java:38-53, on the operator
    tokens of the grammar (each symbol is the symbol of exactly one operator). *)
Definition operator_of (k : tkind) : operator :=
  match k with
  | T_GT => GREATER_THAN | T_GE => GREATER_THAN_EQUAL | T_LT => LESS_THAN | T_LE => LESS_THAN_EQUAL
  | T_EQ => EQUALS | T_NE => NOT_EQUAL
  | T_ADD => ADD | T_SUBTRACT => SUBTRACT | T_MULTIPLY => MULTIPLY | T_DIVIDE => DIVIDE | T_MODULUS => MODULUS
  | T_EXPONENT => EXPONENT
  | T_CONTAINS_ALL => CONTAINS_ALL | T_CONTAINS_ANY => CONTAINS_ANY
  | T_IN => IN_OP
  | _ => EQUALS
  end.

(** FunctionType.getArrayFunctionFromSymbol, B/constant/FunctionType.java:22-28 *)
Definition function_of (k : tkind) : option func :=
  match k with
  | T_MIN => Some F_MIN | T_MAX => Some F_MAX | T_AVG => Some F_AVG | T_SUM => Some F_SUM | T_MEAN => Some F_MEAN
  | T_MODE => Some F_MODE | T_MEDIAN => Some F_MEDIAN | T_LEN => Some F_LEN | T_INT => Some F_INT
  | T_DAYS_ELAPSED => Some F_DAYS_ELAPSED
  | _ => None
  end.

(** getDataType(Token), B/parser/antlr/BooleanFilterListener.java:232-250 *)
Definition token_data_type (t : token) : dtype :=
  match kind t with
  | T_DECIMAL => DECIMAL
  | T_INTEGER => numeric_data_type (text t)
  | T_APP_VERSION => VERSION
  | T_TRUE | T_FALSE => BOOLEAN
  | T_DATE => DATE
  | T_DATETIME => DATETIME
  | _ => STRING
  end.

(** getLogicalOperator, B/parser/antlr/BooleanFilterListener.java:252-261 *)
Definition logical_operator (k : tkind) : logop :=
  match k with T_AND => AND | T_OR => OR | _ => NOT end.

(** StringUtils.isBlank on the texts that occur here *)
Definition is_blank (s : jstr) : bool := forallb is_ws s.
Definition opt_is_blank (o : option jstr) : bool := match o with None => true | Some s => is_blank s end.

(** validateField and getField, B/parser/antlr/BooleanFilterListener.java:222-230 *)
Definition named_field (dflt : option jstr) (t : token) : res (option jstr) :=
  if is_blank (text t) && opt_is_blank dflt then Err InvalidExpression
  else Ok (if is_blank (text t) then dflt else Some (text t)).

(** mapTypesExpressionContext and mapTypesExpressionContextField, B/parser/antlr/BooleanFilterListener.java:128-143 *)
Definition map_types_token (dflt : option jstr) (t : token) : res node :=
  match kind t with
  | T_FIELD => Ok (NField (if is_blank (text t) then dflt else Some (text t)))
  | _ =>
      if is_blank (text t) then Ok (NField dflt)
      else v <- convert_value (text t) (token_data_type t) ;; Ok (NUnary (token_data_type t) v)
  end.
Definition map_types_empty (dflt : option jstr) : res node := Ok (NField dflt).

(** instanceof TypesExpressionContext, with the node mapTypesExpressionContext makes of it *)
Definition as_types (dflt : option jstr) (t : ptree) : option (res node) :=
  match t with
  | PTypes tok => Some (map_types_token dflt tok)
  | PEps _ => Some (map_types_empty dflt)
  | _ => None
  end.
Definition is_parent (t : ptree) : bool := match t with PParen _ => true | _ => false end.

(** java.util.Stack.pop *)
Definition pop (s : list node) : res (node * list node) :=
  match s with n :: s' => Ok (n, s') | [] => Err EmptyStack end.

(** !currentNodes.isEmpty() && (a side is parenthesised || !(peek is ComparisonNode or BooleanNode)),
    B/parser/antlr/BooleanFilterListener.java:159 *)
Definition top_is_cmp_or_bool (s : list node) : bool :=
  match s with NCmp _ _ _ _ :: _ | NBool _ _ _ :: _ => true | _ => false end.
Definition steals (l r : ptree) (s : list node) : bool :=
  match s with [] => false | _ => is_parent r || is_parent l || negb (top_is_cmp_or_bool s) end.

(** mapContextToNode and the map* methods it calls, B/parser/antlr/BooleanFilterListener.java:100-220.  They pop the
    listener's stack, so the remaining stack is returned.  getArrayElements (100-106) is [go]. *)
Fixpoint map_context (dflt : option jstr) (t : ptree) (s : list node) {struct t} : res (node * list node) :=
  let elements := fix go (l : list ptree) (s : list node) {struct l} : res (list node * list node) :=
    match l with
    | [] => Ok ([], s)
    | i :: l' =>
        ns <- map_context dflt i s ;;
        rs <- go l' (snd ns) ;;
        Ok (fst ns :: fst rs, snd rs)
    end in
  match t with
  | PTypes tok => n <- map_types_token dflt tok ;; Ok (n, s)
  | PEps _ => n <- map_types_empty dflt ;; Ok (n, s)
  | PArith l op r =>                                                    (* mapArithmeticExpressionContext, 176-198 *)
      match as_types dflt l, as_types dflt r with
      | Some ml, Some mr => a <- ml ;; b <- mr ;; Ok (NArith a (Some b) (operator_of (kind op)), s)
      | Some ml, None => a <- ml ;; br <- pop s ;; Ok (NArith a (Some (fst br)) (operator_of (kind op)), snd br)
      | None, Some mr => b <- mr ;; ar <- pop s ;; Ok (NArith (fst ar) (Some b) (operator_of (kind op)), snd ar)
      | None, None =>
          match s with
          | b :: a :: s' => Ok (NArith a (Some b) (operator_of (kind op)), s')
          | _ => Err InvalidExpression
          end
      end
  | PIn f neg _ items =>                                                (* mapInExpressionContext, 200-210 *)
      fld <- named_field dflt f ;;
      is <- elements items s ;;
      let n := NIn fld (fst is) in
      Ok (match neg with None => n | Some _ => NBool n None NOT end, snd is)
  | PFunc fn items =>                                                   (* mapArithmeticFunctionExpressionContext, 145-154 *)
      match function_of (kind fn) with
      | None => Err InvalidExpression
      | Some ft => is <- elements items s ;; Ok (NFunc ft (fst is), snd is)
      end
  | PCmp l op r =>                                                      (* mapComparatorExpressionContext, 156-174 *)
      let o := operator_of (kind op) in
      match steals l r s, as_types dflt l, as_types dflt r with
      | true, Some ml, _ => a <- ml ;; br <- pop s ;; Ok (NCmp a (fst br) o (token_data_type (start l)), snd br)
      | true, None, Some mr => b <- mr ;; ar <- pop s ;; Ok (NCmp (fst ar) b o (token_data_type (start r)), snd ar)
      | _, _, _ =>
          bs <- map_context dflt r s ;;
          as_ <- map_context dflt l (snd bs) ;;
          Ok (NCmp (fst as_) (fst bs) o (token_data_type (start r)), snd as_)
      end
  | PTo f lo _ hi =>                                                    (* mapToExpressionContext, 212-220 *)
      fld <- named_field dflt f ;;
      a <- convert_value (text lo) (token_data_type lo) ;;
      b <- convert_value (text hi) (token_data_type hi) ;;
      Ok (NRange fld a b (token_data_type lo) (token_data_type hi), s)
  | PFuncErr _ _ => Err InvalidExpression                               (* 146-148 *)
  | PToErr f lo => fld <- named_field dflt f ;; a <- convert_value (text lo) (token_data_type lo) ;; Err NullPointer
  | PToOdd f lo hi txt =>
      fld <- named_field dflt f ;;
      a <- convert_value (text lo) (token_data_type lo) ;;
      b <- convert_value txt (token_data_type hi) ;;
      Ok (NRange fld a b (token_data_type lo) (token_data_type hi), s)
  | PInErr f _ => fld <- named_field dflt f ;; Err NullPointer
  | PParen _ | PNot _ _ | PNeg _ | PArray _ _ _ | PBin _ _ _ | PBad _ | PArrayErr _ _ => Err InvalidExpression
  end.

(** getArrayElements, B/parser/antlr/BooleanFilterListener.java:100-106 *)
Fixpoint map_elements (dflt : option jstr) (l : list ptree) (s : list node) : res (list node * list node) :=
  match l with
  | [] => Ok ([], s)
  | i :: l' =>
      ns <- map_context dflt i s ;;
      rs <- map_elements dflt l' (snd ns) ;;
      Ok (fst ns :: fst rs, snd rs)
  end.

(** currentNodes.add(map...(ctx)) *)
Definition push_context (dflt : option jstr) (t : ptree) (st : lstate) : res lstate :=
  ns <- map_context dflt t (stack st) ;;
  Ok (LState (fst ns :: snd ns) (last_token st) (token_count st)).

(** exitTypesExpression, B/parser/antlr/BooleanFilterListener.java:293-297 *)
Definition exit_types (tok : token) (st : lstate) : lstate :=
  LState (stack st) (Some tok) (S (token_count st)).

(** exitUnaryArithmeticExpression, B/parser/antlr/BooleanFilterListener.java:63-69 *)
Definition exit_unary (dflt : option jstr) (t : ptree) (st : lstate) : res lstate :=
  match stack st with
  | NArith l r op :: s' =>
      Ok (LState (NArith (NArith l r op) None UNARY :: s') (last_token st) (token_count st))
  | s =>
      match as_types dflt t with
      | Some m => n <- m ;; Ok (LState (NArith n None UNARY :: s) (last_token st) (token_count st))
      | None => Err ClassCast
      end
  end.

(** exitNotExpression, B/parser/antlr/BooleanFilterListener.java:278-291 *)
Definition exit_not (st : lstate) : res lstate :=
  match stack st with
  | n :: s' => Ok (LState (NBool n None NOT :: s') (last_token st) (token_count st))
  | [] =>
      match last_token st with
      | None => Err InvalidExpression
      | Some t =>
          v <- convert_value (text t) (token_data_type t) ;;
          Ok (LState [NBool (NUnary (token_data_type t) v) None NOT] (last_token st) (token_count st))
      end
  end.

(** exitBinaryExpression, B/parser/antlr/BooleanFilterListener.java:299-310 *)
Definition exit_binary (op : token) (st : lstate) : res lstate :=
  match stack st with
  | b :: a :: s' => Ok (LState (NBool a (Some b) (logical_operator (kind op)) :: s') (last_token st) (token_count st))
  | _ => Err InvalidExpression
  end.

(** exitArrayExpression, B/parser/antlr/BooleanFilterListener.java:77-85 *)
Definition exit_array (dflt : option jstr) (f op : token) (items : list ptree) (st : lstate) : res lstate :=
  fld <- named_field dflt f ;;
  is <- map_elements dflt items (stack st) ;;
  Ok (LState (NArray fld (operator_of (kind op)) (fst is) :: snd is) (last_token st) (token_count st)).

(** ParseTreeWalker.walk over an expression *)
Fixpoint walk (dflt : option jstr) (t : ptree) (st : lstate) {struct t} : res lstate :=
  let walk_items := fix go (l : list ptree) (st : lstate) {struct l} : res lstate :=
    match l with
    | [] => Ok st
    | i :: l' => st' <- walk dflt i st ;; go l' st'
    end in
  match t with
  | PParen t' => walk dflt t' st
  | PNot _ t' => st' <- walk dflt t' st ;; exit_not st'
  | PNeg t' => st' <- walk dflt t' st ;; exit_unary dflt t' st'
  | PTypes tok => Ok (exit_types tok st)
  | PEps next => Ok (exit_types next st)
  | PTo _ _ _ _ => push_context dflt t st
  | PFunc _ items => st' <- walk_items items st ;; push_context dflt t st'
  | PIn _ _ _ items => st' <- walk_items items st ;; push_context dflt t st'
  | PArray f op items => st' <- walk_items items st ;; exit_array dflt f op items st'
  | PCmp l _ r | PArith l _ r =>
      st1 <- walk dflt l st ;; st2 <- walk dflt r st1 ;; push_context dflt t st2
  | PBin l op r => st1 <- walk dflt l st ;; st2 <- walk dflt r st1 ;; exit_binary op st2
  | PBad _ => Ok st
  | PFuncErr _ items => st' <- walk_items items st ;; push_context dflt t st'
  | PToErr _ _ | PToOdd _ _ _ _ | PInErr _ _ => push_context dflt t st
  | PArrayErr f _ => fld <- named_field dflt f ;; Err NullPointer
  end.

(** exitParse, B/parser/antlr/BooleanFilterListener.java:263-276 *)
Definition exit_parse (st : lstate) : res node :=
  match stack st with
  | n :: _ => Ok n
  | [] =>
      match token_count st, last_token st with
      | 1, Some t =>
          match kind t with
          | T_FIELD => Ok (NField (Some (text t)))
          | _ => v <- convert_value (text t) STRING ;; s <- to_string v ;; Ok (NUnary STRING (VStr s))
          end
      | _, _ => Err InvalidExpression
      end
  end.

Definition listen (dflt : option jstr) (t : ptree) : res node :=
  st <- walk dflt t (LState [] None 0) ;; exit_parse st.
