(** The default locale of the Java virtual machine.  String.toLowerCase() and String.toUpperCase() without an argument use
    it, and the library looks operators and functions up by their case-converted symbols.  Listener.v goes by the kind of
    the token instead; here is the listener as the code has it, in any default locale. *)
From Verif Require Import Base JNum Values Ops Funcs Ast Eval Lexer Grammar Recover Listener Api.

(** String.toLowerCase and toUpperCase make three cases of the language of the locale: Turkish and Azeri, Lithuanian, and
    every other.  Lithuanian differs only on letters with combining accents, so it counts as [Common] here. *)
Inductive locale := Common | Turkic.

(** String.toLowerCase() on ASCII characters: in Turkish and Azeri the capital I becomes a dotless i (U+0131).  Simplified:
    any other character is left alone; the texts it is applied to are operator symbols, which are ASCII. *)
Definition lower_char_in (L : locale) (c : jchar) : jchar :=
  match L with
  | Turkic => if (c =? ch "I")%N then 305%N else lower_char c
  | Common => lower_char c
  end.
(** String.toUpperCase() on ASCII characters: in Turkish and Azeri the small i becomes a dotted capital I (U+0130).  The same
    simplification; the texts it is applied to are function names, which are ASCII. *)
Definition upper_char_in (L : locale) (c : jchar) : jchar :=
  match L with
  | Turkic => if (c =? ch "i")%N then 304%N else if is_lower c then (c - 32)%N else c
  | Common => if is_lower c then (c - 32)%N else c
  end.
Definition lower_in (L : locale) : jstr -> jstr := map (lower_char_in L).
Definition upper_in (L : locale) : jstr -> jstr := map (upper_char_in L).

(** getSymbol of the operators: EqualsOperator.java:42-44, GreaterThanOperator.java:36-38, GreaterThanEqualOperator.java:36-38,
    LessThanOperator.java:36-38, LessThanEqualOperator.java:36-38, NotEqualsOperator.java:42-44, InOperator.java:33-35,
    ContainsAllOperator.java:38-40, ContainsAnyOperator.java:38-40 in B/operator/comparison, in the order of the enum
    (B/constant/Operator.java:18-36), which is the order of the EnumMap (B/operator/OperatorFactory.java:31, 68-70). *)
Definition logical_symbol_table : list (operator * jstr) :=
  [ (EQUALS, J "="); (GREATER_THAN, J ">"); (GREATER_THAN_EQUAL, J ">="); (LESS_THAN, J "<"); (LESS_THAN_EQUAL, J "<=");
    (NOT_EQUAL, J "!="); (IN_OP, J "IN"); (CONTAINS_ALL, J "CONTAINS_ALL"); (CONTAINS_ANY, J "CONTAINS_ANY") ].
(** AddOperator.java:40-42, SubtractOperator.java:40-42, MultiplyOperator.java:36-38, DivideOperator.java:34-36,
    ModulusOperator.java:36-38, ExponentOperator.java:37-39, UnaryOperator.java:34-36 in B/operator/arithmetic, in the order
    of the enum; B/operator/OperatorFactory.java:33-34, 72-74 *)
Definition arithmetic_symbol_table : list (operator * jstr) :=
  [ (ADD, J "+"); (SUBTRACT, J "-"); (MULTIPLY, J "*"); (DIVIDE, J "/"); (MODULUS, J "%"); (EXPONENT, J "^"); (UNARY, J "UNARY") ].

(** Operator.getOperatorFromSymbol, B/constant/Operator.java:38-53 *)
Definition find_symbol (L : locale) (w : jstr) (l : list (operator * jstr)) : option operator :=
  option_map fst (find (fun p => jstr_eqb (lower_in L (snd p)) (lower_in L w)) l).
Definition operator_from_symbol (L : locale) (w : jstr) : option operator :=
  match find_symbol L w logical_symbol_table with Some o => Some o | None => find_symbol L w arithmetic_symbol_table end.
(** .orElse(Operator.EQUALS), B/parser/antlr/BooleanFilterListener.java:82, 157, 177 *)
Definition operator_in (L : locale) (w : jstr) : operator :=
  match operator_from_symbol L w with Some o => o | None => EQUALS end.

(** FunctionType and getArrayFunctionFromSymbol, B/constant/FunctionType.java:10-28 *)
Definition function_name_table : list (func * jstr) :=
  [ (F_MIN, J "MIN"); (F_MAX, J "MAX"); (F_AVG, J "AVG"); (F_SUM, J "SUM"); (F_MEAN, J "MEAN"); (F_MODE, J "MODE");
    (F_MEDIAN, J "MEDIAN"); (F_INT, J "INT"); (F_LEN, J "LEN"); (F_DAYS_ELAPSED, J "DAYS_ELAPSED") ].
Definition function_in (L : locale) (w : jstr) : option func :=
  option_map fst (find (fun p => jstr_eqb (snd p) (upper_in L w)) function_name_table).

(** BooleanDataType.isBooleanType, B/datatype/BooleanDataType.java:21-31, on a text *)
Definition boolean_text_in (L : locale) (w : jstr) : option bool :=
  if jstr_eqb (lower_in L w) (J "true") then Some true
  else if jstr_eqb (lower_in L w) (J "false") then Some false else None.

(** mapContextToNode and the map* methods, B/parser/antlr/BooleanFilterListener.java:100-220, as [map_context] *)
Fixpoint map_context_in (L : locale) (dflt : option jstr) (t : ptree) (s : list node) {struct t} : res (node * list node) :=
  let elements := fix go (l : list ptree) (s : list node) {struct l} : res (list node * list node) :=
    match l with
    | [] => Ok ([], s)
    | i :: l' =>
        ns <- map_context_in L dflt i s ;;
        rs <- go l' (snd ns) ;;
        Ok (fst ns :: fst rs, snd rs)
    end in
  match t with
  | PTypes tok => n <- map_types_token dflt tok ;; Ok (n, s)
  | PEps _ => n <- map_types_empty dflt ;; Ok (n, s)
  | PArith l op r =>                                                    (* mapArithmeticExpressionContext, 176-198 *)
      match as_types dflt l, as_types dflt r with
      | Some ml, Some mr => a <- ml ;; b <- mr ;; Ok (NArith a (Some b) (operator_in L (text op)), s)
      | Some ml, None => a <- ml ;; br <- pop s ;; Ok (NArith a (Some (fst br)) (operator_in L (text op)), snd br)
      | None, Some mr => b <- mr ;; ar <- pop s ;; Ok (NArith (fst ar) (Some b) (operator_in L (text op)), snd ar)
      | None, None =>
          match s with
          | b :: a :: s' => Ok (NArith a (Some b) (operator_in L (text op)), s')
          | _ => Err InvalidExpression
          end
      end
  | PIn f neg _ items =>                                                (* mapInExpressionContext, 200-210 *)
      fld <- named_field dflt f ;;
      is <- elements items s ;;
      let n := NIn fld (fst is) in
      Ok (match neg with None => n | Some _ => NBool n None NOT end, snd is)
  | PFunc fn items =>                                                   (* mapArithmeticFunctionExpressionContext, 145-154 *)
      match function_in L (text fn) with
      | None => Err InvalidExpression
      | Some ft => is <- elements items s ;; Ok (NFunc ft (fst is), snd is)
      end
  | PCmp l op r =>                                                      (* mapComparatorExpressionContext, 156-174 *)
      let o := operator_in L (text op) in
      match steals l r s, as_types dflt l, as_types dflt r with
      | true, Some ml, _ => a <- ml ;; br <- pop s ;; Ok (NCmp a (fst br) o (token_data_type (start l)), snd br)
      | true, None, Some mr => b <- mr ;; ar <- pop s ;; Ok (NCmp (fst ar) b o (token_data_type (start r)), snd ar)
      | _, _, _ =>
          bs <- map_context_in L dflt r s ;;
          as_ <- map_context_in L dflt l (snd bs) ;;
          Ok (NCmp (fst as_) (fst bs) o (token_data_type (start r)), snd as_)
      end
  | PTo f lo _ hi =>                                                    (* mapToExpressionContext, 212-220 *)
      fld <- named_field dflt f ;;
      a <- convert_value (text lo) (token_data_type lo) ;;
      b <- convert_value (text hi) (token_data_type hi) ;;
      Ok (NRange fld a b (token_data_type lo) (token_data_type hi), s)
  | PFuncErr _ _ => Err InvalidExpression                               (* 146-148 *)
  | PToErr f lo => fld <- named_field dflt f ;; a <- convert_value (text lo) (token_data_type lo) ;; Err NullPointer
  | PToOdd f lo hi txt =>
      fld <- named_field dflt f ;;
      a <- convert_value (text lo) (token_data_type lo) ;;
      b <- convert_value txt (token_data_type hi) ;;
      Ok (NRange fld a b (token_data_type lo) (token_data_type hi), s)
  | PInErr f _ => fld <- named_field dflt f ;; Err NullPointer
  | PParen _ | PNot _ _ | PNeg _ | PArray _ _ _ | PBin _ _ _ | PBad _ | PArrayErr _ _ => Err InvalidExpression
  end.

(** getArrayElements, B/parser/antlr/BooleanFilterListener.java:100-106 *)
Fixpoint map_elements_in (L : locale) (dflt : option jstr) (l : list ptree) (s : list node) : res (list node * list node) :=
  match l with
  | [] => Ok ([], s)
  | i :: l' =>
      ns <- map_context_in L dflt i s ;;
      rs <- map_elements_in L dflt l' (snd ns) ;;
      Ok (fst ns :: fst rs, snd rs)
  end.

(** currentNodes.add(map...(ctx)), B/parser/antlr/BooleanFilterListener.java:58-75, 87-98 *)
Definition push_context_in (L : locale) (dflt : option jstr) (t : ptree) (st : lstate) : res lstate :=
  ns <- map_context_in L dflt t (stack st) ;;
  Ok (LState (fst ns :: snd ns) (last_token st) (token_count st)).

(** exitArrayExpression, B/parser/antlr/BooleanFilterListener.java:77-85 *)
Definition exit_array_in (L : locale) (dflt : option jstr) (f op : token) (items : list ptree) (st : lstate) : res lstate :=
  fld <- named_field dflt f ;;
  is <- map_elements_in L dflt items (stack st) ;;
  Ok (LState (NArray fld (operator_in L (text op)) (fst is) :: snd is) (last_token st) (token_count st)).

(** ParseTreeWalker.walk over an expression, as [walk] *)
Fixpoint walk_locale (L : locale) (dflt : option jstr) (t : ptree) (st : lstate) {struct t} : res lstate :=
  let walk_items := fix go (l : list ptree) (st : lstate) {struct l} : res lstate :=
    match l with
    | [] => Ok st
    | i :: l' => st' <- walk_locale L dflt i st ;; go l' st'
    end in
  match t with
  | PParen t' => walk_locale L dflt t' st
  | PNot _ t' => st' <- walk_locale L dflt t' st ;; exit_not st'
  | PNeg t' => st' <- walk_locale L dflt t' st ;; exit_unary dflt t' st'
  | PTypes tok => Ok (exit_types tok st)
  | PEps next => Ok (exit_types next st)
  | PTo _ _ _ _ => push_context_in L dflt t st
  | PFunc _ items => st' <- walk_items items st ;; push_context_in L dflt t st'
  | PIn _ _ _ items => st' <- walk_items items st ;; push_context_in L dflt t st'
  | PArray f op items => st' <- walk_items items st ;; exit_array_in L dflt f op items st'
  | PCmp l _ r | PArith l _ r =>
      st1 <- walk_locale L dflt l st ;; st2 <- walk_locale L dflt r st1 ;; push_context_in L dflt t st2
  | PBin l op r => st1 <- walk_locale L dflt l st ;; st2 <- walk_locale L dflt r st1 ;; exit_binary op st2
  | PBad _ => Ok st
  | PFuncErr _ items => st' <- walk_items items st ;; push_context_in L dflt t st'
  | PToErr _ _ | PToOdd _ _ _ _ | PInErr _ _ => push_context_in L dflt t st
  | PArrayErr f _ => fld <- named_field dflt f ;; Err NullPointer
  end.

(** The listener, the parser and the evaluators in a default locale, as [listen], [parse_expression], [evaluate_boolean] and
    [evaluate_arith]: B/parser/antlr/BoolParser.java:19-43, B/application/BooleanExpressionEvaluator.java:48-55,
    B/application/ArithmeticExpressionEvaluator.java:41-44 *)
Definition listen_in (L : locale) (dflt : option jstr) (t : ptree) : res node :=
  st <- walk_locale L dflt t (LState [] None 0) ;; exit_parse st.
Definition parse_expression_in (L : locale) (expr : jstr) (dflt : option jstr) : res node :=
  ts <- lex expr ;; t <- parse_any ts ;; listen_in L dflt t.
Definition evaluate_boolean_in (L : locale) (E : env) (expr : jstr) (d : data) (dflt : option jstr) : res bool :=
  n <- parse_expression_in L expr dflt ;; bool_eval E d n.
Definition evaluate_arith_in (L : locale) (E : env) (expr : jstr) (d : data) : res jval :=
  n <- parse_expression_in L expr None ;; arith_eval E d n.
