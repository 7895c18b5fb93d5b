(** The listener of Listener.v once more, with the messages of the exceptions it throws, for texts that are sentences of the grammar.  After a syntax error
    ctx.getText() also shows what the recovery put in: those messages are not modelled (here: no message). *)
From Verif Require Import Base JNum Values Ops Funcs Ast Eval Lexer Grammar Recover Listener SpecGrammar Messages.
Local Open Scope list_scope.

(** RuleContext.getText: the texts of the tokens below, put together (white space is no token, so it is gone). *)
Definition glued (ts : list token) : jstr := concat (map text ts).
Definition tree_text (t : ptree) : jstr := glued (yield t).

(** new InvalidExpressionException(String.format(phrase + "%s", ctx.getText())) *)
Definition complain {A} (phrase : jstr) (t : ptree) : told A := Throws InvalidExpression (Some (phrase ++ tree_text t)).
Definition unsupported {A} (t : ptree) : told A := complain (J "Array does not support this expression ") t.
Definition unparsed {A} (t : ptree) : told A := complain (J "Error parsing expression for the string ") t.

(** validateField and getField, B/parser/antlr/BooleanFilterListener.java:222-230; [t] is the context whose text is shown *)
Definition field_told (dflt : option jstr) (f : token) (t : ptree) : told (option jstr) :=
  if is_blank (text f) && opt_is_blank dflt then complain (J "Error parsing expression (missing field) for the string ") t
  else Gives (if is_blank (text f) then dflt else Some (text f)).

(** mapContextToNode and the map* methods, B/parser/antlr/BooleanFilterListener.java:100-220 *)
Fixpoint context_told (dflt : option jstr) (t : ptree) (s : list node) {struct t} : told (node * list node) :=
  let elements := fix go (l : list ptree) (s : list node) {struct l} : told (list node * list node) :=
    match l with
    | [] => Gives ([], s)
    | i :: l' =>
        ns <! context_told dflt i s ;;
        rs <! go l' (snd ns) ;;
        Gives (fst ns :: fst rs, snd rs)
    end in
  match t with
  | PTypes tok => n <! jdk (map_types_token dflt tok) ;; Gives (n, s)
  | PEps _ => n <! jdk (map_types_empty dflt) ;; Gives (n, s)
  | PArith l op r =>                                                    (* 176-198 *)
      match as_types dflt l, as_types dflt r with
      | Some ml, Some mr => a <! jdk ml ;; b <! jdk mr ;; Gives (NArith a (Some b) (operator_of (kind op)), s)
      | Some ml, None => a <! jdk ml ;; br <! jdk (pop s) ;; Gives (NArith a (Some (fst br)) (operator_of (kind op)), snd br)
      | None, Some mr => b <! jdk mr ;; ar <! jdk (pop s) ;; Gives (NArith (fst ar) (Some b) (operator_of (kind op)), snd ar)
      | None, None =>
          match s with
          | b :: a :: s' => Gives (NArith a (Some b) (operator_of (kind op)), s')
          | _ => unparsed t                                             (* 192 *)
          end
      end
  | PIn f neg _ items =>                                                (* 200-210 *)
      fld <! field_told dflt f t ;;
      is <! elements items s ;;
      let n := NIn fld (fst is) in
      Gives (match neg with None => n | Some _ => NBool n None NOT end, snd is)
  | PFunc fn items =>                                                   (* 145-154 *)
      match function_of (kind fn) with
      | None => unparsed t                                              (* 150 *)
      | Some ft => is <! elements items s ;; Gives (NFunc ft (fst is), snd is)
      end
  | PCmp l op r =>                                                      (* 156-174 *)
      let o := operator_of (kind op) in
      match steals l r s, as_types dflt l, as_types dflt r with
      | true, Some ml, _ => a <! jdk ml ;; br <! jdk (pop s) ;; Gives (NCmp a (fst br) o (token_data_type (start l)), snd br)
      | true, None, Some mr => b <! jdk mr ;; ar <! jdk (pop s) ;; Gives (NCmp (fst ar) b o (token_data_type (start r)), snd ar)
      | _, _, _ =>
          bs <! context_told dflt r s ;;
          as_ <! context_told dflt l (snd bs) ;;
          Gives (NCmp (fst as_) (fst bs) o (token_data_type (start r)), snd as_)
      end
  | PTo f lo _ hi =>                                                    (* 212-220 *)
      fld <! field_told dflt f t ;;
      a <! jdk (convert_value (text lo) (token_data_type lo)) ;;
      b <! jdk (convert_value (text hi) (token_data_type hi)) ;;
      Gives (NRange fld a b (token_data_type lo) (token_data_type hi), s)
  | PParen _ | PNot _ _ | PNeg _ | PArray _ _ _ | PBin _ _ _ => unsupported t   (* 124 *)
  | PBad _ | PFuncErr _ _ | PToErr _ _ | PToOdd _ _ _ _ | PInErr _ _ | PArrayErr _ _ => jdk (map_context dflt t s)  (* no sentence *)
  end.

(** getArrayElements, B/parser/antlr/BooleanFilterListener.java:100-106 *)
Fixpoint elements_told (dflt : option jstr) (l : list ptree) (s : list node) : told (list node * list node) :=
  match l with
  | [] => Gives ([], s)
  | i :: l' =>
      ns <! context_told dflt i s ;;
      rs <! elements_told dflt l' (snd ns) ;;
      Gives (fst ns :: fst rs, snd rs)
  end.

(** currentNodes.add(map...(ctx)) *)
Definition push_told (dflt : option jstr) (t : ptree) (st : lstate) : told lstate :=
  ns <! context_told dflt t (stack st) ;;
  Gives (LState (fst ns :: snd ns) (last_token st) (token_count st)).

(** exitNotExpression, B/parser/antlr/BooleanFilterListener.java:278-291; [t] is the whole NOT expression *)
Definition not_told (t : ptree) (st : lstate) : told lstate :=
  match stack st, last_token st with
  | [], None => complain (J "Error parsing not expression for the string ") t
  | _, _ => jdk (exit_not st)
  end.

(** exitBinaryExpression, B/parser/antlr/BooleanFilterListener.java:299-310 *)
Definition binary_told (t : ptree) (op : token) (st : lstate) : told lstate :=
  match stack st with
  | b :: a :: s' => Gives (LState (NBool a (Some b) (logical_operator (kind op)) :: s') (last_token st) (token_count st))
  | _ => complain (J "Error parsing binary expression for the string ") t
  end.

(** exitArrayExpression, B/parser/antlr/BooleanFilterListener.java:77-85 *)
Definition array_told (dflt : option jstr) (t : ptree) (f op : token) (items : list ptree) (st : lstate) : told lstate :=
  fld <! field_told dflt f t ;;
  is <! elements_told dflt items (stack st) ;;
  Gives (LState (NArray fld (operator_of (kind op)) (fst is) :: snd is) (last_token st) (token_count st)).

(** ParseTreeWalker.walk over an expression *)
Fixpoint walk_told (dflt : option jstr) (t : ptree) (st : lstate) {struct t} : told lstate :=
  let walk_items := fix go (l : list ptree) (st : lstate) {struct l} : told lstate :=
    match l with
    | [] => Gives st
    | i :: l' => st' <! walk_told dflt i st ;; go l' st'
    end in
  match t with
  | PParen t' => walk_told dflt t' st
  | PNot _ t' => st' <! walk_told dflt t' st ;; not_told t st'
  | PNeg t' => st' <! walk_told dflt t' st ;; jdk (exit_unary dflt t' st')   (* 63-69: the ClassCastException is the JDK's *)
  | PTypes tok => Gives (exit_types tok st)
  | PEps next => Gives (exit_types next st)
  | PTo _ _ _ _ => push_told dflt t st
  | PFunc _ items => st' <! walk_items items st ;; push_told dflt t st'
  | PIn _ _ _ items => st' <! walk_items items st ;; push_told dflt t st'
  | PArray f op items => st' <! walk_items items st ;; array_told dflt t f op items st'
  | PCmp l _ r | PArith l _ r => st1 <! walk_told dflt l st ;; st2 <! walk_told dflt r st1 ;; push_told dflt t st2
  | PBin l op r => st1 <! walk_told dflt l st ;; st2 <! walk_told dflt r st1 ;; binary_told t op st2
  | PBad _ | PFuncErr _ _ | PToErr _ _ | PToOdd _ _ _ _ | PInErr _ _ | PArrayErr _ _ => jdk (walk dflt t st)  (* no sentence *)
  end.
Fixpoint walk_items_told (dflt : option jstr) (l : list ptree) (st : lstate) : told lstate :=
  match l with
  | [] => Gives st
  | i :: l' => st' <! walk_told dflt i st ;; walk_items_told dflt l' st'
  end.

(** exitParse, B/parser/antlr/BooleanFilterListener.java:263-276: the text of the ParseContext ends with that of the token EOF. *)
Definition parse_end_told (t : ptree) (st : lstate) : told node :=
  match stack st, token_count st, last_token st with
  | [], 1, Some _ => jdk (exit_parse st)
  | [], _, _ => Throws InvalidExpression (Some (J "Error parsing expression for the string " ++ tree_text t ++ J "<EOF>"))
  | _, _, _ => jdk (exit_parse st)
  end.
Definition listen_told (dflt : option jstr) (t : ptree) : told node :=
  st <! walk_told dflt t (LState [] None 0) ;; parse_end_told t st.

(** BoolParser.parseExpression, B/parser/antlr/BoolParser.java:19-43 *)
Definition parse_told (expr : jstr) (dflt : option jstr) : told node :=
  ts <! jdk (lex expr) ;; t <! jdk (parse_any ts) ;; listen_told dflt t.

(** BooleanExpressionEvaluator.evaluate, B/application/BooleanExpressionEvaluator.java:48-55, and ArithmeticExpressionEvaluator.evaluate,
    B/application/ArithmeticExpressionEvaluator.java:41-44: from the text to the result. *)
Definition condition_told (E : env) (expr : jstr) (d : data) (dflt : option jstr) : told bool := n <! parse_told expr dflt ;; bool_told E d n.
Definition formula_told (E : env) (expr : jstr) (d : data) : told jval := n <! parse_told expr None ;; arith_told E d n.
