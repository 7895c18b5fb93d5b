(** Parse trees of BooleanExpression.g4:3-76 and the parser BooleanExpressionParser.expression(int)
    (src/main/java/com/github/sidhant92/boolparser/parser/antlr/BooleanExpressionParser.java:395-659). *)
From Verif Require Import Base Lexer.

(** The contexts the listener sees.  [PEps next] is the empty alternative of [types] (g4:66); its start token is the
    token that follows it. *)
Inductive ptree :=
| PParen (t : ptree)                                              (* ParentExpressionContext *)
| PNot (nt : token) (t : ptree)                                   (* NotExpressionContext *)
| PNeg (t : ptree)                                                (* UnaryArithmeticExpressionContext *)
| PFunc (fn : token) (items : list ptree)                         (* ArithmeticFunctionExpressionContext *)
| PTypes (tok : token)                                            (* TypesExpressionContext *)
| PEps (next : token)                                             (* TypesExpressionContext, empty *)
| PTo (f lo tt hi : token)                                        (* ToExpressionContext *)
| PIn (f : token) (neg : option token) (it : token) (items : list ptree)  (* InExpressionContext *)
| PArray (f op : token) (items : list ptree)                      (* ArrayExpressionContext *)
| PCmp (l : ptree) (op : token) (r : ptree)                       (* ComparatorExpressionContext *)
| PArith (l : ptree) (op : token) (r : ptree)                     (* ArithmeticExpressionContext *)
| PBin (l : ptree) (op : token) (r : ptree)                       (* BinaryExpressionContext *)
(* contexts that only the recovery from a syntax error leaves behind (Recover.v): *)
| PBad (next : token)                                             (* ExpressionContext for which no alternative was viable *)
| PFuncErr (fn : token) (items : list ptree)                      (* ArithmeticFunctionExpressionContext, data.exception set *)
| PToErr (f lo : token)                                           (* ToExpressionContext, upper is null *)
| PToOdd (f lo hi : token) (txt : jstr)                           (* ToExpressionContext, upper starts at hi and has text txt *)
| PInErr (f : token) (neg : option token)                         (* InExpressionContext, data or its children are null *)
| PArrayErr (f op : token).                                       (* ArrayExpressionContext, the children of data are null *)

Definition lparen : token := Tok T_LPAREN (J "(").
Definition rparen : token := Tok T_RPAREN (J ")").
Definition comma : token := Tok T_COMMA (J ",").
Definition minus : token := Tok T_SUBTRACT (J "-").

(** ParserRuleContext.getStart *)
Fixpoint start (t : ptree) : token :=
  match t with
  | PParen _ => lparen
  | PNot nt _ => nt
  | PNeg _ => minus
  | PFunc fn _ => fn
  | PTypes tok => tok
  | PEps next => next
  | PTo f _ _ _ => f
  | PIn f _ _ _ => f
  | PArray f _ _ => f
  | PCmp l _ _ | PArith l _ _ | PBin l _ _ => start l
  | PBad next => next
  | PFuncErr fn _ => fn
  | PToErr f _ => f
  | PToOdd f _ _ _ => f
  | PInErr f _ => f
  | PArrayErr f _ => f
  end.

(** The precedences in the generated loop (BooleanExpressionParser.java:543-634); the right operand is parsed at the
    next higher level. *)
Definition is_comparator (k : tkind) : bool :=
  match k with T_GT | T_GE | T_LT | T_LE | T_EQ | T_NE => true | _ => false end.
Definition infix_prec (k : tkind) : option nat :=
  match k with
  | T_GT | T_GE | T_LT | T_LE | T_EQ | T_NE => Some 14
  | T_EXPONENT => Some 12
  | T_DIVIDE => Some 11
  | T_MULTIPLY => Some 10
  | T_MODULUS => Some 9
  | T_ADD => Some 8
  | T_SUBTRACT => Some 7
  | T_AND | T_OR => Some 5
  | _ => None
  end.
Definition not_prec : nat := 15.     (* BooleanExpressionParser.java:430 *)
Definition neg_prec : nat := 13.     (* BooleanExpressionParser.java:441 *)

Definition mk_infix (l : ptree) (op : token) (r : ptree) : ptree :=
  match kind op with
  | T_GT | T_GE | T_LT | T_LE | T_EQ | T_NE => PCmp l op r
  | T_AND | T_OR => PBin l op r
  | _ => PArith l op r
  end.

(** g4:39-50 *)
Definition is_function (k : tkind) : bool :=
  match k with
  | T_MIN | T_MAX | T_SUM | T_AVG | T_MEAN | T_MODE | T_LEN | T_MEDIAN | T_INT | T_DAYS_ELAPSED => true
  | _ => false
  end.
(** g4:61-67, without the empty alternative *)
Definition is_numeric_type (k : tkind) : bool := match k with T_INTEGER | T_DECIMAL => true | _ => false end.
Definition is_type (k : tkind) : bool :=
  match k with
  | T_INTEGER | T_DECIMAL | T_APP_VERSION | T_TRUE | T_FALSE | T_WORD | T_FIELD | T_DATE | T_DATETIME => true
  | _ => false
  end.

(** match(k) *)
Definition expect_tok (k : tkind) (ts : list token) : res (token * list token) :=
  match ts with
  | t :: ts' => if tkind_eqb (kind t) k then Ok (t, ts') else Err SyntaxError
  | [] => Err SyntaxError
  end.

(** expression(p) with its operator loop, and wordlist.  The token list ends with the EOF token.  The alternative of the
    primary is chosen by the first token(s) as ANTLR's adaptivePredict does on sentences of the grammar (the lowest
    alternative on an ambiguity: a leading '-' is always negation); the loop continues whenever precpred allows it.
    This is the parser on the sentences of the grammar; anything else is a syntax error, and what ANTLR does about it is in
    Recover.v. *)
Fixpoint pexpr (fuel : nat) (p : nat) (ts : list token) {struct fuel} : res (ptree * list token) :=
  match fuel with
  | O => Err OutOfFuel
  | S f =>
      lr <- match ts with
            | [] => Err SyntaxError
            | t :: ts' =>
                match kind t with
                | T_LPAREN =>
                    er <- pexpr f 0 ts' ;;
                    cr <- expect_tok T_RPAREN (snd er) ;;
                    Ok (PParen (fst er), snd cr)
                | T_NOT => er <- pexpr f not_prec ts' ;; Ok (PNot t (fst er), snd er)
                | T_SUBTRACT => er <- pexpr f neg_prec ts' ;; Ok (PNeg (fst er), snd er)
                | T_FIELD =>
                    match ts' with
                    | t2 :: ts2 =>
                        match kind t2 with
                        | T_INTEGER | T_DECIMAL =>
                            tr <- expect_tok T_TO ts2 ;;
                            match snd tr with
                            | hi :: rest =>
                                if is_numeric_type (kind hi) then Ok (PTo t t2 (fst tr) hi, rest)
                                else Err SyntaxError
                            | [] => Err SyntaxError
                            end
                        | T_NOT =>
                            ir <- expect_tok T_IN ts2 ;;
                            wr <- pwordlist f (snd ir) ;;
                            Ok (PIn t (Some t2) (fst ir) (fst wr), snd wr)
                        | T_IN => wr <- pwordlist f ts2 ;; Ok (PIn t None t2 (fst wr), snd wr)
                        | T_CONTAINS_ALL | T_CONTAINS_ANY =>
                            wr <- pwordlist f ts2 ;; Ok (PArray t t2 (fst wr), snd wr)
                        | _ => Ok (PTypes t, ts')
                        end
                    | [] => Ok (PTypes t, ts')
                    end
                | k =>
                    if is_function k then wr <- pwordlist f ts' ;; Ok (PFunc t (fst wr), snd wr)
                    else if is_type k then Ok (PTypes t, ts')
                    else Ok (PEps t, ts)
                end
            end ;;
      ploop f p (fst lr) (snd lr)
  end
with ploop (fuel : nat) (p : nat) (l : ptree) (ts : list token) {struct fuel} : res (ptree * list token) :=
  match fuel with
  | O => Err OutOfFuel
  | S f =>
      match ts with
      | [] => Ok (l, ts)
      | t :: ts' =>
          match infix_prec (kind t) with
          | Some q =>
              if p <=? q then
                rr <- pexpr f (S q) ts' ;; ploop f p (mk_infix l t (fst rr)) (snd rr)
              else Ok (l, ts)
          | None => Ok (l, ts)
          end
      end
  end
with pwordlist (fuel : nat) (ts : list token) {struct fuel} : res (list ptree * list token) :=
  match fuel with
  | O => Err OutOfFuel
  | S f => lr <- expect_tok T_LPAREN ts ;; pitems f (snd lr)
  end
with pitems (fuel : nat) (ts : list token) {struct fuel} : res (list ptree * list token) :=
  match fuel with
  | O => Err OutOfFuel
  | S f =>
      er <- pexpr f 0 ts ;;
      match snd er with
      | t :: rest =>
          match kind t with
          | T_COMMA => ir <- pitems f rest ;; Ok (fst er :: fst ir, snd ir)
          | T_RPAREN => Ok ([fst er], rest)
          | _ => Err SyntaxError
          end
      | [] => Err SyntaxError
      end
  end.

(** parse : expression EOF   (g4:3-5), on sentences *)
Definition parse_fuel (ts : list token) : nat := 3 * length ts + 3.
Definition parse_tokens (ts : list token) : res ptree :=
  let input := ts ++ [eof] in
  er <- pexpr (parse_fuel input) 0 input ;;
  match snd er with
  | [t] => if tkind_eqb (kind t) T_EOF then Ok (fst er) else Err SyntaxError
  | _ => Err SyntaxError
  end.
