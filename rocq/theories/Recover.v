(** The parser on every token sequence: BooleanExpressionParser
    (src/main/java/com/github/sidhant92/boolparser/parser/antlr/BooleanExpressionParser.java:129-150, 396-1273) with ANTLR
    4.13.2's DefaultErrorStrategy, which the library keeps (B/parser/antlr/BoolParser.java:33-43 installs no other strategy
    and no error listener).  A syntax error is reported on stderr, tokens are skipped or made up, and parsing goes on; the
    exceptions of the generated code are caught in the rule where they occur.  The runtime is not in the repository: this
    file models its documented algorithm (sync, singleTokenDeletion, singleTokenInsertion, recover, consumeUntil), with the
    token sets computed from the serialised automaton (BooleanExpressionParser.java:1282-1374). *)
From Verif Require Import Base Lexer Grammar.

(** The token stream, whose last token is EOF, and the fields errorRecoveryMode, lastErrorIndex (here: the number of tokens
    that were left) and lastErrorStates of the error strategy. *)
Record pstate := PState { tokens : list token; recovering : bool; error_at : option nat; error_states : list nat }.

(** LT(1), LA(1), LA(2) *)
Definition lt1 (st : pstate) : token := match tokens st with t :: _ => t | [] => eof end.
Definition la1 (st : pstate) : tkind := kind (lt1 st).
Definition la2 (st : pstate) : tkind := match tokens st with _ :: t :: _ => kind t | _ => T_EOF end.
(** reportMatch and consume: the error strategy is reset *)
Definition matched (ts : list token) : pstate := PState ts false None [].
Definition next_state (st : pstate) : pstate := matched (tl (tokens st)).
(** Parser.consume does not move past EOF *)
Definition advance (ts : list token) : list token :=
  match ts with t :: ts' => if tkind_eqb (kind t) T_EOF then ts else ts' | [] => [] end.

(** What may follow an active rule invocation, by its invoking state: parse calls expression (state 22, then EOF); a
    parenthesis calls expression (27, then RPAREN); an operand or a list inside an expression (31, 33, 35, 41, 48, 51, 57, 61,
    64, 67, 70, 73, 76, 79, then an operator or the end of the rule); an element of a list (99, 113, then ',' or RPAREN).
    The invocations form the context, innermost first. *)
Inductive frame := InParse | InParen | InOps | InWords.
Definition is_infix (k : tkind) : bool := match infix_prec k with Some _ => true | None => false end.
Definition is_kind (a k : tkind) : bool := tkind_eqb k a.
Definition ends_item (k : tkind) : bool := is_kind T_COMMA k || is_kind T_RPAREN k.
Definition follow_has (fr : frame) (k : tkind) : bool :=
  match fr with
  | InParse => is_kind T_EOF k
  | InParen => is_kind T_RPAREN k
  | InOps => is_infix k
  | InWords => ends_item k
  end.
(** DefaultErrorStrategy.getErrorRecoverySet: the follow sets of all active invocations *)
Definition recovery_has (ctx : list frame) (k : tkind) : bool := existsb (fun fr => follow_has fr k) ctx.
(** ATN.nextTokens(s, ctx) at the end of a rule: what can come next in this context *)
Fixpoint context_has (ctx : list frame) (k : tkind) : bool :=
  match ctx with
  | [] => is_kind T_EOF k
  | InOps :: c => is_infix k || context_has c k
  | fr :: _ => follow_has fr k
  end.
(** The tokens that end the innermost enclosing bracket (or the text). *)
Fixpoint closes (ctx : list frame) (k : tkind) : bool :=
  match ctx with
  | [] => is_kind T_EOF k
  | InOps :: c => closes c k
  | fr :: _ => follow_has fr k
  end.
(** nextTokens of the states 96 and 110: an element of a list, which may be missing, and what follows it *)
Definition begins_item (k : tkind) : bool :=
  match k with T_LPAREN | T_NOT => true | _ => is_function k || is_type k || is_infix k || ends_item k end.

(** match(k), or a set of kinds, with recoverInline: drop one token if the next one fits; else make the token up if the
    current one could follow it; else throw InputMismatchException.  [Matched] carries the tokens consumed. *)
Inductive matching := Matched (used : list token) (st : pstate) | Inserted (st : pstate) | Mismatch.
Definition match_set (fits next : tkind -> bool) (st : pstate) : matching :=
  if fits (la1 st) then Matched [lt1 st] (next_state st)
  else if fits (la2 st) then Matched (firstn 2 (tokens st)) (matched (tl (tl (tokens st))))
  else if next (la1 st) then Inserted (PState (tokens st) true (error_at st) (error_states st))
  else Mismatch.

(** DefaultErrorStrategy.sync at the entry of a loop: [None] is InputMismatchException *)
Definition sync (fits : tkind -> bool) (st : pstate) : option pstate :=
  if recovering st || fits (la1 st) then Some st
  else if fits (la2 st) then Some (matched (advance (tokens st)))
  else None.

(** DefaultErrorStrategy.consumeUntil *)
Fixpoint skip_until (stop : tkind -> bool) (ts : list token) : list token * list token :=
  match ts with
  | [] => ([], [])
  | t :: ts' =>
      if tkind_eqb (kind t) T_EOF || stop (kind t) then ([], ts)
      else let r := skip_until stop ts' in (t :: fst r, snd r)
  end.
(** reportError and recover in the parser state [s]: the tokens skipped, and the state after *)
Definition recover (s : nat) (ctx : list frame) (st : pstate) : list token * pstate :=
  let again := match error_at st with
               | Some n => (n =? length (tokens st)) && existsb (Nat.eqb s) (error_states st)
               | None => false
               end in
  let ts := if again then advance (tokens st) else tokens st in
  let r := skip_until (recovery_has ctx) ts in
  ((if again then [lt1 st] else []) ++ fst r,
   PState (snd r) true (Some (length ts)) (s :: error_states st)).

(** adaptivePredict for a '-' at the start of an expression.  It can be a negation (alternative 3) or, after an empty
    operand, a subtraction (alternative 5), so ANTLR looks ahead with the full context until the two agree on what can come
    next (then it takes the lower alternative) or until no alternative can consume the next token (then it throws
    NoViableAltException).  They agree once the operand after '-' is complete.  [ts] are the tokens after the '-'.  *)
Definition list_parses (ts : list token) : bool :=
  match pwordlist (parse_fuel ts) ts with Ok _ => true | Err _ => false end.
Fixpoint operand_ok (ctx : list frame) (ts : list token) : bool :=
  match ts with
  | [] => false
  | t :: ts' =>
      match kind t with
      | T_NOT | T_SUBTRACT => operand_ok ctx ts'
      | T_LPAREN =>
          match pexpr (parse_fuel ts') 0 ts' with
          | Ok (_, r :: _) => is_kind T_RPAREN (kind r)
          | _ => false
          end
      | T_FIELD =>
          match ts' with
          | [] => closes ctx T_EOF
          | t2 :: ts2 =>
              match kind t2 with
              | T_INTEGER | T_DECIMAL =>
                  match ts2 with
                  | t3 :: t4 :: _ => is_kind T_TO (kind t3) && is_numeric_type (kind t4)
                  | _ => false
                  end
              | T_NOT => match ts2 with t3 :: ts3 => is_kind T_IN (kind t3) && list_parses ts3 | [] => false end
              | T_IN | T_CONTAINS_ALL | T_CONTAINS_ANY => list_parses ts2
              | k => is_infix k || closes ctx k
              end
          end
      | k => if is_function k then list_parses ts' else is_type k || is_infix k || closes ctx k
      end
  end.

(** numericTypes() (1020-1048) as the upper bound of a range: its exceptions are caught inside, and its text is the text of
    all the tokens it consumed.  The tokens made up by getMissingSymbol are never looked at. *)
Definition missing_to : token := Tok T_TO (J "<missing TO>").
Definition missing_in : token := Tok T_IN (J "<missing IN>").
Definition range_upper (ctx : list frame) (f lo tt : token) (st : pstate) : ptree * pstate :=
  match match_set is_numeric_type (context_has (InOps :: ctx)) st with
  | Matched [x] st' => (PTo f lo tt x, st')
  | Matched xs st' => (PToOdd f lo (lt1 st) (concat (map text xs)), st')
  | Inserted st' => (PToOdd f lo (lt1 st) [], st')
  | Mismatch => let r := recover 129 (InOps :: ctx) st in (PToOdd f lo (lt1 st) (concat (map text (fst r))), snd r)
  end.

(** expression(p) (396-659), its operator loop, and wordlist (851-952).  The alternatives are chosen as adaptivePredict does:
    the empty alternative of [types] makes every first token acceptable except in the case of [operand_ok].  An exception
    ends the expression (the operator loop is not entered: the third component of the primary is false) or the list.
    The white space loops of wordlist never find a token. *)
Fixpoint rexpr (fuel : nat) (ctx : list frame) (p : nat) (st : pstate) {struct fuel} : res (ptree * pstate) :=
  match fuel with
  | O => Err OutOfFuel
  | S f =>
      let t := lt1 st in
      pr <- match kind t with
            | T_LPAREN =>
                er <- rexpr f (InParen :: ctx) 0 (next_state st) ;;
                match match_set (is_kind T_RPAREN) (context_has (InOps :: ctx)) (snd er) with
                | Matched _ st' | Inserted st' => Ok (PParen (fst er), st', true)
                | Mismatch => Ok (PParen (fst er), snd (recover 28 ctx (snd er)), false)
                end
            | T_NOT =>
                er <- rexpr f (InOps :: ctx) not_prec (next_state st) ;; Ok (PNot t (fst er), snd er, true)
            | T_SUBTRACT =>
                if operand_ok ctx (tl (tokens st)) then
                  er <- rexpr f (InOps :: ctx) neg_prec (next_state st) ;; Ok (PNeg (fst er), snd er, true)
                else Ok (PBad t, snd (recover 53 ctx st), false)
            | T_FIELD =>
                let st1 := next_state st in
                let t2 := lt1 st1 in
                let st2 := next_state st1 in
                match kind t2 with
                | T_INTEGER | T_DECIMAL =>
                    match match_set (is_kind T_TO) is_numeric_type st2 with
                    | Matched ts st3 => let r := range_upper ctx t t2 (last ts eof) st3 in Ok (fst r, snd r, true)
                    | Inserted st3 => let r := range_upper ctx t t2 missing_to st3 in Ok (fst r, snd r, true)
                    | Mismatch => Ok (PToErr t t2, snd (recover 40 ctx st2), false)
                    end
                | T_NOT =>
                    let list it st3 :=
                      wr <- rwords f (InOps :: ctx) st3 ;;
                      let '(items, _, childless, st4) := wr in
                      Ok (if childless : bool then PInErr t (Some t2) else PIn t (Some t2) it items, st4, true) in
                    match match_set (is_kind T_IN) (is_kind T_LPAREN) st2 with
                    | Matched ts st3 => list (last ts eof) st3
                    | Inserted st3 => list missing_in st3
                    | Mismatch => Ok (PInErr t (Some t2), snd (recover 47 ctx st2), false)
                    end
                | T_IN =>
                    wr <- rwords f (InOps :: ctx) st2 ;;
                    let '(items, _, childless, st3) := wr in
                    Ok (if childless : bool then PInErr t None else PIn t None t2 items, st3, true)
                | T_CONTAINS_ALL | T_CONTAINS_ANY =>
                    wr <- rwords f (InOps :: ctx) st2 ;;
                    let '(items, _, childless, st3) := wr in
                    Ok (if childless : bool then PArrayErr t t2 else PArray t t2 items, st3, true)
                | _ => Ok (PTypes t, st1, true)
                end
            | k =>
                if is_function k then
                  wr <- rwords f (InOps :: ctx) (next_state st) ;;
                  let '(items, failed, _, st1) := wr in
                  Ok (if failed : bool then PFuncErr t items else PFunc t items, st1, true)
                else if is_type k then Ok (PTypes t, next_state st, true)
                else Ok (PEps t, st, true)
            end ;;
      let '(l, st', continue) := pr in
      if continue : bool then rloop f ctx p l st' else Ok (l, st')
  end
with rloop (fuel : nat) (ctx : list frame) (p : nat) (l : ptree) (st : pstate) {struct fuel} : res (ptree * pstate) :=
  match fuel with
  | O => Err OutOfFuel
  | S f =>
      match infix_prec (la1 st) with
      | Some q =>
          if p <=? q then
            rr <- rexpr f (InOps :: ctx) (S q) (next_state st) ;;
            rloop f ctx p (mk_infix l (lt1 st) (fst rr)) (snd rr)
          else Ok (l, st)
      | None => Ok (l, st)
      end
  end
(** The elements, whether the list has an exception, whether its context has no children, and the state after. *)
with rwords (fuel : nat) (ctx : list frame) (st : pstate) {struct fuel} : res (list ptree * bool * bool * pstate) :=
  match fuel with
  | O => Err OutOfFuel
  | S f =>
      match match_set (is_kind T_LPAREN) begins_item st with
      | Matched _ st' | Inserted st' =>
          ir <- ritems f ctx 96 103 st' ;;
          let '(items, failed, st2) := ir in Ok (items, failed, false, st2)
      | Mismatch =>
          let r := recover 92 ctx st in
          Ok ([], true, match fst r with [] => true | _ => false end, snd r)
      end
  end
with ritems (fuel : nat) (ctx : list frame) (s0 s1 : nat) (st : pstate) {struct fuel} : res (list ptree * bool * pstate) :=
  match fuel with
  | O => Err OutOfFuel
  | S f =>
      match sync begins_item st with
      | None => Ok ([], true, snd (recover s0 ctx st))
      | Some st1 =>
          er <- rexpr f (InWords :: ctx) 0 st1 ;;
          match sync ends_item (snd er) with
          | None => Ok ([fst er], true, snd (recover s1 ctx (snd er)))
          | Some st2 =>
              if is_kind T_COMMA (la1 st2) then
                ir <- ritems f ctx 110 117 (next_state st2) ;;
                let '(items, failed, st3) := ir in Ok (fst er :: items, failed, st3)
              else
                match match_set (is_kind T_RPAREN) (context_has ctx) st2 with
                | Matched _ st3 | Inserted st3 => Ok ([fst er], false, st3)
                | Mismatch => Ok ([fst er], true, snd (recover 125 ctx st2))
                end
          end
      end
  end.

(** parse() (129-150): whatever match(EOF) does about the tokens that are left, the tree of the expression stays. *)
Definition parse_any (ts : list token) : res ptree :=
  er <- rexpr (parse_fuel (ts ++ [eof])) [InParse] 0 (matched (ts ++ [eof])) ;; Ok (fst er).
