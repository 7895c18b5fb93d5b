(** The generated parser as shipped: the automaton serialised in BooleanExpressionParser.java:1282-1372, as ANTLR 4.13 reads it
    (ATNDeserializer.deserialize, called at BooleanExpressionParser.java:1373-1374), what it means for a decision to be viable
    (ParserATNSimulator.closure, execATN), and the generated methods (BooleanExpressionParser.java:129-150, 396-1273), which ask
    adaptivePredict which way to go.  The ANTLR runtime is not in /repo; these definitions follow its published source.
    Simplifications: prediction is specified, not simulated (see [predicts]); the cache of automaton states (_decisionToDFA) is
    left out; only runs without a syntax error are described (for the others see Recover.v). *)
From Coq Require Import FMapPositive.
From Verif Require Import Base Lexer Grammar LexerAtn ParserTable.
Local Open Scope Z_scope.

Record parser_table := PTable {
  pstates : list (Z * Z);                (* type, rule *)
  pstarts : list Z;                      (* start state of each rule *)
  psets : list (Z * list (Z * Z));       (* contains EOF; intervals *)
  pedges : list edge;
  pdecisions : list Z }.

(** ATNDeserializer.deserialize for a parser (grammar type 1), serialisation version 4. *)
Definition read_parser : reader parser_table :=
  version <<- next ;; grammar <<- next ;; _maxtok <<- next ;;
  if negb ((version =? 4) && (grammar =? 1)) then (fun _ => None) else
  ss <<- many read_state ;;
  _ng <<- many next ;;
  _prec <<- many next ;;
  rs <<- many next ;;
  _modes <<- many next ;;
  sets <<- many read_set ;;
  es <<- many read_edge ;;
  dec <<- many next ;;
  done (PTable ss rs sets es dec).

(** ATNDeserializer.edgeFactory; the token EOF has type -1.  Not supported, and not present: semantic predicates, negated sets
    and wildcards. *)
Inductive ptransition :=
| TEpsilon (to : N)
| TCall (start follow : N) (rule : Z)        (* RuleTransition *)
| TPrecedence (to : N) (level : nat)         (* PrecedencePredicateTransition *)
| TAction (to : N)
| TTokens (to : N) (l : list (Z * Z)).       (* atom, range, set *)
Definition end_of_input : Z := -1.
Definition ptransition_of (ss : list (Z * list (Z * Z))) (e : edge) : option ptransition :=
  let to := Z.to_N (trg e) in
  match etype e with
  | 1 => Some (TEpsilon to)
  | 2 => Some (TTokens to [(if arg3 e =? 0 then arg1 e else end_of_input, arg2 e)])
  | 3 => Some (TCall (Z.to_N (arg1 e)) to (arg2 e))
  | 5 => Some (TTokens to (if arg3 e =? 0 then [(arg1 e, arg1 e)] else [(end_of_input, end_of_input)]))
  | 6 => Some (TAction to)
  | 7 => match nth_error ss (Z.to_nat (arg1 e)) with
         | Some (eof, l) => Some (TTokens to (if eof =? 0 then l else (end_of_input, end_of_input) :: l))
         | None => None
         end
  | 10 => Some (TPrecedence to (Z.to_nat (arg1 e)))
  | _ => None
  end.
Fixpoint padd_edges (ss : list (Z * list (Z * Z))) (es : list edge) : option (PositiveMap.t (list ptransition)) :=
  match es with
  | [] => Some (PositiveMap.empty _)
  | e :: es' =>
      match ptransition_of ss e, padd_edges ss es' with
      | Some t, Some m =>
          let k := key (Z.to_N (src e)) in
          Some (PositiveMap.add k (t :: match PositiveMap.find k m with Some l => l | None => [] end) m)
      | _, _ => None
      end
  end.
Record pnet := PNet {
  moves_map : PositiveMap.t (list ptransition);
  ends_map : PositiveMap.t Z;                     (* the rule whose stop state this is *)
  rule_map : PositiveMap.t Z;                     (* the rule to which the state belongs *)
  entries : list N;                               (* start state of each rule *)
  decision_states : list N }.
Fixpoint add_rules (q : N) (ss : list (Z * Z)) : PositiveMap.t Z :=
  match ss with
  | [] => PositiveMap.empty _
  | (_, r) :: ss' => PositiveMap.add (key q) r (add_rules (q + 1) ss')
  end.
Definition parser_net : option pnet :=
  match read_parser (decode serialized_parser) with
  | Some (t, []) =>
      match padd_edges (psets t) (pedges t) with
      | Some m => Some (PNet m (add_stops 0 (pstates t)) (add_rules 0 (pstates t)) (map Z.to_N (pstarts t)) (map Z.to_N (pdecisions t)))
      | None => None
      end
  | _ => None
  end.

(** The automaton, decoded once and for all. *)
Definition net : pnet :=
  Eval vm_compute in match parser_net with
                     | Some a => a
                     | None => PNet (PositiveMap.empty _) (PositiveMap.empty _) (PositiveMap.empty _) [] []
                     end.
Definition moves (q : N) : list ptransition :=
  match PositiveMap.find (key q) (moves_map net) with Some l => l | None => [] end.
Definition ended_rule (q : N) : option Z := PositiveMap.find (key q) (ends_map net).
Definition rule_of (q : N) : Z := match PositiveMap.find (key q) (rule_map net) with Some r => r | None => -1 end.
Definition ends (q : N) : bool := match ended_rule q with Some _ => true | None => false end.
Definition entry (rule : nat) : N := nth rule (entries net) 0%N.
Definition decision (d : nat) : N := nth d (decision_states net) 0%N.
(** PredictionContext.fromRuleContext: where an invocation made in the state [q] returns to *)
Definition return_state (q : N) : N := match moves q with TCall _ r _ :: _ => r | _ => 0%N end.

(** Token types, BooleanExpressionParser.java:19-26 *)
Definition code (k : tkind) : Z :=
  match k with
  | T_COMMA => 1 | T_IN => 2 | T_TO => 3 | T_AND => 4 | T_OR => 5 | T_NOT => 6 | T_TRUE => 7 | T_FALSE => 8
  | T_CONTAINS_ALL => 9 | T_CONTAINS_ANY => 10 | T_MIN => 11 | T_MAX => 12 | T_AVG => 13 | T_SUM => 14 | T_MEAN => 15
  | T_MODE => 16 | T_MEDIAN => 17 | T_LEN => 18 | T_INT => 19 | T_DAYS_ELAPSED => 20 | T_ADD => 21 | T_SUBTRACT => 22
  | T_MULTIPLY => 23 | T_DIVIDE => 24 | T_MODULUS => 25 | T_EXPONENT => 26 | T_NE => 27 | T_GT => 28 | T_GE => 29
  | T_LT => 30 | T_LE => 31 | T_EQ => 32 | T_LPAREN => 33 | T_RPAREN => 34 | T_DECIMAL => 35 | T_APP_VERSION => 36
  | T_INTEGER => 37 | T_DATE => 38 | T_DATETIME => 39 | T_WS => 40 | T_WORD => 41 | T_SQSTR => 42 | T_DQSTR => 43
  | T_FIELD => 44 | T_ALPHANUMERIC => 45 | T_SQ => 46 | T_DQ => 47
  | T_EOF => end_of_input
  end.
Definition codes (ts : list token) : list Z := map (fun t => code (kind t)) ts.
Definition within_set (l : list (Z * Z)) (x : Z) : bool := existsb (fun i => (fst i <=? x) && (x <=? snd i)) l.

(** [accepts p m q st ks]: from the state [q], with [st] the states to return to, the automaton can consume exactly [ks].
    ParserATNSimulator.closure_ evaluates a precedence predicate, against the precedence [p] of the running invocation, only
    before the first token and only in the invocation that takes the decision (collectPredicates, inContext): [m] is
    [Some depth] as long as they are collected.  An action, of which the automaton has one, stops the collection. *)
Definition deeper (m : option Z) : option Z := match m with Some d => Some (if 0 <=? d then d + 1 else d) | None => None end.
Definition shallower (m : option Z) : option Z := match m with Some d => Some (d - 1) | None => None end.
Inductive accepts (p : nat) : option Z -> N -> list N -> list Z -> Prop :=
| acc_end m q : ends q = true -> accepts p m q [] []
| acc_return m q r st ks : ends q = true -> accepts p (shallower m) r st ks -> accepts p m q (r :: st) ks
| acc_epsilon m q q' st ks : In (TEpsilon q') (moves q) -> accepts p m q' st ks -> accepts p m q st ks
| acc_action m q q' st ks : In (TAction q') (moves q) -> accepts p None q' st ks -> accepts p m q st ks
| acc_precedence m q q' c st ks :
    In (TPrecedence q' c) (moves q) -> (m = Some 0 -> (p <= c)%nat) -> accepts p m q' st ks -> accepts p m q st ks
| acc_call m q s r i st ks : In (TCall s r i) (moves q) -> accepts p (deeper m) s (r :: st) ks -> accepts p m q st ks
| acc_token m q q' l k st ks :
    In (TTokens q' l) (moves q) -> within_set l k = true -> accepts p None q' st ks -> accepts p m q st (k :: ks).

(** The token sequences the automaton accepts as a whole: rule parse, BooleanExpressionParser.java:129-150 *)
Definition automaton_accepts (ts : list token) : Prop := accepts 0 None (entry 0) [] (codes (ts ++ [eof])).

(** adaptivePredict, as specified: the lowest alternative of the decision with which the rest of the input can be accepted.
    (ParserATNSimulator.execATN follows all alternatives through the automaton in the context of the call and resolves an
    ambiguity to the minimum, getAlts/resolve...; what it answers when no alternative is viable does not matter here.) *)
Definition viable (p d : nat) (st : list N) (ts : list token) (i : nat) : Prop :=
  exists q, nth_error (moves (decision d)) (i - 1) = Some (TEpsilon q) /\ (0 < i)%nat /\ accepts p (Some 0) q st (codes ts).
Definition predicts (p d : nat) (st : list N) (ts : list token) (i : nat) : Prop :=
  viable p d st ts i /\ forall j, (j < i)%nat -> ~ viable p d st ts j.

(** LL1Analyzer._LOOK(s, null, null, look, busy, calledRules, true, true): what can come next in the rule of the state; -2
    (Token.EPSILON) stands for the end of the rule. *)
Definition epsilon : Z := -2.
Definition interval_elements (i : Z * Z) : list Z := map (fun n => fst i + Z.of_nat n) (seq 0 (Z.to_nat (snd i - fst i + 1))).
Fixpoint look_from (fuel : nat) (q : N) (st : list N) (called : list Z) (acc : list (N * list N) * list Z) {struct fuel} : option (list (N * list N) * list Z) :=
  match fuel with
  | O => None
  | S f =>
      if existsb (fun b => (fst b =? q)%N && (if list_eq_dec N.eq_dec (snd b) st then true else false)) (fst acc) then Some acc else
      let acc := ((q, st) :: fst acc, snd acc) in
      match ended_rule q with
      | Some r =>
          match st with
          | [] => Some (fst acc, epsilon :: snd acc)
          | r' :: st' => look_from f r' st' (filter (fun c => negb (c =? r)) called) acc
          end
      | None =>
          (fix all ts acc :=
             match ts with
             | [] => Some acc
             | t :: ts' =>
                 match
                   match t with
                   | TEpsilon q' | TAction q' | TPrecedence q' _ => look_from f q' st called acc
                   | TCall s r i => if existsb (Z.eqb i) called then Some acc else look_from f s (r :: st) (i :: called) acc
                   | TTokens _ l => Some (fst acc, concat (map interval_elements l) ++ snd acc)
                   end
                 with
                 | Some acc' => all ts' acc'
                 | None => None
                 end
             end) (moves q) acc
      end
  end.
(** ATN.nextTokens *)
Definition next_tokens (q : N) : list Z := match look_from 64 q [] [] ([], []) with Some (_, l) => l | None => [] end.
(** DefaultErrorStrategy.sync in the state [q] finds nothing to repair. *)
Definition in_sync (q : N) (ts : list token) : Prop :=
  match ts with [] => False | t :: _ => In (code (kind t)) (next_tokens q) \/ In epsilon (next_tokens q) end.

(** ATN.nextTokens(s, ctx): what can come next in the state [q] when the return states are [st]; EOF at the end of the start rule *)
Fixpoint expected_after (st : list N) : list Z :=
  match st with
  | [] => [code T_EOF]
  | r :: st' => filter (fun x => negb (x =? epsilon)) (next_tokens r) ++ (if existsb (Z.eqb epsilon) (next_tokens r) then expected_after st' else [])
  end.
Definition expected (q : N) (st : list N) : list Z := expected_after (q :: st).
(** DefaultErrorStrategy.getErrorRecoverySet: what can follow, each in its rule, the active invocations *)
Definition resume_set (st : list N) : list Z := filter (fun x => negb (x =? epsilon)) (flat_map next_tokens st).

(** The sets of tokens tested by masks and comparisons in the generated code. *)
Definition masked (m : Z) (k : tkind) : bool := (0 <=? code k) && (code k <? 64) && Z.testbit m (code k).
Definition comparator_mask : Z := 8455716864.       (* BooleanExpressionParser.java:692, comparator() *)
Definition function_mask : Z := 2095104.            (* :800, arithmeticFunction() *)

(** The alternatives of the operator loop, BooleanExpressionParser.java:536-642: precpred, the operator, the precedence and the
    state in which the right operand is parsed, the context created. *)
Record branch := Branch { required : nat; operator : tkind -> bool; right_precedence : nat; calling_state : N; node : ptree -> token -> ptree -> ptree }.
Definition one (k k' : tkind) : bool := code k =? code k'.
Definition branches : list branch :=
  [ Branch 14 (masked comparator_mask) 15 57 PCmp; Branch 12 (one T_EXPONENT) 13 61 PArith; Branch 11 (one T_DIVIDE) 12 64 PArith;
    Branch 10 (one T_MULTIPLY) 11 67 PArith; Branch 9 (one T_MODULUS) 10 70 PArith; Branch 8 (one T_ADD) 9 73 PArith;
    Branch 7 (one T_SUBTRACT) 8 76 PArith; Branch 5 (fun k => one T_AND k || one T_OR k) 6 79 PBin ].

(** types(), BooleanExpressionParser.java:1076-1157: the alternatives that match a token *)
Definition type_alternatives : list (tkind -> bool) :=
  [ one T_INTEGER; one T_DECIMAL; one T_APP_VERSION; (fun k => one T_TRUE k || one T_FALSE k); one T_WORD; one T_FIELD; one T_DATE; one T_DATETIME ].
Inductive types_run (p : nat) (st : list N) : list token -> ptree -> list token -> Prop :=
| types_token i test t ts :
    in_sync 140 (t :: ts) -> predicts p 9 st (t :: ts) (S i) -> nth_error type_alternatives i = Some test -> test (kind t) = true ->
    types_run p st (t :: ts) (PTypes t) ts
| types_empty t ts : in_sync 140 (t :: ts) -> predicts p 9 st (t :: ts) 9 -> types_run p st (t :: ts) (PEps t) (t :: ts).

(** while (LA(1) == WS) match(WS), BooleanExpressionParser.java:879-891, 919-931 *)
Inductive blanks_run (q q' : N) : list token -> list token -> Prop :=
| blanks_end t ts : in_sync q (t :: ts) -> kind t <> T_WS -> blanks_run q q' (t :: ts) (t :: ts)
| blanks_more t ts ts' : in_sync q (t :: ts) -> kind t = T_WS -> blanks_run q' q' ts ts' -> blanks_run q q' (t :: ts) ts'.
(** the same with a predicted decision, BooleanExpressionParser.java:861-876, 901-916 *)
Inductive predicted_blanks (p d : nat) (st : list N) (q q' : N) : list token -> list token -> Prop :=
| pblanks_end ts : in_sync q ts -> predicts p d st ts 2 -> predicted_blanks p d st q q' ts ts
| pblanks_more t ts ts' :
    in_sync q (t :: ts) -> predicts p d st (t :: ts) 1 -> kind t = T_WS -> predicted_blanks p d st q' q' ts ts' ->
    predicted_blanks p d st q q' (t :: ts) ts'.

(** [expression_run p st ts t rest]: the method expression(p), called with the return states [st] and the tokens [ts] ahead, builds
    the context [t] and leaves [rest].  BooleanExpressionParser.java:396-659 *)
Inductive expression_run : nat -> list N -> list token -> ptree -> list token -> Prop :=
| run_expression p st ts l ts' t rest :
    in_sync 53 ts -> primary_run p st ts l ts' -> loop_run p 83 st l ts' t rest -> expression_run p st ts t rest
(** :408-525 *)
with primary_run : nat -> list N -> list token -> ptree -> list token -> Prop :=
| run_parent p st a ts e b rest :
    predicts p 1 st (a :: ts) 1 -> kind a = T_LPAREN -> expression_run 0 (return_state 27 :: st) ts e (b :: rest) -> kind b = T_RPAREN ->
    primary_run p st (a :: ts) (PParen e) rest
| run_not p st a ts e rest :
    predicts p 1 st (a :: ts) 2 -> kind a = T_NOT -> expression_run 15 (return_state 31 :: st) ts e rest ->
    primary_run p st (a :: ts) (PNot a e) rest
| run_negation p st a ts e rest :
    predicts p 1 st (a :: ts) 3 -> kind a = T_SUBTRACT -> expression_run 13 (return_state 33 :: st) ts e rest ->
    primary_run p st (a :: ts) (PNeg e) rest
| run_function p st a ts items rest :
    predicts p 1 st (a :: ts) 4 -> masked function_mask (kind a) = true -> wordlist_run p (return_state 35 :: st) ts items rest ->
    primary_run p st (a :: ts) (PFunc a items) rest
| run_types p st ts t rest :
    predicts p 1 st ts 5 -> types_run p (return_state 37 :: st) ts t rest -> primary_run p st ts t rest
| run_to p st f lo to hi rest :
    predicts p 1 st (f :: lo :: to :: hi :: rest) 6 -> kind f = T_FIELD -> kind lo = T_DECIMAL \/ kind lo = T_INTEGER -> kind to = T_TO ->
    kind hi = T_DECIMAL \/ kind hi = T_INTEGER -> primary_run p st (f :: lo :: to :: hi :: rest) (PTo f lo to hi) rest
| run_in p st f it ts items rest :
    predicts p 1 st (f :: it :: ts) 7 -> kind f = T_FIELD -> in_sync 45 (it :: ts) -> kind it = T_IN ->
    wordlist_run p (return_state 48 :: st) ts items rest -> primary_run p st (f :: it :: ts) (PIn f None it items) rest
| run_not_in p st f nt it ts items rest :
    predicts p 1 st (f :: nt :: it :: ts) 7 -> kind f = T_FIELD -> in_sync 45 (nt :: it :: ts) -> kind nt = T_NOT -> kind it = T_IN ->
    wordlist_run p (return_state 48 :: st) ts items rest -> primary_run p st (f :: nt :: it :: ts) (PIn f (Some nt) it items) rest
| run_array p st f op ts items rest :
    predicts p 1 st (f :: op :: ts) 8 -> kind f = T_FIELD -> kind op = T_CONTAINS_ALL \/ kind op = T_CONTAINS_ANY ->
    wordlist_run p (return_state 51 :: st) ts items rest -> primary_run p st (f :: op :: ts) (PArray f op items) rest
(** :526-648; the state is 83 before the first round and 85 after *)
with loop_run : nat -> N -> list N -> ptree -> list token -> ptree -> list token -> Prop :=
| run_exit p q st l ts : in_sync q ts -> predicts p 3 st ts 2 -> loop_run p q st l ts l ts
| run_more p q st l op ts i b r ts' t rest :
    in_sync q (op :: ts) -> predicts p 3 st (op :: ts) 1 -> in_sync 81 (op :: ts) -> predicts p 2 st (op :: ts) (S i) ->
    nth_error branches i = Some b -> (p <= required b)%nat -> operator b (kind op) = true ->
    expression_run (right_precedence b) (return_state (calling_state b) :: st) ts r ts' ->
    loop_run p 85 st (node b l op r) ts' t rest -> loop_run p q st l (op :: ts) t rest
(** wordlist(), :851-952 *)
with wordlist_run : nat -> list N -> list token -> list ptree -> list token -> Prop :=
| run_wordlist p st a ts ts1 e ts2 ts3 items rest :
    kind a = T_LPAREN -> predicted_blanks p 4 st 96 98 ts ts1 -> expression_run 0 (return_state 99 :: st) ts1 e ts2 ->
    blanks_run 103 105 ts2 ts3 -> items_run p 122 st ts3 items rest -> wordlist_run p st (a :: ts) (e :: items) rest
with items_run : nat -> N -> list N -> list token -> list ptree -> list token -> Prop :=
| run_close p q st b rest : in_sync q (b :: rest) -> kind b <> T_COMMA -> kind b = T_RPAREN -> items_run p q st (b :: rest) [] rest
| run_item p q st c ts ts1 e ts2 ts3 items rest :
    in_sync q (c :: ts) -> kind c = T_COMMA -> predicted_blanks p 6 st 110 112 ts ts1 -> expression_run 0 (return_state 113 :: st) ts1 e ts2 ->
    blanks_run 117 119 ts2 ts3 -> items_run p 124 st ts3 items rest -> items_run p q st (c :: ts) (e :: items) rest.

(** parse(), :129-150 *)
Definition parse_run (ts : list token) (t : ptree) : Prop :=
  exists e, expression_run 0 [return_state 22] (ts ++ [eof]) t [e] /\ kind e = T_EOF.
