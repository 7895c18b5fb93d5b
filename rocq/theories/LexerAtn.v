(** The generated lexer itself: the automaton serialised in BooleanExpressionLexer.java:125-417 as ANTLR 4.13 reads
    (ATNDeserializer.deserialize, called at BooleanExpressionLexer.java:418-419) and runs it (LexerATNSimulator.match, Lexer.nextToken).
    The ANTLR runtime is not in /repo; these definitions follow its published source.  Simplification: the cache of
    automaton states (_decisionToDFA, BooleanExpressionLexer.java:420-425) is left out: it stores results of the functions below. *)
From Coq Require Import FMapPositive.
From Verif Require Import Base Lexer LexerTable.
Local Open Scope Z_scope.

(** ATNDeserializer.decodeIntsEncodedAs16BitWords *)
Fixpoint decode (ws : list N) : list Z :=
  match ws with
  | [] => []
  | v :: ws' =>
      if (v <? 32768)%N then Z.of_N v :: decode ws'
      else match ws' with
           | w :: ws'' => (if (v =? 65535)%N && (w =? 65535)%N then -1 else (Z.of_N v - 32768) * 65536 + Z.of_N w) :: decode ws''
           | [] => []
           end
  end.

(** Reading the numbers one after the other. *)
Definition reader (A : Type) := list Z -> option (A * list Z).
Definition bindr {A B} (r : reader A) (k : A -> reader B) : reader B :=
  fun l => match r l with Some (a, l') => k a l' | None => None end.
Notation "x <<- r ;; k" := (bindr r (fun x => k)) (at level 61, r at next level, right associativity).
Definition done {A} (a : A) : reader A := fun l => Some (a, l).
Definition next : reader Z := fun l => match l with x :: l' => Some (x, l') | [] => None end.
Fixpoint times {A} (n : nat) (r : reader A) : reader (list A) :=
  match n with O => done [] | S m => a <<- r ;; l <<- times m r ;; done (a :: l) end.
Definition many {A} (r : reader A) : reader (list A) := n <<- next ;; times (Z.to_nat n) r.

Record edge := Edge { src : Z; trg : Z; etype : Z; arg1 : Z; arg2 : Z; arg3 : Z }.
Record table := Table {
  states : list (Z * Z);              (* type, rule *)
  nongreedy : list Z;
  rule_starts : list (Z * Z);         (* start state, token type *)
  mode_starts : list Z;
  sets : list (Z * list (Z * Z));     (* contains EOF; intervals *)
  edges : list edge;
  actions : list (Z * Z * Z) }.

(** A state: block starts (3, 4, 5) and loop ends (12) carry one more number. *)
Definition read_state : reader (Z * Z) :=
  t <<- next ;;
  if t =? 0 then done (0, -1) else
  r <<- next ;;
  if existsb (Z.eqb t) [3; 4; 5; 12] then _x <<- next ;; done (t, r) else done (t, r).
Definition pair_of : reader (Z * Z) := a <<- next ;; b <<- next ;; done (a, b).
Definition read_set : reader (Z * list (Z * Z)) := n <<- next ;; e <<- next ;; l <<- times (Z.to_nat n) pair_of ;; done (e, l).
Definition read_edge : reader edge :=
  s <<- next ;; t <<- next ;; k <<- next ;; a <<- next ;; b <<- next ;; c <<- next ;; done (Edge s t k a b c).
Definition read_action : reader (Z * Z * Z) := t <<- next ;; a <<- next ;; b <<- next ;; done (t, a, b).
(** ATNDeserializer.deserialize for a lexer (grammar type 0), serialisation version 4. *)
Definition read_table : reader table :=
  version <<- next ;; grammar <<- next ;; _maxtok <<- next ;;
  if negb ((version =? 4) && (grammar =? 0)) then (fun _ => None) else
  ss <<- many read_state ;;
  ng <<- many next ;;
  _prec <<- many next ;;
  rs <<- many pair_of ;;
  ms <<- many next ;;
  sets <<- many read_set ;;
  es <<- many read_edge ;;
  _dec <<- many next ;;
  acts <<- many read_action ;;
  done (Table ss ng rs ms sets es acts).

(** ATNDeserializer.edgeFactory: the transitions by type.  Not supported, and not present: predicates, labels that match the end
    of the input. *)
Inductive transition :=
| Epsilon (to : N)
| Call (start follow : N)                      (* RuleTransition *)
| Action (to : N) (action : Z)
| Chars (to : N) (l : list (N * N))            (* atom, range, set *)
| Others (to : N) (l : list (N * N))           (* not set *)
| Wildcard (to : N).
Definition interval (i : Z * Z) : N * N := (Z.to_N (fst i), Z.to_N (snd i)).
Definition transition_of (ss : list (Z * list (Z * Z))) (e : edge) : option transition :=
  let to := Z.to_N (trg e) in
  match etype e with
  | 1 => Some (Epsilon to)
  | 2 => if arg3 e =? 0 then Some (Chars to [interval (arg1 e, arg2 e)]) else None
  | 3 => Some (Call (Z.to_N (arg1 e)) to)
  | 5 => if arg3 e =? 0 then Some (Chars to [interval (arg1 e, arg1 e)]) else None
  | 6 => Some (Action to (arg2 e))
  | 7 => match nth_error ss (Z.to_nat (arg1 e)) with Some (0, l) => Some (Chars to (map interval l)) | _ => None end
  | 8 => match nth_error ss (Z.to_nat (arg1 e)) with Some (0, l) => Some (Others to (map interval l)) | _ => None end
  | 9 => Some (Wildcard to)
  | _ => None
  end.

(** The automaton: transitions in order, the rule whose stop state (type 7) a state is, the non-greedy decisions. *)
Record net := Net {
  transitions_map : PositiveMap.t (list transition);
  stops : PositiveMap.t Z;
  lazy_states : list N;
  start_state : N;
  token_types : list Z;
  kinds_of_actions : list Z }.
Definition key (q : N) : positive := N.succ_pos q.
Definition transitions (a : net) (q : N) : list transition :=
  match PositiveMap.find (key q) (transitions_map a) with Some l => l | None => [] end.
Definition stop_rule (a : net) (q : N) : option Z := PositiveMap.find (key q) (stops a).
Fixpoint add_edges (ss : list (Z * list (Z * Z))) (es : list edge) : option (PositiveMap.t (list transition)) :=
  match es with
  | [] => Some (PositiveMap.empty _)
  | e :: es' =>
      match transition_of ss e, add_edges ss es' with
      | Some t, Some m =>
          let k := key (Z.to_N (src e)) in
          Some (PositiveMap.add k (t :: match PositiveMap.find k m with Some l => l | None => [] end) m)
      | _, _ => None
      end
  end.
Fixpoint add_stops (q : N) (ss : list (Z * Z)) : PositiveMap.t Z :=
  match ss with
  | [] => PositiveMap.empty _
  | (t, r) :: ss' => let m := add_stops (q + 1) ss' in if t =? 7 then PositiveMap.add (key q) r m else m
  end.
Definition net_of (t : table) : option net :=
  match add_edges (sets t) (edges t), mode_starts t with
  | Some m, [s] => Some (Net m (add_stops 0 (states t)) (map Z.to_N (nongreedy t)) (Z.to_N s) (map snd (rule_starts t)) (map (fun a => fst (fst a)) (actions t)))
  | _, _ => None
  end.
Definition lexer_net : option net :=
  match read_table (decode serialized_atn) with Some (t, []) => net_of t | _ => None end.

(** LexerATNConfig: state, alternative (rule), return states of the calls, whether a non-greedy decision was passed, actions to run. *)
Record conf := Conf { at_state : N; alternative : N; stack : list N; passed : bool; todo : list Z }.
Definition conf_eq_dec (a b : conf) : {a = b} + {a <> b}.
Proof. decide equality; first [apply (list_eq_dec Z.eq_dec) | apply Bool.bool_dec | apply (list_eq_dec N.eq_dec) | apply N.eq_dec]. Defined.
(** OrderedATNConfigSet.add *)
Definition add (c : conf) (cs : list conf) : list conf := if in_dec conf_eq_dec c cs then cs else cs ++ [c].

Section Simulator.
Context (a : net).

Definition move (c : conf) (q : N) (st : list N) (acts : list Z) : conf :=
  Conf q (alternative c) st (passed c || existsb (N.eqb q) (lazy_states a)) acts.

(** ATNState.onlyHasEpsilonTransitions *)
Definition is_epsilon (t : transition) : bool := match t with Epsilon _ | Call _ _ | Action _ _ => true | _ => false end.
Definition only_epsilon (q : N) : bool := match transitions a q with [] => false | ts => forallb is_epsilon ts end.

(** LexerATNSimulator.getEpsilonTarget *)
Definition epsilon_target (c : conf) (t : transition) : option conf :=
  match t with
  | Epsilon q => Some (move c q (stack c) (todo c))
  | Call q f => Some (move c q (f :: stack c) (todo c))
  | Action q i => Some (move c q (stack c) (match stack c with [] => todo c ++ [i] | _ => todo c end))
  | _ => None
  end.

(** LexerATNSimulator.closure; the result says whether the rule has reached its end. *)
Fixpoint closure (fuel : nat) (c : conf) (cs : list conf) (reached : bool) : option (list conf * bool) :=
  match fuel with
  | O => None
  | S f =>
      match stop_rule a (at_state c) with
      | Some _ =>
          match stack c with
          | [] => Some (add c cs, true)
          | r :: st => closure f (move c r st (todo c)) cs reached
          end
      | None =>
          let cs1 := if only_epsilon (at_state c) then cs else if negb reached || negb (passed c) then add c cs else cs in
          (fix all ts cs reached :=
             match ts with
             | [] => Some (cs, reached)
             | t :: ts' =>
                 match epsilon_target c t with
                 | None => all ts' cs reached
                 | Some c' => match closure f c' cs reached with Some (cs', r') => all ts' cs' r' | None => None end
                 end
             end) (transitions a (at_state c)) cs1 reached
      end
  end.

(** Transition.matches for a character, ANTLR's range being 0 to 0x10FFFF *)
Definition inside (l : list (N * N)) (x : N) : bool := existsb (fun i => (fst i <=? x)%N && (x <=? snd i)%N) l.
Definition target (t : transition) (x : N) : option N :=
  match t with
  | Chars q l => if inside l x then Some q else None
  | Others q l => if inside l x then None else Some q
  | Wildcard q => Some q
  | _ => None
  end.

(** LexerATNSimulator.getReachableConfigSet *)
Definition depth : nat := 64.
Fixpoint reach_one (c : conf) (ts : list transition) (x : N) (reached : bool) (acc : list conf) : option (list conf * bool) :=
  match ts with
  | [] => Some (acc, false)
  | t :: ts' =>
      match target t x with
      | None => reach_one c ts' x reached acc
      | Some q =>
          match closure depth (move c q (stack c) (todo c)) acc reached with
          | None => None
          | Some (acc', true) => Some (acc', true)
          | Some (acc', false) => reach_one c ts' x reached acc'
          end
      end
  end.
Fixpoint reach (cs : list conf) (x : N) (skip : option N) (acc : list conf) : option (list conf) :=
  match cs with
  | [] => Some acc
  | c :: cs' =>
      let reached := match skip with Some i => (i =? alternative c)%N | None => false end in
      if reached && passed c then reach cs' x skip acc else
      match reach_one c (transitions a (at_state c)) x reached acc with
      | None => None
      | Some (acc', true) => reach cs' x (Some (alternative c)) acc'
      | Some (acc', false) => reach cs' x skip acc'
      end
  end.
Definition step (cs : list conf) (x : N) : option (list conf) := reach cs x None [].

(** LexerATNSimulator.computeStartState *)
Fixpoint start_from (ts : list transition) (i : N) (cs : list conf) : option (list conf) :=
  match ts with
  | [] => Some cs
  | t :: ts' =>
      match t with
      | Epsilon q => match closure depth (Conf q i [] false []) cs false with Some (cs', _) => start_from ts' (i + 1) cs' | None => None end
      | _ => None
      end
  end.
Definition start : option (list conf) := start_from (transitions a (start_state a)) 1 [].

(** Token types, BooleanExpressionLexer.java:21-30 *)
Definition kinds : list tkind :=
  [ T_COMMA; T_IN; T_TO; T_AND; T_OR; T_NOT; T_TRUE; T_FALSE; T_CONTAINS_ALL; T_CONTAINS_ANY; T_MIN; T_MAX; T_AVG; T_SUM; T_MEAN;
    T_MODE; T_MEDIAN; T_LEN; T_INT; T_DAYS_ELAPSED; T_ADD; T_SUBTRACT; T_MULTIPLY; T_DIVIDE; T_MODULUS; T_EXPONENT; T_NE; T_GT;
    T_GE; T_LT; T_LE; T_EQ; T_LPAREN; T_RPAREN; T_DECIMAL; T_APP_VERSION; T_INTEGER; T_DATE; T_DATETIME; T_WS; T_WORD; T_SQSTR;
    T_DQSTR; T_FIELD; T_ALPHANUMERIC; T_SQ; T_DQ ].
(** LexerATNSimulator.addDFAState: the first configuration in a stop state decides; LexerSkipAction has type 6. *)
Fixpoint accepting (cs : list conf) : option (tkind * bool) :=
  match cs with
  | [] => None
  | c :: cs' =>
      match stop_rule a (at_state c) with
      | Some r =>
          let skips := existsb (fun i => match nth_error (kinds_of_actions a) (Z.to_nat i) with Some 6 => true | _ => false end) (todo c) in
          match nth_error (token_types a) (Z.to_nat r) with
          | Some t => match nth_error kinds (Z.to_nat (t - 1)) with Some k => Some (k, skips) | None => None end
          | None => None
          end
      | None => accepting cs'
      end
  end.

(** CharStreams.fromString: the text as a sequence of code points.  A character is kept as its one or two UTF-16 units. *)
Fixpoint characters (s : jstr) : list jstr :=
  match s with
  | [] => []
  | c :: s' =>
      match s' with
      | d :: s'' => if is_high c && is_low d then [c; d] :: characters s'' else [c] :: characters s'
      | [] => [[c]]
      end
  end.
Definition code_point (u : jstr) : N :=
  match u with
  | [c; d] => (65536 + (c - 55296) * 1024 + (d - 56320))%N
  | c :: _ => c
  | [] => 0%N
  end.

(** LexerATNSimulator.execATN and failOrAccept: how many characters were matched, or were consumed in vain. *)
Inductive outcome := Accept (k : tkind) (skips : bool) (n : nat) | NoViable (n : nat).
Definition fail_or_accept (best : option (tkind * bool * nat)) (pos : nat) : outcome :=
  match best with Some (k, sk, n) => Accept k sk n | None => NoViable pos end.
Fixpoint exec (cs : list conf) (rest : list jstr) (pos : nat) (best : option (tkind * bool * nat)) : option outcome :=
  match rest with
  | [] => Some (fail_or_accept best pos)
  | u :: rest' =>
      match step cs (code_point u) with
      | None => None
      | Some [] => Some (fail_or_accept best pos)
      | Some cs' => exec cs' rest' (S pos) (match accepting cs' with Some (k, sk) => Some (k, sk, S pos) | None => best end)
      end
  end.

(** Lexer.nextToken until the end of the input; Lexer.recover drops the character at which the automaton failed. *)
Fixpoint tokens_from (fuel : nat) (cs0 : list conf) (rest : list jstr) : option (list token) :=
  match rest with
  | [] => Some []
  | _ =>
      match fuel with
      | O => None
      | S f =>
          match exec cs0 rest 0 None with
          | None => None
          | Some (NoViable n) => tokens_from f cs0 (skipn (S n) rest)
          | Some (Accept k skips n) =>
              match tokens_from f cs0 (skipn n rest) with
              | None => None
              | Some ts => Some (if skips then ts else Tok k (concat (firstn n rest)) :: ts)
              end
          end
      end
  end.
End Simulator.

Definition generated_lex (s : jstr) : option (list token) :=
  match lexer_net with
  | Some a => match start a with Some cs0 => tokens_from a (length s) cs0 (characters s) | None => None end
  | None => None
  end.
