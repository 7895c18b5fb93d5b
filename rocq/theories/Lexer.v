(** The tokeniser generated from src/main/java/resources/BooleanExpression.g4:79-132 (BooleanExpressionLexer.java), as run
    by ANTLR's LexerATNSimulator: at every position the rule with the longest match wins, the earlier rule on a tie,
    whitespace is skipped, and on an error characters are dropped (Lexer.nextToken / Lexer.recover). *)
From Verif Require Import Base.

(** Token types in rule order, BooleanExpressionLexer.java:21-30. *)
Inductive tkind :=
| T_COMMA | T_IN | T_TO | T_AND | T_OR | T_NOT | T_TRUE | T_FALSE | T_CONTAINS_ALL | T_CONTAINS_ANY
| T_MIN | T_MAX | T_AVG | T_SUM | T_MEAN | T_MODE | T_MEDIAN | T_LEN | T_INT | T_DAYS_ELAPSED
| T_ADD | T_SUBTRACT | T_MULTIPLY | T_DIVIDE | T_MODULUS | T_EXPONENT
| T_NE | T_GT | T_GE | T_LT | T_LE | T_EQ | T_LPAREN | T_RPAREN
| T_DECIMAL | T_APP_VERSION | T_INTEGER | T_DATE | T_DATETIME | T_WS | T_WORD | T_SQSTR | T_DQSTR
| T_FIELD | T_ALPHANUMERIC | T_SQ | T_DQ | T_EOF.

Definition tkind_eq_dec (a b : tkind) : {a = b} + {a <> b}.
Proof. decide equality. Defined.
Definition tkind_eqb (a b : tkind) : bool := if tkind_eq_dec a b then true else false.

Record token := Tok { kind : tkind; text : jstr }.

(** Token.EOF; CommonToken.getText of the end-of-file token. *)
Definition eof : token := Tok T_EOF (J "<EOF>").

Fixpoint is_prefix (w s : jstr) : bool :=
  match w, s with
  | [], _ => true
  | a :: w', b :: s' => (a =? b)%N && is_prefix w' s'
  | _ :: _, [] => false
  end.

(** Each matcher returns the length of the longest match of its rule at the start of the text, 0 for none. *)
Definition m_lit (w : jstr) (s : jstr) : nat := if is_prefix w s then length w else 0.
Definition m_lits (ws : list jstr) (s : jstr) : nat := fold_right (fun w n => Nat.max (m_lit w s) n) 0 ws.
Definition m_span (p : jchar -> bool) (s : jstr) : nat := length (fst (span p s)).

(** [0-9]+ '.' [0-9]+   (g4:112) *)
Definition m_decimal (s : jstr) : nat :=
  let (a, r) := span is_digit s in
  match a, r with
  | _ :: _, c :: r' =>
      if (c =? ch ".")%N then
        match fst (span is_digit r') with [] => 0 | b => length a + 1 + length b end
      else 0
  | _, _ => 0
  end.

(** [0-9] ('.' INTEGER)+   (g4:113): an automaton; [acc] is the length of the longest match so far. *)
Inductive vstate := WantDot | WantDigit | InDigits.
Fixpoint m_ver (s : jstr) (st : vstate) (pos acc : nat) : nat :=
  match s with
  | [] => acc
  | c :: s' =>
      match st with
      | WantDot => if (c =? ch ".")%N then m_ver s' WantDigit (S pos) acc else acc
      | WantDigit => if is_digit c then m_ver s' InDigits (S pos) (S pos) else acc
      | InDigits =>
          if is_digit c then m_ver s' InDigits (S pos) (S pos)
          else if (c =? ch ".")%N then m_ver s' WantDigit (S pos) acc else acc
      end
  end.
Definition m_app_version (s : jstr) : nat :=
  match s with
  | c :: s' => if is_digit c then m_ver s' WantDot 1 0 else 0
  | [] => 0
  end.

(** A fixed sequence of character classes (g4:126-132). *)
Fixpoint matches_classes (cs : list (jchar -> bool)) (s : jstr) : bool :=
  match cs, s with
  | [], _ => true
  | p :: cs', c :: s' => p c && matches_classes cs' s'
  | _ :: _, [] => false
  end.
Definition m_classes (cs : list (jchar -> bool)) (s : jstr) : nat := if matches_classes cs s then length cs else 0.
Definition is_char (c : jchar) : jchar -> bool := fun x => (x =? c)%N.
Definition date_classes : list (jchar -> bool) :=
  [is_digit; is_digit; is_digit; is_digit; is_char (ch "-"); is_digit; is_digit; is_char (ch "-"); is_digit; is_digit].
Definition datetime_classes : list (jchar -> bool) :=
  date_classes ++ [is_char (ch " "); is_digit; is_digit; is_char (ch ":"); is_digit; is_digit; is_char (ch ":");
                   is_digit; is_digit].

(** '\'' .*? '\''  and  '"' .*? '"'  (g4:118-120): up to the next quote of the same kind. *)
Definition m_quoted (q : jchar) (s : jstr) : nat :=
  match s with
  | c :: s' =>
      if (c =? q)%N then
        let (body, rest) := span (fun x => negb (x =? q)%N) s' in
        match rest with [] => 0 | _ => length body + 2 end
      else 0
  | [] => 0
  end.

Definition is_ws (c : jchar) : bool := ((c =? 32) || (c =? 13) || (c =? 9) || (c =? 12) || (c =? 10))%N.
Definition is_alnum (c : jchar) : bool := is_digit c || is_upper c || is_lower c.
Definition is_field_char (c : jchar) : bool := is_alnum c || (c =? ch "_")%N || (c =? ch ".")%N.

(** The rules in grammar order (g4:53 for the comma, g4:79-124 for the rest). *)
Definition rules : list (tkind * (jstr -> nat)) :=
  [ (T_COMMA, m_lit (J ","));
    (T_IN, m_lits [J "IN"; J "in"]);
    (T_TO, m_lits [J "TO"; J "to"]);
    (T_AND, m_lits [J "AND"; J "and"; J "&&"]);
    (T_OR, m_lits [J "OR"; J "or"; J "||"]);
    (T_NOT, m_lits [J "NOT"; J "not"]);
    (T_TRUE, m_lits [J "TRUE"; J "true"]);
    (T_FALSE, m_lits [J "FALSE"; J "false"]);
    (T_CONTAINS_ALL, m_lits [J "CONTAINS_ALL"; J "contains_all"]);
    (T_CONTAINS_ANY, m_lits [J "CONTAINS_ANY"; J "contains_any"]);
    (T_MIN, m_lits [J "MIN"; J "min"]);
    (T_MAX, m_lits [J "MAX"; J "max"]);
    (T_AVG, m_lits [J "AVG"; J "avg"]);
    (T_SUM, m_lits [J "SUM"; J "sum"]);
    (T_MEAN, m_lits [J "MEAN"; J "mean"]);
    (T_MODE, m_lits [J "MODE"; J "mode"]);
    (T_MEDIAN, m_lits [J "MEDIAN"; J "median"]);
    (T_LEN, m_lits [J "LEN"; J "len"]);
    (T_INT, m_lits [J "INT"; J "int"]);
    (T_DAYS_ELAPSED, m_lits [J "DAYS_ELAPSED"; J "days_elapsed"]);
    (T_ADD, m_lit (J "+"));
    (T_SUBTRACT, m_lit (J "-"));
    (T_MULTIPLY, m_lit (J "*"));
    (T_DIVIDE, m_lit (J "/"));
    (T_MODULUS, m_lit (J "%"));
    (T_EXPONENT, m_lit (J "^"));
    (T_NE, m_lit (J "!="));
    (T_GT, m_lit (J ">"));
    (T_GE, m_lit (J ">="));
    (T_LT, m_lit (J "<"));
    (T_LE, m_lit (J "<="));
    (T_EQ, m_lit (J "="));
    (T_LPAREN, m_lit (J "("));
    (T_RPAREN, m_lit (J ")"));
    (T_DECIMAL, m_decimal);
    (T_APP_VERSION, m_app_version);
    (T_INTEGER, m_span is_digit);
    (T_DATE, m_classes date_classes);
    (T_DATETIME, m_classes datetime_classes);
    (T_WS, m_span is_ws);
    (T_WORD, fun s => Nat.max (m_quoted (ch "'") s) (m_quoted 34%N s));
    (T_SQSTR, m_quoted (ch "'"));
    (T_DQSTR, m_quoted 34%N);
    (T_FIELD, m_span is_field_char);
    (T_ALPHANUMERIC, m_classes [is_alnum]);
    (T_SQ, m_quoted (ch "'"));
    (T_DQ, m_quoted 34%N) ].

(** Longest match; the first rule wins on a tie (LexerATNSimulator.failOrAccept with the alternatives in rule order). *)
Definition better (s : jstr) (best : tkind * nat) (r : tkind * (jstr -> nat)) : tkind * nat :=
  let n := snd r s in if (snd best <? n)%nat then (fst r, n) else best.
Definition best_match (s : jstr) : tkind * nat := fold_left (better s) rules (T_EOF, 0).

(** CharStreams.fromString (BoolParser.java:34) delivers code points: the number of UTF-16 units of the first one. *)
Definition is_high (c : jchar) : bool := ((55296 <=? c) && (c <=? 56319))%N.
Definition is_low (c : jchar) : bool := ((56320 <=? c) && (c <=? 57343))%N.
Definition char_units (s : jstr) : nat :=
  match s with c :: d :: _ => if is_high c && is_low d then 2 else 1 | _ => length s end.

(** How many units an error drops.  The simulator has consumed the characters that were a prefix of some rule
    when it fails, and Lexer.recover drops one more unless the input is exhausted.  Only the openings '!', '&', '|'
    and an unclosed quote can be such prefixes. *)
Definition error_skip (s : jstr) : nat :=
  match s with
  | [] => 0
  | c :: r =>
      if (c =? ch "'")%N || (c =? 34)%N then length s
      else if (c =? ch "!")%N || (c =? ch "&")%N || (c =? ch "|")%N then S (char_units r)
      else char_units s
  end.

(** Lexer.nextToken until the end of the input.  The input is a sequence of UTF-16 units; C52 proves that the automaton of the
    generated lexer, run on the code points, finds the same tokens. *)
Fixpoint lex_from (fuel : nat) (s : jstr) : res (list token) :=
  match s with
  | [] => Ok []
  | _ =>
      match fuel with
      | O => Err OutOfFuel
      | S f =>
          let (k, n) := best_match s in
          match n with
          | O => lex_from f (skipn (error_skip s) s)
          | _ =>
              ts <- lex_from f (skipn n s) ;;
              Ok (match k with T_WS => ts | _ => Tok k (firstn n s) :: ts end)
          end
      end
  end.
Definition lex (s : jstr) : res (list token) := lex_from (length s) s.
