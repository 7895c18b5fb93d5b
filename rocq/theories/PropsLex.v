(** C31 - C34: tokens. *)
From Coq Require Import QArith.
From Verif Require Import Base JNum BigDec Values Ops Ast Eval Lexer Grammar Listener Api SpecNum SpecCompare SpecArith SpecPath SpecLex
  LexFacts LexSplit LexWords LexApi LexCases CompareWitness.
Local Open Scope Z_scope.

(** C31: tokenising never fails, and every text splits into pieces in exactly one way by the longest-match rule; the tokens
    are the tokens among these pieces. *)
Theorem C31_maximal_munch : forall s, exists ps, splits s ps /\ lex s = Ok (tokens_of ps) /\ forall ps', splits s ps' -> ps' = ps.
Proof. exact lex_unique_split. Qed.
Print Assumptions C31_maximal_munch.

(** C31: the pieces put together are the text. *)
Theorem C31_pieces_are_the_text : forall s ps, splits s ps -> concat (map piece_text ps) = s.
Proof. exact splits_text. Qed.
Print Assumptions C31_pieces_are_the_text.

(** C31: any spacing of the tokens of a text, with white space between every two, is parsed to the same tree (and hence
    evaluated in the same way). *)
Theorem C31_white_space_irrelevant : forall s s' ts dflt, lex s = Ok ts -> spaced ts s' ->
  lex s' = Ok ts /\ parse_expression s' dflt = parse_expression s dflt.
Proof. exact spacing_irrelevant. Qed.
Print Assumptions C31_white_space_irrelevant.

(** C31, as one would expect it (nothing but white space is skipped), is refuted: characters no token starts with are
    ignored. *)
Theorem C31_no_other_character_lost_refuted : forall c s dflt, (forall k r u, In (k, r) lexicon -> ~ matches r (c :: u)) ->
  lex (c :: s) = lex s /\ parse_expression (c :: s) dflt = parse_expression s dflt.
Proof. exact foreign_skipped. Qed.
Print Assumptions C31_no_other_character_lost_refuted.

Example C31_case :
  splits (J "a  >=1#") [Token (Tok T_FIELD (J "a")); Blank (J "  "); Token (Tok T_GE (J ">=")); Token (Tok T_INTEGER (J "1")); Dropped (J "#")] /\
  spaced [Tok T_FIELD (J "a"); Tok T_GE (J ">="); Tok T_INTEGER (J "1")] (J " a >=   1") /\
  (forall k r u, In (k, r) lexicon -> ~ matches r (ch "#" :: u)) /\
  parse_expression (J "a @ = 5") None = parse_expression (J "a = 5") None.
Proof. exact lex_case. Qed.

(** C32: every documented keyword is recognised in upper and in lower case. *)
Theorem C32_two_spellings : forall k up lo, In (k, up, lo) keywords -> lex up = Ok [Tok k up] /\ lex lo = Ok [Tok k lo].
Proof. exact keyword_lex. Qed.
Print Assumptions C32_two_spellings.

(** C32: every other spelling of a keyword that differs in case only is a field name: case-insensitivity is refuted. *)
Theorem C32_mixed_case_refuted : forall k up lo w, In (k, up, lo) keywords -> to_lower w = lo -> w <> up -> w <> lo ->
  lex w = Ok [Tok T_FIELD w].
Proof. exact mixed_case_field. Qed.
Print Assumptions C32_mixed_case_refuted.

(** C32: a longer word that starts with a keyword is a field name, unless it is itself a keyword. *)
Theorem C32_longer_word : forall k up lo v u, In (k, up, lo) keywords -> v = up \/ v = lo ->
  Forall (fun c => word_char c = true) u -> ~ keyword (v ++ u) -> lex (v ++ u) = Ok [Tok T_FIELD (v ++ u)].
Proof. exact longer_word_field. Qed.
Print Assumptions C32_longer_word.

(** C32: every word of letters, digits, underscores and dots with a letter or underscore in it, other than a keyword, is a
    field name. *)
Theorem C32_field_names : forall w, field_name w -> lex w = Ok [Tok T_FIELD w].
Proof. exact lex_field. Qed.
Print Assumptions C32_field_names.

Example C32_case : In (T_AND, J "AND", J "and") keywords /\ to_lower (J "And") = J "and" /\ lex (J "And") = Ok [Tok T_FIELD (J "And")] /\
  lex (J "android") = Ok [Tok T_FIELD (J "android")] /\ lex (J "int") = Ok [Tok T_INT (J "int")] /\ field_name (J "user_1.age").
Proof. exact keyword_case. Qed.

(** C33: a quoted literal is the text between the quotes, alone and as the operand of a comparison. *)
Theorem C33_quoted_alone : forall E d q content, q = ch "'" \/ q = 34%N -> ~ In q content ->
  evaluate_arith E (q :: content ++ [q]) d = Ok (VStr content).
Proof. exact quoted_alone. Qed.
Print Assumptions C33_quoted_alone.

Theorem C33_quoted_compared : forall f sym op q content dflt, field_name f -> In (sym, op) comparators -> q = ch "'" \/ q = 34%N ->
  ~ In q content ->
  parse_expression (f ++ J " " ++ sym ++ J " " ++ q :: content ++ [q]) dflt = Ok (NCmp (NField (Some f)) (NUnary STRING (VStr content)) op STRING).
Proof. exact quoted_compared. Qed.
Print Assumptions C33_quoted_compared.

Example C33_case : ~ In (ch "'") (J " x AND (y) <> ""1""") /\ field_name (J "name") /\ In (J "!=", NOT_EQUAL) comparators /\
  evaluate_arith witness_env (J "' x AND (y) <> ""1""'") [] = Ok (VStr (J " x AND (y) <> ""1""")).
Proof. exact quoted_case. Qed.

(** C34: a digit sequence is the number it denotes, of the smallest type that holds it; parsing fails if it has more than
    64 bits. *)
Theorem C34_integer_literal : forall f sym op ds dflt, field_name f -> In (sym, op) comparators -> digits ds ->
  (fits32 (natural ds) ->
     parse_expression (f ++ J " " ++ sym ++ J " " ++ ds) dflt = Ok (NCmp (NField (Some f)) (NUnary INTEGER (VInt (natural ds))) op INTEGER)) /\
  (~ fits32 (natural ds) -> fits64 (natural ds) ->
     parse_expression (f ++ J " " ++ sym ++ J " " ++ ds) dflt = Ok (NCmp (NField (Some f)) (NUnary LONG (VLong (natural ds))) op LONG)) /\
  (~ fits64 (natural ds) -> parse_expression (f ++ J " " ++ sym ++ J " " ++ ds) dflt = Err NumberFormat).
Proof. exact integer_compared. Qed.
Print Assumptions C34_integer_literal.

(** C34: digits.digits is the exact decimal number. *)
Theorem C34_decimal_literal : forall f sym op a b dflt, field_name f -> In (sym, op) comparators -> digits a -> digits b ->
  exists x, parse_expression (f ++ J " " ++ sym ++ J " " ++ a ++ J "." ++ b) dflt = Ok (NCmp (NField (Some f)) (NUnary DECIMAL (VDec x)) op DECIMAL) /\
    (dec_value x == inject_Z (natural a) + inject_Z (natural b) * (10 # 1) ^ (- Z.of_nat (length b)))%Q.
Proof. exact decimal_compared. Qed.
Print Assumptions C34_decimal_literal.

(** C34, observed: comparing a field that holds a number with a digit sequence compares the two numbers. *)
Theorem C34_integer_observed : forall E d ks v p sym op ds dflt b, proper_data d -> ks <> [] -> Forall component ks -> field_name (path_text ks) ->
  to_lower (path_text ks) <> J "null" -> found d ks v -> number v p -> In (sym, op) comparators -> digits ds -> fits64 (natural ds) ->
  question op p (inject_Z (natural ds)) = Some b ->
  evaluate_boolean E (path_text ks ++ J " " ++ sym ++ J " " ++ ds) d dflt = Ok b.
Proof. exact integer_observed. Qed.
Print Assumptions C34_integer_observed.

Example C34_case : digits (J "0042") /\ natural (J "0042") = 42 /\ fits64 (natural (J "9223372036854775807")) /\ ~ fits64 (natural (J "9223372036854775808")) /\
  field_name (path_text [J "user"; J "age"]) /\ In (J ">=", GREATER_THAN_EQUAL) comparators /\
  evaluate_boolean witness_env (J "user.age >= 0042") [(J "user", VMap [(J "age", VLong 42)])] None = Ok true.
Proof. exact number_case. Qed.
