(** C52: the tables of the generated lexer. *)
From Verif Require Import Base Lexer SpecLex LexerAtn AtnFacts AtnCases.

(** C52: the automaton serialised in the generated lexer, run as the ANTLR runtime runs it, never fails, and the tokens it finds
    in a text are those of the split of the text by the longest-match rule of the grammar (unique by C31). *)
Theorem C52_generated_lexer : forall s, exists ps, splits s ps /\ generated_lex s = Some (tokens_of ps).
Proof. exact generated_split. Qed.
Print Assumptions C52_generated_lexer.

(** C52: hence the tokens of the model, on which the other theorems are stated, are the tokens of the generated lexer. *)
Theorem C52_same_tokens : forall s, exists ts, generated_lex s = Some ts /\ lex s = Ok ts.
Proof. exact generated_same. Qed.
Print Assumptions C52_same_tokens.

Example C52_case :
  generated_lex (J "not a_1 >= 1.0.2 && d IN ('x y', 2020-01-01 10:00:00)") =
    Some [Tok T_NOT (J "not"); Tok T_FIELD (J "a_1"); Tok T_GE (J ">="); Tok T_APP_VERSION (J "1.0.2"); Tok T_AND (J "&&"); Tok T_FIELD (J "d"); Tok T_IN (J "IN");
          Tok T_LPAREN (J "("); Tok T_WORD (J "'x y'"); Tok T_COMMA (J ","); Tok T_DATETIME (J "2020-01-01 10:00:00"); Tok T_RPAREN (J ")")] /\
  generated_lex (J "a !" ++ [55357; 56832]%N ++ J "= 5") = Some [Tok T_FIELD (J "a"); Tok T_EQ (J "="); Tok T_INTEGER (J "5")].
Proof. exact atn_case. Qed.
