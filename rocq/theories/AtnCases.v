(** Examples for C52. *)
From Verif Require Import Base Lexer LexerAtn.
Lemma atn_case :
  generated_lex (J "not a_1 >= 1.0.2 && d IN ('x y', 2020-01-01 10:00:00)") =
    Some [Tok T_NOT (J "not"); Tok T_FIELD (J "a_1"); Tok T_GE (J ">="); Tok T_APP_VERSION (J "1.0.2"); Tok T_AND (J "&&"); Tok T_FIELD (J "d"); Tok T_IN (J "IN");
          Tok T_LPAREN (J "("); Tok T_WORD (J "'x y'"); Tok T_COMMA (J ","); Tok T_DATETIME (J "2020-01-01 10:00:00"); Tok T_RPAREN (J ")")] /\
  generated_lex (J "a !" ++ [55357; 56832]%N ++ J "= 5") = Some [Tok T_FIELD (J "a"); Tok T_EQ (J "="); Tok T_INTEGER (J "5")].
Proof. split; vm_compute; reflexivity. Qed.
