(** Examples for the generated parser. *)
From Coq Require Import FMapPositive.
From Verif Require Import Base Lexer Grammar SpecGrammar LexerAtn ParserAtn NetFacts NetRun NetMain NetFinal Listener Api.
Local Open Scope Z_scope.

Definition net_text : jstr := J "a = 1 && - b IN (2, 'x') || f 1 to 3".
Definition net_tokens : list token :=
  [Tok T_FIELD (J "a"); Tok T_EQ (J "="); Tok T_INTEGER (J "1"); Tok T_AND (J "&&"); Tok T_SUBTRACT (J "-"); Tok T_FIELD (J "b"); Tok T_IN (J "IN"); Tok T_LPAREN (J "(");
   Tok T_INTEGER (J "2"); Tok T_COMMA (J ","); Tok T_WORD (J "'x'"); Tok T_RPAREN (J ")"); Tok T_OR (J "||"); Tok T_FIELD (J "f"); Tok T_INTEGER (J "1"); Tok T_TO (J "to");
   Tok T_INTEGER (J "3")].
Definition net_ptree : ptree :=
  PBin (PBin (PCmp (PTypes (Tok T_FIELD (J "a"))) (Tok T_EQ (J "=")) (PTypes (Tok T_INTEGER (J "1")))) (Tok T_AND (J "&&"))
             (PNeg (PIn (Tok T_FIELD (J "b")) None (Tok T_IN (J "IN")) [PTypes (Tok T_INTEGER (J "2")); PTypes (Tok T_WORD (J "'x'"))])))
       (Tok T_OR (J "||")) (PTo (Tok T_FIELD (J "f")) (Tok T_INTEGER (J "1")) (Tok T_TO (J "to")) (Tok T_INTEGER (J "3"))).
Lemma net_lexed : generated_lex net_text = Some net_tokens.
Proof. vm_compute. reflexivity. Qed.
Lemma net_parsed : parse_run net_tokens net_ptree.
Proof. apply run_is_parse; [repeat constructor; discriminate |]. vm_compute. reflexivity. Qed.
Definition bad_tokens : list token := [Tok T_FIELD (J "a"); Tok T_EQ (J "="); Tok T_INTEGER (J "1"); Tok T_RPAREN (J ")")].
Lemma net_case :
  generated_lex net_text = Some net_tokens /\ automaton_accepts net_tokens /\ parse_run net_tokens net_ptree /\
  generated_lex (J "a = 1 )") = Some bad_tokens /\ ~ automaton_accepts bad_tokens.
Proof.
  split; [exact net_lexed |]. split; [exact (accepted_of_run _ _ net_parsed) |]. split; [exact net_parsed |]. split; [vm_compute; reflexivity |].
  intros H. destruct (run_of_accepted bad_tokens) as (t & P & _); [repeat constructor; discriminate | exact H |]. vm_compute in P. discriminate P.
Qed.
