(** A condition on a list whose first element has two operators. *)
From Verif Require Import RecoverFacts.
From Verif Require Import Base JNum BigDec Dates Values Ops Funcs Ast Eval Lexer Grammar Listener Api SpecArith SpecLex SpecGrammar SpecSyntax SpecText SpecChain SpecElements SpecDoubled
  LexFacts LexSplit LexWords LexApi LexCases SyntaxFacts ParseFacts ListenFacts TextFacts TextApi TextCases ChainFacts ChainText ElementFacts ElementText ElementCases CompareWitness.

Definition long_words : list jstr := J "c" :: J "IN" :: bracketed ([J "a"; J "+"; J "1"; J "+"; J "1"; J ","] ++ commas [J "4"]).
Definition eight (c : Z) : data := [(J "a", VInt 7); (J "b", VInt 2); (J "c", VInt c)].
Lemma long_doubled : exists n, doubled long_words n.
Proof.
  eexists. eapply doubled_in; [field_name_tac|sym|]. eapply long; [fieldop|intop (J "1")|intop (J "1")|sym|sym|]. split; [discriminate|]. constructor; [intop (J "4")|constructor].
Qed.
Lemma long_case : (exists m, passage Nothing Logic simple_start m) /\ (exists n, doubled long_words n) /\ followers [(J "OR", OR, simple_start)] /\
  unwords (chained simple_start [(J "AND", AND, long_words)]) = J "b = 2 AND c IN ( a + 1 + 1 , 4 )" /\
  evaluate_boolean witness_env (J "b = 2 AND c IN ( a + 1 + 1 , 4 )") (eight 9) None = Ok false /\
  evaluate_boolean witness_env (J "b = 2 AND c IN ( a + 1 + 1 , 4 )") (eight 10) None = Ok true.
Proof.
  destruct simple_opening as [n [C1 C2]]. split; [exists n; apply passage_clause, C1|]. split; [exact long_doubled|].
  split; [constructor; [|constructor]; split; [sym|]; exists Logic, n; exact C2|]. split; [|split]; vm_compute; reflexivity.
Qed.
