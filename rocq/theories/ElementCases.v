(** Concrete conditions with computed elements. *)
From Verif Require Import RecoverFacts.
From Verif Require Import Base JNum BigDec Dates Values Ops Funcs Ast Eval Lexer Grammar Listener Api SpecArith SpecLex SpecGrammar SpecSyntax SpecText SpecChain SpecElements
  LexFacts LexSplit LexWords LexApi LexCases SyntaxFacts ParseFacts ListenFacts TextFacts TextApi TextCases ChainFacts ChainText ElementFacts ElementText CompareWitness.

Definition quotient : list (list jstr) := [[J "a"; J "/"; J "b"]].
Definition rounded : list jstr := (J "INT" :: bracketed (listing quotient)) ++ [J "="; J "3"].
Definition chosen : list jstr := J "c" :: J "IN" :: bracketed (listing [[J "a"; J "-"; J "5"]; [J "1"]]).
Definition simple_start : list jstr := [J "b"; J "="; J "2"].
Definition seven : data := [(J "a", VInt 7); (J "b", VInt 2); (J "c", VInt 9)].

Lemma quotient_elements : element_list quotient [NArith (NField (Some (J "a"))) (Some (NField (Some (J "b")))) DIVIDE].
Proof. constructor; [|constructor]. apply element_computed; [fieldop|sym|fieldop]. Qed.
Lemma quotient_compound : compound quotient.
Proof. constructor. discriminate. Qed.
Lemma rounded_laden : exists n, laden Logic quotient rounded n.
Proof. eexists. eapply (laden_left (J "INT") F_INT quotient _ (J "=") EQUALS (J "3") (NUnary INTEGER (VInt 3)) INTEGER); [sym|discriminate|exact quotient_elements|sym|intop (J "3")]. Qed.
Lemma chosen_laden : exists n, laden Member [[J "a"; J "-"; J "5"]; [J "1"]] chosen n.
Proof.
  eexists. eapply laden_in; [field_name_tac|sym|discriminate|]. constructor; [apply element_computed; [fieldop|sym|intop (J "5")]|].
  constructor; [constructor; intop (J "1")|constructor].
Qed.
Lemma simple_opening : exists n, clause Nothing Logic simple_start n /\ clause Logic Logic simple_start n.
Proof. eexists. split; apply (clause_words _ (J "b") (J "=") (J "2") (NField (Some (J "b"))) EQUALS (NUnary INTEGER (VInt 2)) INTEGER); auto; try fieldop; try sym; intop (J "2"). Qed.

Lemma first_case : (exists n, laden Logic quotient rounded n) /\ followers [(J "AND", AND, simple_start)] /\
  unwords (chained rounded [(J "AND", AND, simple_start)]) = J "INT ( a / b ) = 3 AND b = 2" /\
  evaluate_boolean witness_env (J "INT ( a / b ) = 3 AND b = 2") seven None = Ok true.
Proof.
  split; [exact rounded_laden|]. split; [|split; vm_compute; reflexivity]. constructor; [|constructor]. split; [sym|]. destruct simple_opening as [n [_ C]]. exists Logic, n. exact C.
Qed.
Lemma later_case : (exists m, passage Nothing Logic simple_start m) /\ compound quotient /\ compound [[J "a"; J "-"; J "5"]; [J "1"]] /\
  (exists n, laden Logic quotient rounded n) /\ (exists n, laden Member [[J "a"; J "-"; J "5"]; [J "1"]] chosen n) /\
  unwords (chained (simple_start ++ J "AND" :: rounded) []) = J "b = 2 AND INT ( a / b ) = 3" /\
  unwords (chained (simple_start ++ J "OR" :: chosen) []) = J "b = 2 OR c IN ( a - 5 , 1 )" /\
  evaluate_boolean witness_env (J "b = 2") seven None = Ok true /\ evaluate_boolean witness_env (J "INT ( a / b ) = 3") seven None = Ok true /\
  evaluate_boolean witness_env (J "b = 2 AND INT ( a / b ) = 3") seven None = Ok false /\
  evaluate_boolean witness_env (J "b = 2 OR c IN ( a - 5 , 1 )") seven None = Ok false.
Proof.
  split; [destruct simple_opening as [n [C _]]; exists n; apply passage_clause, C|]. split; [exact quotient_compound|]. split; [constructor; discriminate|].
  split; [exact rounded_laden|]. split; [exact chosen_laden|]. split; [|split; [|split; [|split; [|split]]]]; vm_compute; reflexivity.
Qed.
Lemma computed_case : let least := J "MIN" :: bracketed (commas [J "a"; J "b"]) in let call := J "INT" :: bracketed (listing ([] ++ [J "a"; J "/"; J "b"] :: map (fun w => [w]) [])) in
  (exists m, term least m) /\ length least <> 1%nat /\ (exists n0, element [J "a"; J "/"; J "b"] n0) /\ unwords (least ++ J "+" :: call) = J "MIN ( a , b ) + INT ( a / b )" /\
  evaluate_arith witness_env (unwords least) seven = Ok (VInt 2) /\ evaluate_arith witness_env (unwords call) seven = Ok (VInt 3) /\
  evaluate_arith witness_env (J "MIN ( a , b ) + INT ( a / b )") seven = Ok (VDec (BD 6500 3)).
Proof.
  cbv zeta. split; [|split; [discriminate|split; [|split; [|split; [|split]]]]]; [| |vm_compute; reflexivity..].
  - exists (NFunc F_MIN [NField (Some (J "a")); NField (Some (J "b"))]). apply term_call; [sym|]. split; [discriminate|]. constructor; [fieldop|constructor; [fieldop|constructor]].
  - eexists. apply element_computed; [fieldop|sym|fieldop].
Qed.
