(** Concrete cases of texts of any length. *)
From Verif Require Import RecoverFacts.
From Verif Require Import Base JNum BigDec Dates Values Ops Funcs Ast Eval Lexer Grammar Listener Api SpecArith SpecLex SpecGrammar SpecSyntax SpecText SpecChain
  LexFacts LexSplit LexWords LexApi LexCases SyntaxFacts ParseFacts ListenFacts TextFacts TextApi TextCases ChainFacts ChainText CompareWitness.

Ltac splitting before after := apply (grouped_split _ before _ _ after); [| |repeat constructor|repeat constructor].
(** 20 - a * 2 + 3 - 10 / 5 is (20 - (a * 2 + 3)) - 10 / 5. *)
Lemma sum_case : let i z := NUnary INTEGER (VInt z) in let a := NField (Some (J "a")) in
  let ws := [J "20"; J "-"; J "a"; J "*"; J "2"; J "+"; J "3"; J "-"; J "10"; J "/"; J "5"] in
  let rest := [(SUBTRACT, a); (MULTIPLY, i 2%Z); (ADD, i 3%Z); (SUBTRACT, i 10%Z); (DIVIDE, i 5%Z)] in
  terms ws (i 20%Z) rest /\ grouped (i 20%Z) rest (bin (bin (i 20%Z) SUBTRACT (bin (bin a MULTIPLY (i 2%Z)) ADD (i 3%Z))) SUBTRACT (bin (i 10%Z) DIVIDE (i 5%Z))) /\
  evaluate_arith witness_env (unwords ws) [(J "a", VInt 4)] = Ok (VInt 7).
Proof.
  cbv zeta. split; [|split].
  - apply (terms_next [J "20"; J "-"; J "a"; J "*"; J "2"; J "+"; J "3"; J "-"; J "10"] _ [_; _; _; _] (J "/") DIVIDE [J "5"]); [|sym|apply term_operand; intop (J "5")].
    apply (terms_next [J "20"; J "-"; J "a"; J "*"; J "2"; J "+"; J "3"] _ [_; _; _] (J "-") SUBTRACT [J "10"]); [|sym|apply term_operand; intop (J "10")].
    apply (terms_next [J "20"; J "-"; J "a"; J "*"; J "2"] _ [_; _] (J "+") ADD [J "3"]); [|sym|apply term_operand; intop (J "3")].
    apply (terms_next [J "20"; J "-"; J "a"] _ [_] (J "*") MULTIPLY [J "2"]); [|sym|apply term_operand; intop (J "2")].
    apply (terms_next [J "20"] _ [] (J "-") SUBTRACT [J "a"]); [|sym|apply term_operand; fieldop].
    apply terms_first, term_operand. intop (J "20").
  - unfold bin. splitting [(SUBTRACT, NField (Some (J "a"))); (MULTIPLY, NUnary INTEGER (VInt 2)); (ADD, NUnary INTEGER (VInt 3))] [(DIVIDE, NUnary INTEGER (VInt 5))].
    + splitting (@nil (operator * node)) [(MULTIPLY, NUnary INTEGER (VInt 2)); (ADD, NUnary INTEGER (VInt 3))]; [constructor|].
      splitting [(MULTIPLY, NUnary INTEGER (VInt 2))] (@nil (operator * node)); [|constructor].
      splitting (@nil (operator * node)) (@nil (operator * node)); constructor.
    + splitting (@nil (operator * node)) (@nil (operator * node)); constructor.
  - vm_compute. reflexivity.
Qed.

(** x = 1 OR y IN ( 1 , 2 ) AND NOT z 1 TO 5 OR ( x + y * 2 ) > 9 *)
Definition row_start : list jstr := [J "x"; J "="; J "1"].
Definition row_rest : list (jstr * logop * list jstr) :=
  [(J "OR", OR, J "y" :: J "IN" :: bracketed (commas [J "1"; J "2"])); (J "AND", AND, [J "NOT"; J "z"; J "1"; J "TO"; J "5"]);
   (J "OR", OR, bracketed [J "x"; J "+"; J "y"; J "*"; J "2"] ++ [J ">"; J "9"])].
Lemma row_case : opening row_start /\ followers row_rest /\
  unwords (chained row_start row_rest) = J "x = 1 OR y IN ( 1 , 2 ) AND NOT z 1 TO 5 OR ( x + y * 2 ) > 9" /\
  evaluate_boolean witness_env (J "x = 1 OR y IN ( 1 , 2 ) AND NOT z 1 TO 5 OR ( x + y * 2 ) > 9") [(J "x", VInt 1); (J "y", VInt 3); (J "z", VInt 4)] None = Ok false /\
  evaluate_boolean witness_env (J "x = 1 OR y IN ( 1 , 2 ) AND NOT z 1 TO 5 OR ( x + y * 2 ) > 9") [(J "x", VInt 1); (J "y", VInt 3); (J "z", VInt 6)] None = Ok true /\
  evaluate_boolean witness_env (J "x = 1 OR y IN ( 1 , 2 ) AND NOT z 1 TO 5 OR ( x + y * 2 ) > 9") [(J "x", VInt 4); (J "y", VInt 3); (J "z", VInt 4)] None = Ok true.
Proof.
  split; [|split; [|split; [|split; [|split]]]]; try (vm_compute; reflexivity).
  - exists (NCmp (NField (Some (J "x"))) (NUnary INTEGER (VInt 1)) EQUALS INTEGER). apply clause_words; [auto|fieldop|sym|intop (J "1")].
  - apply Forall_cons; [|apply Forall_cons; [|apply Forall_cons; [|apply Forall_nil]]]; cbn [fst snd]; (split; [sym|]).
    + exists Member. eexists. apply (clause_in Logic (J "y") (J "IN") [J "1"; J "2"] [NUnary INTEGER (VInt 1); NUnary INTEGER (VInt 2)]); [field_name_tac|sym|].
      split; [discriminate|]. constructor; [intop (J "1")|constructor; [intop (J "2")|constructor]].
    + exists Logic. eexists. apply clause_not_member; [sym|].
      apply (clause_range Logic (J "z") (J "1") (J "TO") (J "5") (VInt 1) (VInt 5) INTEGER INTEGER); [field_name_tac|intop (J "1")|intop (J "5")|cbn [In]; tauto|cbn [In]; tauto|sym].
    + exists Logic. eexists. eapply (clause_left Logic Arithmetic _ (J ">") (J "9") _ GREATER_THAN (NUnary INTEGER (VInt 9)) INTEGER); [|sym|intop (J "9")].
      eapply passage_formula.
      * apply (terms_next [J "x"; J "+"; J "y"] (NField (Some (J "x"))) [(ADD, NField (Some (J "y")))] (J "*") MULTIPLY [J "2"] (NUnary INTEGER (VInt 2))); [|sym|apply term_operand; intop (J "2")].
        apply (terms_next [J "x"] _ [] (J "+") ADD [J "y"]); [|sym|apply term_operand; fieldop]. apply terms_first, term_operand. fieldop.
      * discriminate.
      * splitting (@nil (operator * node)) [(MULTIPLY, NUnary INTEGER (VInt 2))]; [constructor|]. splitting (@nil (operator * node)) (@nil (operator * node)); constructor.
Qed.
