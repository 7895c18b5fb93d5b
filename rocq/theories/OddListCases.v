(** A concrete text with an element the library has no reading for. *)
From Verif Require Import Base JNum BigDec Dates Values Ops Funcs Ast Eval Lexer Grammar Listener Api SpecGrammar SpecQuote SpecOddList ParseShapes CompareWitness OddListFacts.

Definition one (s : jstr) : ptree := PTypes (Tok T_INTEGER s).
Definition odd_item : ptree := PParen (PArith (one (J "1")) (Tok T_ADD (J "+")) (one (J "2"))).
Definition odd_list : ptree := PIn (F (J "f")) None (Tok T_IN (J "IN")) [odd_item; one (J "3")].
Definition odd_text : ptree := PBin (PCmp (PTypes (F (J "x"))) (Tok T_EQ (J "=")) (one (J "1"))) (Tok T_OR (J "OR")) odd_list.
Lemma element_case : lex (J "x = 1 OR f IN ((1 + 2), 3)") = Ok (yield odd_text) /\ reads 0 odd_text eof /\ inside odd_list odd_text /\ list_of odd_list [odd_item; one (J "3")] /\ odd_element odd_item /\
  parse_expression (J "x = 1 OR f IN ((1 + 2), 3)") None = Err InvalidExpression.
Proof.
  split; [vm_compute; reflexivity|]. split; [|split; [apply inside_connect_right, inside_whole|split; [constructor|split; [exact Logic.I|vm_compute; reflexivity]]]].
  eapply r_bin with (m := 1); [cbn; tauto|reflexivity|lia| |].
  - eapply r_cmp; [cbn; tauto|reflexivity|lia|apply r_operand; cbn; tauto|apply r_operand; cbn; tauto].
  - apply r_in; try reflexivity. apply r_more; [|apply r_last; apply r_operand; cbn; tauto].
    apply r_paren. eapply r_arith; [cbn; tauto|reflexivity|lia|apply r_operand; cbn; tauto|apply r_operand; cbn; tauto].
Qed.
