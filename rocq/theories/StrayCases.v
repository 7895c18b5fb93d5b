(** Concrete lists with stray words. *)
From Verif Require Import Base JNum BigDec Dates Values Ops Funcs Ast Eval Lexer Grammar Listener Api SpecGrammar SpecRecover SpecStray ParseShapes AnyText CompareWitness.

Definition num (s : jstr) : token := Tok T_INTEGER s.
Definition f_in : list token := [F (J "f"); Tok T_IN (J "IN")].
Definition and_g : list token := [Tok T_AND (J "AND"); F (J "g"); Tok T_IN (J "IN"); lparen; num (J "7"); rparen].
Definition f_is (f g : Z) : data := [(J "f", VInt f); (J "g", VInt g)].
Ltac literal := unfold literal_token; cbn; tauto.
Ltac a_stray := split; [reflexivity|cbn; intuition congruence].

Lemma dropped_case : list_opening f_in /\ untidy true [num (J "1"); num (J "2"); comma; num (J "3"); rparen] [num (J "1"); comma; num (J "3"); rparen] /\
  lex (J "f IN (1, 3) AND g IN (7)") = Ok (f_in ++ lparen :: [num (J "1"); comma; num (J "3"); rparen] ++ and_g) /\
  sentence (f_in ++ lparen :: [num (J "1"); comma; num (J "3"); rparen] ++ and_g) /\
  lex (J "f IN (1 2, 3) AND g IN (7)") = Ok (f_in ++ lparen :: [num (J "1"); num (J "2"); comma; num (J "3"); rparen] ++ and_g) /\
  evaluate_boolean witness_env (J "f IN (1 2, 3) AND g IN (7)") (f_is 2 7) None = Ok false /\ evaluate_boolean witness_env (J "f IN (1 2, 3) AND g IN (7)") (f_is 3 7) None = Ok true.
Proof.
  split; [constructor; [reflexivity|cbn; tauto]|]. split; [apply (untidy_more_stray false); [split; [a_stray|left; literal]|]; constructor; right; literal|]. split; [vm_compute; reflexivity|].
  split; [|split; [|split]; vm_compute; reflexivity].
  exists (PBin (PIn (F (J "f")) None (Tok T_IN (J "IN")) [PTypes (num (J "1")); PTypes (num (J "3"))]) (Tok T_AND (J "AND")) (PIn (F (J "g")) None (Tok T_IN (J "IN")) [PTypes (num (J "7"))])).
  split; [reflexivity|]. eapply r_bin with (m := 1); [cbn; tauto|reflexivity|lia| |].
  - apply r_in; try reflexivity. apply r_more; [apply r_operand; cbn; tauto|]. apply r_last. apply r_operand; cbn; tauto.
  - apply r_in; try reflexivity. apply r_last. apply r_operand; cbn; tauto.
Qed.
Lemma broken_case : broken [num (J "1"); num (J "2"); num (J "3"); comma; num (J "4"); rparen] [num (J "1"); rparen] /\
  lex (J "f IN (1) AND g IN (7)") = Ok (f_in ++ lparen :: [num (J "1"); rparen] ++ and_g) /\ sentence (f_in ++ lparen :: [num (J "1"); rparen] ++ and_g) /\
  lex (J "f IN (1 2 3, 4) AND g IN (7)") = Ok (f_in ++ lparen :: [num (J "1"); num (J "2"); num (J "3"); comma; num (J "4"); rparen] ++ and_g) /\
  evaluate_boolean witness_env (J "f IN (1 2 3, 4) AND g IN (7)") (f_is 4 7) None = Ok false /\ evaluate_boolean witness_env (J "f IN (1 2 3, 4) AND g IN (7)") (f_is 1 7) None = Ok true /\
  evaluate_boolean witness_env (J "f IN (1 2 3, 4) AND g IN (7)") (f_is 1 8) None = Ok false.
Proof.
  split; [constructor; [split; [a_stray|left; literal]|repeat constructor; discriminate|intros v rest E; injection E as <- _; cbn; intuition congruence]|]. split; [vm_compute; reflexivity|].
  split; [|split; [|split; [|split]]; vm_compute; reflexivity].
  exists (PBin (PIn (F (J "f")) None (Tok T_IN (J "IN")) [PTypes (num (J "1"))]) (Tok T_AND (J "AND")) (PIn (F (J "g")) None (Tok T_IN (J "IN")) [PTypes (num (J "7"))])).
  split; [reflexivity|]. eapply r_bin with (m := 1); [cbn; tauto|reflexivity|lia| |].
  - apply r_in; try reflexivity. apply r_last. apply r_operand; cbn; tauto.
  - apply r_in; try reflexivity. apply r_last. apply r_operand; cbn; tauto.
Qed.

Definition sum_of : token := Tok T_SUM (J "sum").
Definition above_ten : list token := [Tok T_GT (J ">"); num (J "10")].
Lemma argument_case : function_kind (kind sum_of) /\ untidy true [F (J "f"); F (J "g"); comma; F (J "f"); rparen] [F (J "f"); comma; F (J "f"); rparen] /\
  lex (J "sum(f, f) > 10") = Ok (sum_of :: lparen :: [F (J "f"); comma; F (J "f"); rparen] ++ above_ten) /\ sentence (sum_of :: lparen :: [F (J "f"); comma; F (J "f"); rparen] ++ above_ten) /\
  lex (J "sum(f g, f) > 10") = Ok (sum_of :: lparen :: [F (J "f"); F (J "g"); comma; F (J "f"); rparen] ++ above_ten) /\
  evaluate_boolean witness_env (J "sum(f, g, f) > 10") (f_is 3 10) None = Ok true /\ evaluate_boolean witness_env (J "sum(f g, f) > 10") (f_is 3 10) None = Ok false.
Proof.
  split; [unfold function_kind; cbn; tauto|]. split; [apply (untidy_more_stray false); [split; [a_stray|right; split; [reflexivity|cbn; intuition congruence]]|constructor; left; reflexivity]|]. split; [vm_compute; reflexivity|].
  split; [|split; [|split]; vm_compute; reflexivity].
  exists (PCmp (PFunc sum_of [PTypes (F (J "f")); PTypes (F (J "f"))]) (Tok T_GT (J ">")) (PTypes (num (J "10")))). split; [reflexivity|].
  eapply r_cmp; [cbn; tauto|reflexivity|lia| |].
  - apply r_func; [cbn; tauto|]. apply r_more; [apply r_operand; cbn; tauto|]. apply r_last. apply r_operand; cbn; tauto.
  - apply r_operand; cbn; tauto.
Qed.
Lemma call_case : function_kind (kind sum_of) /\ broken [F (J "f"); F (J "g"); F (J "h"); rparen] [F (J "f"); rparen] /\
  lex (J "sum(f g h) > 10") = Ok (sum_of :: lparen :: [F (J "f"); F (J "g"); F (J "h"); rparen] ++ above_ten) /\
  parse_expression (J "sum(f g h) > 10") None = Err InvalidExpression.
Proof.
  split; [unfold function_kind; cbn; tauto|]. split; [|split; vm_compute; reflexivity].
  constructor; [split; [a_stray|right; split; [reflexivity|cbn; intuition congruence]]|repeat constructor; discriminate|].
  intros v rest E; injection E as <- _; cbn; intuition congruence.
Qed.
