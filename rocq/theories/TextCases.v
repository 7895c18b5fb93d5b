(** Concrete cases of the properties of whole texts. *)
From Verif Require Import Base JNum BigDec Dates Values Ops Funcs Ast Eval Lexer Grammar Listener Api SpecArith SpecLex SpecGrammar SpecSyntax SpecText SpecDefault
  LexFacts LexSplit LexWords LexApi LexCases SyntaxFacts ParseFacts ParseShapes ListenFacts TextFacts TextApi ListText DefaultFacts CompareWitness.

Ltac fieldop := apply o_field; field_name_tac.
Ltac intop ds := apply (o_integer ds); [split; [discriminate|repeat constructor]|vm_compute; split; discriminate].
Ltac sym := unfold comparators, connectives, arithmetic_symbols, function_names, array_operators, not_words, in_words, to_words; cbn [In]; tauto.

Lemma grouping_case :
  operand (J "a") (NField (Some (J "a"))) /\ operand (J "7") (NUnary INTEGER (VInt 7)) /\
  evaluate_arith witness_env (J "10 - 2 + 3") [] = Ok (VInt 5) /\ evaluate_arith witness_env (J "( 10 - 2 ) + 3") [] = Ok (VInt 11) /\
  evaluate_arith witness_env (J "10 + 2 - 3") [] = Ok (VInt 9).
Proof. split; [fieldop|]. split; [intop (J "7")|]. repeat split; vm_compute; reflexivity. Qed.
Lemma minus_plus_refuted : exists E, evaluate_arith E (J "10 - 2 + 3") [] <> evaluate_arith E (J "( 10 - 2 ) + 3") [].
Proof. exists witness_env. vm_compute. discriminate. Qed.
Lemma divide_multiply_refuted : exists E, evaluate_arith E (J "2 * 7 / 2") [] <> evaluate_arith E (J "( 2 * 7 ) / 2") [].
Proof. exists witness_env. vm_compute. discriminate. Qed.
Lemma or_and_refuted : exists E d, evaluate_boolean E (J "x = 1 OR y = 2 AND z = 3") d None = Ok false /\
  evaluate_boolean E (J "x = 1 OR ( y = 2 AND z = 3 )") d None = Ok true.
Proof. exists witness_env, [(J "x", VInt 1); (J "y", VInt 2); (J "z", VInt 0)]. vm_compute. split; reflexivity. Qed.
Lemma sum_compared_refuted : exists E, evaluate_boolean E (J "1 + 2 < 7") [] None = Ok false /\ evaluate_boolean E (J "( 1 + 2 ) < 7") [] None = Ok true.
Proof. exists witness_env. vm_compute. split; reflexivity. Qed.

Lemma written_case : exists n, written Nothing Logic
    (bracketed (J "NOT" :: bracketed [J "a"; J ">="; J "5"]) ++ J "AND" :: bracketed (bracketed [J "b"; J "IN"; J "("; J "1"; J ","; J "2"; J ")"] ++
     J "OR" :: bracketed (bracketed [J "a"; J "+"; J "b"] ++ [J "<"; J "10"]))) n /\
  unwords (bracketed (J "NOT" :: bracketed [J "a"; J ">="; J "5"]) ++ J "AND" :: bracketed (bracketed [J "b"; J "IN"; J "("; J "1"; J ","; J "2"; J ")"] ++
     J "OR" :: bracketed (bracketed [J "a"; J "+"; J "b"] ++ [J "<"; J "10"]))) = J "( NOT ( a >= 5 ) ) AND ( ( b IN ( 1 , 2 ) ) OR ( ( a + b ) < 10 ) )" /\
  bool_eval witness_env [(J "a", VInt 3); (J "b", VInt 4)] n = Ok true /\ bool_eval witness_env [(J "a", VInt 3); (J "b", VInt 40)] n = Ok false.
Proof.
  eexists. split; [|split; [vm_compute; reflexivity|]].
  - eapply (w_connect Nothing Logic Logic _ (J "AND")).
    + eapply w_not; [sym|]. apply (w_compare Nothing (J "a") (J ">=") (J "5") (NField (Some (J "a"))) GREATER_THAN_EQUAL (NUnary INTEGER (VInt 5)) INTEGER); [auto|fieldop|sym|intop (J "5")].
    + sym.
    + eapply (w_connect Logic Member Logic _ (J "OR")).
      * apply (w_in Logic (J "b") (J "IN") [J "1"; J "2"] [NUnary INTEGER (VInt 1); NUnary INTEGER (VInt 2)]); [field_name_tac|sym|].
        split; [discriminate|]. constructor; [intop (J "1")|constructor; [intop (J "2")|constructor]].
      * sym.
      * apply (w_compare_left Member Arithmetic _ (J "<") (J "10") (NArith (NField (Some (J "a"))) (Some (NField (Some (J "b")))) ADD) LESS_THAN (NUnary INTEGER (VInt 10)) INTEGER); [|sym|intop (J "10")].
        apply w_arith; [fieldop|sym|fieldop].
  - vm_compute. split; reflexivity.
Qed.

Lemma order_case : exists n, written Nothing Member [J "f"; J "IN"; J "("; J "1"; J ","; J "2"; J ")"] n /\ written Logic Member [J "f"; J "IN"; J "("; J "1"; J ","; J "2"; J ")"] n /\
  evaluate_boolean witness_env (J "g = 3 AND f IN (1,2)") [(J "f", VInt 1); (J "g", VInt 3)] None = Ok true /\
  evaluate_boolean witness_env (J "f IN (1,2) AND g = 3") [(J "f", VInt 1); (J "g", VInt 3)] None = Err InvalidExpression.
Proof.
  assert (W : forall b, written b Member [J "f"; J "IN"; J "("; J "1"; J ","; J "2"; J ")"] (NIn (Some (J "f")) [NUnary INTEGER (VInt 1); NUnary INTEGER (VInt 2)])).
  { intros b. apply (w_in b (J "f") (J "IN") [J "1"; J "2"]); [field_name_tac|sym|]. split; [discriminate|]. constructor; [intop (J "1")|constructor; [intop (J "2")|constructor]]. }
  eexists. split; [apply W|]. split; [apply W|]. vm_compute. split; reflexivity.
Qed.

Definition list_tree : ptree :=
  PCmp (PFunc (Tok T_MIN (J "min")) [PArith (PTypes (F (J "a"))) (Tok T_ADD (J "+")) (PTypes (Tok T_INTEGER (J "2"))); PTypes (Tok T_INTEGER (J "9"))])
    (Tok T_GT (J ">")) (PTypes (Tok T_INTEGER (J "4"))).
Lemma list_case : lex (J "min(a + 2, 9) > 4") = Ok (yield list_tree) /\ reads 0 list_tree eof /\ loose Nothing list_tree /\ exists n, denotes None list_tree n /\
  bool_eval witness_env [(J "a", VInt 3)] n = Ok true /\ bool_eval witness_env [(J "a", VInt 2)] n = Ok false.
Proof.
  assert (L : lex (J "min(a + 2, 9) > 4") = Ok (yield list_tree)) by (vm_compute; reflexivity).
  split; [exact L|]. split; [|split].
  - apply (lex_parse_sound _ _ list_tree L). vm_compute. reflexivity.
  - apply l_cmp_left; [|reflexivity|right; discriminate]. apply l_func. apply s_cons; [apply s_arith; reflexivity|]. apply s_cons; [apply s_plain; reflexivity|apply s_nil].
  - exists (NCmp (NFunc F_MIN [NArith (NField (Some (J "a"))) (Some (NUnary INTEGER (VInt 2))) ADD; NUnary INTEGER (VInt 9)]) (NUnary INTEGER (VInt 4)) GREATER_THAN INTEGER).
    split; [|vm_compute; split; reflexivity].
    apply d_cmp; [sym| |apply d_operand; intop (J "4")]. apply d_func; [sym|].
    constructor; [|constructor; [|constructor]].
    + apply d_arith; [sym|apply d_operand; fieldop|apply d_operand; intop (J "2")].
    + apply d_operand. intop (J "9").
Qed.

Lemma bare_case : field_name (J "flag") /\
  evaluate_boolean witness_env (J "flag") [(J "flag", VBool true)] None = Ok false /\
  evaluate_boolean witness_env (J "NOT flag") [(J "flag", VBool true)] None = Ok false /\
  evaluate_boolean witness_env (J "NOT flag") [(J "flag", VBool false)] None = Ok true /\
  evaluate_boolean witness_env (J "true") [] None = Err DataNotFound /\
  evaluate_boolean witness_env (J "'flag'") [(J "flag", VBool true)] None = Ok true /\
  evaluate_arith witness_env (J "flag") [(J "flag", VInt 7)] = Ok (VInt 7) /\ evaluate_arith witness_env (J "7") [] = Ok (VStr (J "7")).
Proof. split; [field_name_tac|]. repeat split; vm_compute; reflexivity. Qed.
Lemma bare_field_refuted : exists E f d, field_name f /\ arith_eval E d (NField (Some f)) = Ok (VBool true) /\ evaluate_boolean E f d None = Ok false.
Proof. exists witness_env, (J "flag"), [(J "flag", VBool true)]. split; [field_name_tac|]. split; vm_compute; reflexivity. Qed.

Definition omitted_tree : ptree :=
  PBin (PParen (PCmp (PEps (Tok T_GE (J ">="))) (Tok T_GE (J ">=")) (PTypes (Tok T_INTEGER (J "5"))))) (Tok T_AND (J "AND"))
    (PParen (PNot (Tok T_NOT (J "NOT")) (PParen (PCmp (PEps (Tok T_EQ (J "="))) (Tok T_EQ (J "=")) (PTypes (Tok T_INTEGER (J "7"))))))).
Lemma default_case : field_name (J "n") /\ lex (J "(>= 5) AND (NOT (= 7))") = Ok (yield omitted_tree) /\ reads 0 omitted_tree eof /\ nots_written omitted_tree /\ ~ omitted omitted_tree /\
  lex (J "(n >= 5) AND (NOT (n = 7))") = Ok (yield (fill (J "n") omitted_tree)) /\ complete (fill (J "n") omitted_tree) /\
  evaluate_boolean witness_env (J "(>= 5) AND (NOT (= 7))") [(J "n", VInt 6)] (Some (J "n")) = Ok true /\
  evaluate_boolean witness_env (J "(>= 5) AND (NOT (= 7))") [(J "n", VInt 7)] (Some (J "n")) = Ok false.
Proof.
  assert (L : lex (J "(>= 5) AND (NOT (= 7))") = Ok (yield omitted_tree)) by (vm_compute; reflexivity).
  split; [field_name_tac|]. split; [exact L|]. split; [apply (lex_parse_sound _ _ omitted_tree L); vm_compute; reflexivity|].
  split; [cbn; tauto|]. split; [cbn; tauto|]. split; [vm_compute; reflexivity|]. split; [cbn; tauto|]. vm_compute. split; reflexivity.
Qed.
