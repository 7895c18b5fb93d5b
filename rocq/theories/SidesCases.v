(** Concrete comparisons of two compound sides. *)
From Coq Require Import QArith.
From Verif Require Import RecoverFacts.
From Verif Require Import Base JNum BigDec Dates Values Ops Funcs Ast Eval Lexer Grammar Listener Api SpecNum SpecCompare SpecArith SpecLex SpecGrammar SpecSyntax SpecText SpecChain SpecQuote SpecRepr
  LexFacts LexSplit LexWords LexApi LexCases SyntaxFacts ParseFacts ListenFacts TextFacts TextApi TextCases ParseShapes ChainFacts ChainText SidesFacts CompareWitness.

(** x = 1 AND ( a + b ) > ( c - 1 ) *)
Definition two_sums : ptree :=
  PCmp (PParen (PArith (PTypes (Tok T_FIELD (J "a"))) (Tok T_ADD (J "+")) (PTypes (Tok T_FIELD (J "b"))))) (Tok T_GT (J ">"))
       (PParen (PArith (PTypes (Tok T_FIELD (J "c"))) (Tok T_SUBTRACT (J "-")) (PTypes (Tok T_INTEGER (J "1"))))).
Definition two_sums_row : ptree := PBin (PCmp (PTypes (Tok T_FIELD (J "x"))) (Tok T_EQ (J "=")) (PTypes (Tok T_INTEGER (J "1")))) (Tok T_AND (J "AND")) two_sums.
Lemma sides_case : lex (J "x = 1 AND ( a + b ) > ( c - 1 )") = Ok (yield two_sums_row) /\ reads 0 two_sums_row eof /\ inside two_sums two_sums_row /\
  parse_expression (J "x = 1 AND ( a + b ) > ( c - 1 )") None = Err InvalidExpression.
Proof.
  assert (L : lex (J "x = 1 AND ( a + b ) > ( c - 1 )") = Ok (yield two_sums_row)) by (vm_compute; reflexivity).
  split; [exact L|]. split; [apply (lex_parse_sound _ _ two_sums_row L); vm_compute; reflexivity|]. split; [apply inside_connect_right; constructor|]. vm_compute. reflexivity.
Qed.
Lemma difference_case : let sum1 := [J "a"; J "+"; J "b"] in let sum2 := [J "c"; J "-"; J "1"] in let d := [(J "a", VInt 1); (J "b", VInt 2); (J "c", VDec (BD 25 1))] in
  (exists m r n, terms sum1 m r /\ r <> [] /\ grouped m r n) /\ (exists m r n, terms sum2 m r /\ r <> [] /\ grouped m r n) /\
  evaluate_arith witness_env (unwords sum1) d = Ok (VInt 3) /\ evaluate_arith witness_env (unwords sum2) d = Ok (VDec (BD 15 1)) /\
  number (VInt 3) 3 /\ number (VDec (BD 15 1)) (3 # 2) /\ room (VInt 3) SUBTRACT (VDec (BD 15 1)) /\ question GREATER_THAN 3 (3 # 2) = Some true /\
  unwords (bracketed (bracketed sum1 ++ J "-" :: bracketed sum2) ++ [J ">"; J "0"]) = J "( ( a + b ) - ( c - 1 ) ) > 0" /\
  evaluate_boolean witness_env (J "( ( a + b ) - ( c - 1 ) ) > 0") d None = Ok true.
Proof.
  cbv zeta. split; [|split; [|split; [vm_compute; reflexivity|split; [vm_compute; reflexivity|split; [|split; [|split; [|split; [reflexivity|split; vm_compute; reflexivity]]]]]]]].
  - exists (NField (Some (J "a"))), [(ADD, NField (Some (J "b")))]. eexists. split; [|split; [discriminate|apply (grouped_split _ [] ADD _ []); constructor]].
    apply (terms_next [J "a"] _ [] (J "+") ADD [J "b"]); [|sym|apply term_operand; fieldop]. apply terms_first, term_operand. fieldop.
  - exists (NField (Some (J "c"))), [(SUBTRACT, NUnary INTEGER (VInt 1))]. eexists. split; [|split; [discriminate|apply (grouped_split _ [] SUBTRACT _ []); constructor]].
    apply (terms_next [J "c"] _ [] (J "-") SUBTRACT [J "1"]); [|sym|apply term_operand; intop (J "1")]. apply terms_first, term_operand. fieldop.
  - constructor; [unfold fits32; lia|reflexivity].
  - constructor. reflexivity.
  - right. left. constructor.
Qed.
