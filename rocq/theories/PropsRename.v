(** C80: the names of the fields. *)
From Verif Require Import Recover.
From Verif Require Import Base JNum BigDec Dates Version Values Ops Funcs Ast Eval Lexer Grammar Listener Api SpecPath SpecName SpecLex SpecGrammar SpecSyntax SpecText SpecRename
  RenameFacts RenameCases CompareWitness.

(** C80: two texts that differ in the names of their fields only have the same outcome, provided that each name stands in
    the one map for what its counterpart stands for in the other. *)
Theorem C80_renamed : forall E d d' s s' t ts' dflt dflt', proper_data d -> proper_data d' -> renamed_default d d' dflt dflt' ->
  lex s = Ok (yield t) -> reads 0 t eof -> nots_named t -> not_literal t -> lex s' = Ok ts' -> Forall2 (renamed d d') (yield t) ts' ->
  evaluate_boolean E s d dflt = evaluate_boolean E s' d' dflt'.
Proof. exact (fun E d d' s s' t ts' dflt dflt' P P' => boolean_renamed E d d' P P' s s' t ts' dflt dflt'). Qed.
Print Assumptions C80_renamed.

(** C80: likewise for arithmetic expressions. *)
Theorem C80_renamed_arithmetic : forall E d d' s s' t ts', proper_data d -> proper_data d' ->
  lex s = Ok (yield t) -> reads 0 t eof -> nots_named t -> lex s' = Ok ts' -> Forall2 (renamed d d') (yield t) ts' ->
  evaluate_arith E s d = evaluate_arith E s' d'.
Proof. exact (fun E d d' s s' t ts' P P' => arith_renamed E d d' P P' s s' t ts'). Qed.
Print Assumptions C80_renamed_arithmetic.

(** C80: in particular the data can be put under a key [p] when [p] and a dot are written before every name. *)
Theorem C80_nested : forall E d p s t dflt, proper_data d -> a_key p ->
  (forall x, In x (yield t) -> kind x = T_FIELD -> plain_name (Lexer.text x)) -> (forall f, dflt = Some f -> plain_name f) ->
  lex s = Ok (yield t) -> reads 0 t eof -> nots_named t -> not_literal t ->
  evaluate_boolean E s d dflt = evaluate_boolean E (unwords (map Lexer.text (map (under_token p) (yield t)))) (nested p d) (option_map (under p) dflt).
Proof. exact boolean_nested. Qed.
Print Assumptions C80_nested.

Theorem C80_nested_arithmetic : forall E d p s t, proper_data d -> a_key p ->
  (forall x, In x (yield t) -> kind x = T_FIELD -> plain_name (Lexer.text x)) -> lex s = Ok (yield t) -> reads 0 t eof -> nots_named t ->
  evaluate_arith E s d = evaluate_arith E (unwords (map Lexer.text (map (under_token p) (yield t)))) (nested p d).
Proof. exact arith_nested. Qed.
Print Assumptions C80_nested_arithmetic.

(** C80: a quoted text standing alone as a condition, or alone under NOT, is not independent of the names in the data: it is
    itself taken for a name. *)
Theorem C80_literal_refuted : forall E, let d := [(J "a", VBool true)] in
  evaluate_boolean E (J "'a'") d None = Ok true /\ evaluate_boolean E (J "'a'") (nested (J "q") d) None = Err DataNotFound /\
  evaluate_boolean E (J "NOT 'a'") d None = Ok false /\ evaluate_boolean E (J "NOT 'a'") (nested (J "q") d) None = Err DataNotFound.
Proof. exact literal_alone. Qed.
Print Assumptions C80_literal_refuted.

(** C80: and the word null must stay as it is. *)
Theorem C80_null_refuted : forall E, let d := [(J "a", VInt 1)] in
  evaluate_boolean E (J "a != null") d None = Ok true /\ evaluate_boolean E (J "q.a != q.null") (nested (J "q") d) None = Err NoSuchElement.
Proof. exact null_word. Qed.
Print Assumptions C80_null_refuted.

Example C80_case : proper_data case_data /\ proper_data case_data' /\ (lex case_text = Ok (yield (tree_of case_text)) /\ reads 0 (tree_of case_text) eof) /\
  (nots_named (tree_of case_text) /\ not_literal (tree_of case_text)) /\ Forall2 (renamed case_data case_data') (yield (tree_of case_text)) (tokens_in case_text') /\
  (a_key (J "q") /\ (forall x, In x (yield (tree_of case_text)) -> kind x = T_FIELD -> plain_name (Lexer.text x)) /\
   unwords (map Lexer.text (map (under_token (J "q")) (yield (tree_of case_text)))) = nested_case_text) /\
  lex case_text' = Ok (tokens_in case_text') /\ evaluate_boolean witness_env case_text case_data None = Ok true /\ evaluate_boolean witness_env case_text' case_data' None = Ok true /\
  evaluate_boolean witness_env nested_case_text (nested (J "q") case_data) None = Ok true.
Proof. exact (conj (proj1 proper_case) (conj (proj2 proper_case) (conj case_sentence (conj case_shape (conj case_renamed (conj nested_case case_outcomes)))))). Qed.
