(** C72: does the default locale of the Java virtual machine change what an expression means? *)
From Verif Require Import Base Values Ops Ast Eval Lexer Api Locale SpecLex SpecSyntax SpecText SpecTight SpecRecover SpecLocale CompareWitness.
From Verif Require LocaleCases LocaleTexts.

(** C72: in every default locale but Turkish and Azeri, looking operators and functions up by their case-converted symbols
    finds for every text what the grammar says. *)
Theorem C72_common : forall E s d dflt,
  parse_expression_in Common s dflt = parse_expression s dflt /\
  evaluate_boolean_in Common E s d dflt = evaluate_boolean E s d dflt /\ evaluate_arith_in Common E s d = evaluate_arith E s d.
Proof. exact LocaleTexts.evaluated_common. Qed.
Print Assumptions C72_common.

(** C72: in every default locale, a text without the tokens min, median, int, contains_all and contains_any (in lower case)
    has the same outcome. *)
Theorem C72_same : forall L E s d dflt, ~ uses (small_functions ++ small_containments) s ->
  parse_expression_in L s dflt = parse_expression s dflt /\
  evaluate_boolean_in L E s d dflt = evaluate_boolean E s d dflt /\ evaluate_arith_in L E s d = evaluate_arith E s d.
Proof. exact LocaleTexts.evaluated_same. Qed.
Print Assumptions C72_same.

(** C72, refuted in a Turkish or Azeri default locale: no sentence of the grammar with min, median or int in it can be parsed,
    and those that can be parsed elsewhere fail with InvalidExpressionException. *)
Theorem C72_function_refuted : forall s ps dflt, splits s ps -> sentence (tokens_of ps) -> uses small_functions s ->
  (exists e, parse_expression_in Turkic s dflt = Err e) /\
  (forall n, parse_expression_in Common s dflt = Ok n -> parse_expression_in Turkic s dflt = Err InvalidExpression).
Proof. exact LocaleTexts.call_lost. Qed.
Print Assumptions C72_function_refuted.

(** C72, refuted likewise: contains_all and contains_any become an equality test on a list ... *)
Theorem C72_contains_parsed : forall s dflt, ~ uses small_functions s -> ~ uses capital_containments s ->
  parse_expression_in Turkic s dflt = (n <- parse_expression_in Common s dflt ;; Ok (lost n)).
Proof. exact LocaleCases.lost_text. Qed.
Print Assumptions C72_contains_parsed.

(** ... so that a containment test fails for all data, with InvalidContainerTypeException where it has a result elsewhere. *)
Theorem C72_contains_refuted : forall E d dflt f c op ws ns s, field_name f -> In (c, op) array_operators -> In c small_containments -> listed ws ns ->
  laid_out (f :: c :: bracketed (commas ws)) s ->
  (forall b, evaluate_boolean_in Common E s d dflt = Ok b -> evaluate_boolean_in Turkic E s d dflt = Err InvalidContainerType) /\
  exists e, evaluate_boolean_in Turkic E s d dflt = Err e.
Proof. exact LocaleTexts.containment_lost. Qed.
Print Assumptions C72_contains_refuted.

(** C72: which texts are read as truth values depends on no locale. *)
Theorem C72_truth_values : forall L w b, boolean_text_in L w = Some b <-> spells w (if b then J "true" else J "false").
Proof. exact LocaleTexts.boolean_spelled. Qed.
Print Assumptions C72_truth_values.

Example C72_case :
  ~ uses (small_functions ++ small_containments) (J "MIN(a, 2) > 1 AND f CONTAINS_ALL (x) OR title = 'min int'") /\
  uses small_functions (J "min(a, 2) > 1") /\
  ~ uses small_functions (J "f contains_all (1)") /\ ~ uses capital_containments (J "f contains_all (1)") /\
  parse_expression_in Turkic (J "min(a, 2) > 1") None = Err InvalidExpression /\
  evaluate_boolean_in Common witness_env (J "min(a, 2) > 1") [(J "a", VInt 5)] None = Ok true /\
  evaluate_boolean_in Common witness_env (J "f contains_all (1)") [(J "f", VColl true [VInt 1; VInt 2])] None = Ok true /\
  evaluate_boolean_in Turkic witness_env (J "f contains_all (1)") [(J "f", VColl true [VInt 1; VInt 2])] None = Err InvalidContainerType.
Proof. exact LocaleTexts.locale_case. Qed.
