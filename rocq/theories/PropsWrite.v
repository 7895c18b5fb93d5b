(** C84: every condition can be written down. *)
From Coq Require Import QArith Lia.
From Verif Require Import Base JNum BigDec Dates Values Ops Funcs Ast Eval Lexer Grammar Listener Api SpecCompare SpecArith SpecLex SpecSyntax SpecText SpecWrite SpecMeaning
  LexCases TextCases CompareWitness WriteFacts WriteMeaning.
Local Open Scope Z_scope.

(** C84: every condition has a text that means it, for all data and whatever the default field. *)
Theorem C84_condition : forall n, query n -> exists s, forall E d dflt, evaluate_boolean E s d dflt = bool_eval E d n.
Proof. exact query_text. Qed.
Print Assumptions C84_condition.

(** C84: the same for arithmetic expressions. *)
Theorem C84_formula : forall n, formula true n -> exists s, forall E d, evaluate_arith E s d = arith_eval E d n.
Proof. exact formula_text. Qed.
Print Assumptions C84_formula.

(** C84: in terms of the reference semantics of C77. *)
Theorem C84_condition_meaning : forall n, query n -> exists s, forall E d dflt, world E d -> lengths_fit E d n -> forall x, evaluate_boolean E s d dflt = x <-> answer E d n x.
Proof. exact query_meaning. Qed.
Print Assumptions C84_condition_meaning.
Theorem C84_formula_meaning : forall n, formula true n -> exists s, forall E d, world E d -> lengths_fit E d n -> forall x, evaluate_arith E s d = x <-> value_of E d n x.
Proof. exact formula_meaning. Qed.
Print Assumptions C84_formula_meaning.

(** C84: how: a condition negated twice may be followed by any other (compare C38). *)
Theorem C84_negated_twice : forall E d dflt s1 s2 ws1 no o op ws2 m n, written Nothing s1 ws1 m -> In no not_words -> In (o, op) connectives -> written Logic s2 ws2 n ->
  evaluate_boolean E (unwords (bracketed (no :: bracketed (no :: bracketed ws1)) ++ o :: bracketed ws2)) d dflt =
    match op with
    | AND => b <- evaluate_boolean E (unwords ws1) d dflt ;; if b then evaluate_boolean E (unwords ws2) d dflt else Ok false
    | OR => b <- evaluate_boolean E (unwords ws1) d dflt ;; if b then Ok true else evaluate_boolean E (unwords ws2) d dflt
    | NOT => Err InvalidExpression
    end.
Proof. exact negated_connective. Qed.
Print Assumptions C84_negated_twice.

(** C84, refuted for comparisons of two compound sides: the obvious text always fails. *)
Theorem C84_two_sides_refuted : forall E d dflt s1 s2 ws1 c q ws2 m n, written Nothing s1 ws1 m -> In (c, q) comparators -> written s1 s2 ws2 n ->
  evaluate_boolean E (unwords (bracketed ws1 ++ c :: bracketed ws2)) d dflt = Err InvalidExpression.
Proof. exact two_sides. Qed.
Print Assumptions C84_two_sides_refuted.

(** A condition that begins with a membership, its text, and a comparison of two sums. *)
Example C84_case : let f x := NField (Some x) in let i z := NUnary INTEGER (VInt z) in
  query (NBool (NIn (Some (J "f")) [i 1; i 2]) (Some (NCmp (NArith (f (J "g")) (Some (i 1)) ADD) (i 3) EQUALS STRING)) AND) /\
  formula true (NArith (NArith (f (J "g")) None UNARY) (Some (NFunc F_MAX [f (J "f"); i 2])) MULTIPLY) /\
  evaluate_boolean witness_env (J "( NOT ( NOT ( f IN (1, 2) ) ) ) AND ( g = 3 )") [(J "f", VInt 1); (J "g", VInt 3)] None = Ok true /\
  evaluate_boolean witness_env (J "( f IN (1, 2) ) AND ( g = 3 )") [(J "f", VInt 1); (J "g", VInt 3)] None = Err InvalidExpression /\
  evaluate_boolean witness_env (J "( f + 1 ) = ( g - 1 )") [(J "f", VInt 1); (J "g", VInt 3)] None = Err InvalidExpression.
Proof.
  cbv zeta. assert (Wi : forall z, z = 1%Z \/ z = 2%Z \/ z = 3%Z -> word_for (NUnary INTEGER (VInt z))).
  { intros z [-> | [-> | ->]]; eexists; [apply (o_integer (J "1"))|apply (o_integer (J "2"))|apply (o_integer (J "3"))]; try (split; [discriminate|repeat constructor]); unfold fits32; cbn; lia. }
  assert (Ff : field_name (J "f")) by field_name_tac. assert (Fg : field_name (J "g")) by field_name_tac.
  assert (Wf : word_for (NField (Some (J "f")))) by (eexists; apply o_field; exact Ff).
  assert (Wg : word_for (NField (Some (J "g")))) by (eexists; apply o_field; exact Fg).
  split; [|split; [|split; [|split]]]; try (vm_compute; reflexivity).
  - apply query_and.
    + apply query_in; [exact Ff|discriminate|]. repeat (apply Forall_cons; [apply Wi; tauto|]). apply Forall_nil.
    + apply query_formula_left; [apply formula_words|..]; auto; unfold arithmetic_operator, comparison_operator; cbn [In]; tauto.
  - apply formula_both; [apply formula_minus, Wg|apply formula_call; [discriminate|]|unfold arithmetic_operator; cbn [In]; tauto].
    apply Forall_cons; [exact Wf|]. apply Forall_cons; [apply Wi; tauto|apply Forall_nil].
Qed.
