(** The conditions of SpecWrite and the reference semantics. *)
From Coq Require Import QArith.
From Verif Require Import Base JNum BigDec Dates Values Ops Funcs Ast Eval Lexer Grammar Listener Api SpecNum SpecBool SpecCompare SpecPath SpecArith SpecLex SpecDate SpecMixed SpecList
  SpecGrammar SpecSyntax SpecText FieldFacts SyntaxFacts ListenFacts SpecMeaning MeaningFacts SensibleFacts MeaningText SpecWrite WriteFacts.
Local Open Scope nat_scope.

Lemma word_fine n : word_for n -> sensible n /\ numeric_ranges n.
Proof.
  intros [w W]. destruct (operand_token _ _ W) as [k [_ [_ M]]]. pose proof (types_fine true None (PTypes (Tok k w)) _ (eq_refl)) as F. cbn [as_types] in F.
  rewrite (M None) in F. cbn in F. destruct F as [A B]. split; [exact A|]. apply B. reflexivity.
Qed.
Lemma words_fine xs : Forall word_for xs -> Forall sensible xs /\ Forall numeric_ranges xs.
Proof. induction 1 as [|x xs W _ [A B]]; [split; constructor|]. destruct (word_fine x W). split; constructor; assumption. Qed.
Lemma operator_arithmetic op : arithmetic_operator op -> arithmetic op.
Proof. unfold arithmetic_operator, arithmetic. cbn [In]. tauto. Qed.
Lemma operator_accepts op : comparison_operator op -> exists x, accepts op Eq = Some x.
Proof. unfold comparison_operator. cbn [In]. intros H. decompose [or] H; subst; try contradiction; eexists; reflexivity. Qed.
Lemma formula_fine p n : formula p n -> sensible n /\ numeric_ranges n.
Proof.
  induction 1 as [x W|p x y op W V O|p x n op W F [A B] O|p m y op F [A B] W O|p m n op F1 [A1 B1] F2 [A2 B2] O|p l r op F [A B]|p f xs Ne Fx];
    try apply word_fine in W as [Ws Wn]; try apply word_fine in V as [Vs Vn]; try apply operator_arithmetic in O.
  - cbn [sensible numeric_ranges]. tauto.
  - cbn [sensible numeric_ranges]. tauto.
  - cbn [sensible numeric_ranges]. tauto.
  - cbn [sensible numeric_ranges]. tauto.
  - cbn [sensible numeric_ranges]. tauto.
  - set (x := NArith l r op) in *. cbn [sensible numeric_ranges]. tauto.
  - cbn [sensible numeric_ranges]. rewrite sensible_all, numeric_all. apply words_fine, Fx.
Qed.
Lemma word_bound t v : word_for (NUnary t v) -> In t [INTEGER; LONG; DECIMAL] -> number_bound v t.
Proof.
  intros W T. destruct (word_fine _ W) as [L _]. cbn [sensible] in L. destruct L as [| | | | | | | | |]; cbn in T; try (exfalso; intuition discriminate).
  - exists (inject_Z z). split; [apply number_int; [assumption|reflexivity]|reflexivity].
  - exists (inject_Z z). split; [apply number_long; [assumption|reflexivity]|reflexivity].
  - eexists. split; [apply number_dec; reflexivity|reflexivity].
Qed.
Lemma query_fine n : query n -> sensible n /\ numeric_ranges n.
Proof.
  induction 1 as [x y op t W V O|m y op t F W O|x n op t W F O|m y op t Q [A B] W O|x n op t W Q [A B] O
    |f lo hi t u Fn W V T U|f xs Fn Ne F|f op xs Fn Ne F O|m Q [A B]|m n Q1 [A1 B1] Q2 [A2 B2]|m n Q1 [A1 B1] Q2 [A2 B2]].
  1-5: apply operator_accepts in O; apply word_fine in W as [Ws Wn]; try apply word_fine in V as [Vs Vn]; try apply formula_fine in F as [Fs Fr]; cbn [sensible numeric_ranges]; tauto.
  - cbn [sensible numeric_ranges]. split; [exact Logic.I|]. split; apply word_bound; assumption.
  - cbn [sensible numeric_ranges]. rewrite sensible_all, numeric_all. apply words_fine, F.
  - cbn [sensible numeric_ranges]. rewrite sensible_all, numeric_all. apply words_fine in F as [Fs Fr]. tauto.
  - cbn [sensible numeric_ranges]. tauto.
  - cbn [sensible numeric_ranges]. tauto.
  - cbn [sensible numeric_ranges]. tauto.
Qed.
Lemma query_meaning n : query n -> exists s, forall E d dflt, world E d -> lengths_fit E d n -> forall x, evaluate_boolean E s d dflt = x <-> answer E d n x.
Proof.
  intros Q. destruct (query_text n Q) as [s H]. destruct (query_fine n Q) as [S R]. exists s. intros E d dflt W L x. rewrite H. symmetry. apply (bool_right E d W n S R L).
Qed.
Lemma formula_meaning n : formula true n -> exists s, forall E d, world E d -> lengths_fit E d n -> forall x, evaluate_arith E s d = x <-> value_of E d n x.
Proof.
  intros Q. destruct (formula_text n Q) as [s H]. destruct (formula_fine _ n Q) as [S _]. exists s. intros E d W L x. rewrite H. symmetry. apply (value_tree E d n W S L).
Qed.
