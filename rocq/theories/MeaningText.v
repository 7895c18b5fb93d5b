(** The reference semantics for texts. *)
From Coq Require Import QArith Lia.
From Verif Require Import Base JNum BigDec Dates Values Ops Funcs Ast Eval Lexer Grammar Listener Api SpecNum SpecCompare SpecArith SpecDate SpecMixed SpecList SpecPath SpecExact SpecGrammar
  CompareWitness FieldFacts SpecMeaning MeaningFacts SensibleFacts.
Local Open Scope Z_scope.

Lemma value_text E d s n : world E d -> parse_expression s None = Ok n -> lengths_fit E d n -> forall x, value_of E d n x <-> evaluate_arith E s d = x.
Proof. intros W P L x. unfold evaluate_arith. rewrite P. cbn [bind]. apply (proj1 (arith_right E d W n (text_sensible s None n P) L)). Qed.
Lemma answer_text E d s dflt n : world E d -> parse_expression s dflt = Ok n -> numeric_ranges n -> lengths_fit E d n -> forall x, answer E d n x <-> evaluate_boolean E s d dflt = x.
Proof. intros W P R L x. unfold evaluate_boolean. rewrite P. cbn [bind]. apply (bool_right E d W n (text_sensible s dflt n P) R L). Qed.
Lemma answer_sentence E d s t dflt n : world E d -> lex s = Ok (yield t) -> reads 0 t eof -> parse_expression s dflt = Ok n -> lengths_fit E d n ->
  forall x, answer E d n x <-> evaluate_boolean E s d dflt = x.
Proof. intros W L R P F. apply answer_text; auto. apply (sentence_numeric s t dflt n L R P). Qed.
Lemma value_tree E d n : world E d -> sensible n -> lengths_fit E d n -> forall x, value_of E d n x <-> arith_eval E d n = x.
Proof. intros W S L. apply (proj1 (arith_right E d W n S L)). Qed.
Lemma value_one E d n : world E d -> sensible n -> lengths_fit E d n -> exists x, value_of E d n x /\ forall y, value_of E d n y -> y = x.
Proof. intros W S L. pose proof (value_tree E d n W S L) as H. exists (arith_eval E d n). split; [apply H; reflexivity|]. intros y Y. apply H in Y. congruence. Qed.
Lemma answer_one E d n : world E d -> sensible n -> numeric_ranges n -> lengths_fit E d n -> exists x, answer E d n x /\ forall y, answer E d n y -> y = x.
Proof. intros W S R L. pose proof (bool_right E d W n S R L) as H. exists (bool_eval E d n). split; [apply H; reflexivity|]. intros y Y. apply H in Y. congruence. Qed.
Lemma without_all items : (fix all (l : list node) : Prop := match l with [] => True | i :: l' => without_len i /\ all l' end) items <-> Forall without_len items.
Proof. induction items as [|i l IH]; cbn; [split; constructor|]. rewrite IH. split; [intros [A B]; constructor; assumption|intros A; inversion A; auto]. Qed.
Lemma without_fit E d n : without_len n -> lengths_fit E d n.
Proof.
  induction n using node_ind'; cbn [without_len lengths_fit]; auto; rewrite ?without_all, ?fit_all.
  - intros [A B]. split; [auto|]. destruct r; auto.
  - intros [A B]. split; [intros ->; contradiction|]. induction H; inversion B; constructor; auto.
  - tauto.
  - intros B. induction H; inversion B; constructor; auto.
  - intros B. induction H; inversion B; constructor; auto.
  - intros [A B]. split; [auto|]. destruct r; auto.
Qed.
