(** C77: the evaluators against a reference semantics of whole expressions. *)
From Coq Require Import QArith Lia.
From Verif Require Import Base JNum BigDec Dates Values Ops Funcs Ast Eval Lexer Grammar Listener Api SpecNum SpecCompare SpecArith SpecDate SpecMixed SpecList SpecPath SpecExact SpecGrammar
  CompareWitness SpecMeaning MeaningFacts SensibleFacts MeaningText.
Local Open Scope Z_scope.

(** C77: the outcome of evaluating a text to a value is the one the reference semantics gives its tree, and no other. *)
Theorem C77_value : forall E d s n, world E d -> parse_expression s None = Ok n -> lengths_fit E d n ->
  forall x, value_of E d n x <-> evaluate_arith E s d = x.
Proof. exact value_text. Qed.
Print Assumptions C77_value.

(** C77: the same for conditions, for any text with ranges between numbers ... *)
Theorem C77_answer : forall E d s dflt n, world E d -> parse_expression s dflt = Ok n -> numeric_ranges n -> lengths_fit E d n ->
  forall x, answer E d n x <-> evaluate_boolean E s d dflt = x.
Proof. exact answer_text. Qed.
Print Assumptions C77_answer.

(** ... which every sentence of the grammar has. *)
Theorem C77_sentence : forall E d s t dflt n, world E d -> lex s = Ok (yield t) -> reads 0 t eof -> parse_expression s dflt = Ok n -> lengths_fit E d n ->
  forall x, answer E d n x <-> evaluate_boolean E s d dflt = x.
Proof. exact answer_sentence. Qed.
Print Assumptions C77_sentence.

(** C77: the reference semantics gives every tree of a text exactly one outcome. *)
Theorem C77_one_value : forall E d n, world E d -> sensible n -> lengths_fit E d n -> exists x, value_of E d n x /\ forall y, value_of E d n y -> y = x.
Proof. exact value_one. Qed.
Print Assumptions C77_one_value.
Theorem C77_one_answer : forall E d n, world E d -> sensible n -> numeric_ranges n -> lengths_fit E d n -> exists x, answer E d n x /\ forall y, answer E d n y -> y = x.
Proof. exact answer_one. Qed.
Print Assumptions C77_one_answer.
Theorem C77_texts : forall s dflt n, parse_expression s dflt = Ok n -> sensible n.
Proof. exact text_sensible. Qed.
Print Assumptions C77_texts.
Theorem C77_lengths : forall E d n, without_len n -> lengths_fit E d n.
Proof. exact without_fit. Qed.
Print Assumptions C77_lengths.

Example C77_case : let E := witness_env in
  let d := [(J "a", VInt 5); (J "b", VColl true [VInt 1; VStr (J "x")]); (J "m", VMap [(J "k", VBool true)])] in
  let s := J "(((a + 1) > 5.5) AND (NOT (c = 3) OR (m.k = true))) AND (b CONTAINS_ANY (x, y))" in
  world E d /\ (exists n, parse_expression s None = Ok n /\ numeric_ranges n /\ lengths_fit E d n /\ answer E d n (Err DataNotFound) /\ ~ answer E d n (Ok true)) /\
  (exists n, parse_expression (J "2 * a - min(b1, 3)") None = Ok n /\ lengths_fit E d n /\ value_of E d n (Err DataNotFound)) /\
  (exists n, parse_expression (J "2 * a - min(a, 3)") None = Ok n /\ lengths_fit E d n /\ value_of E d n (Ok (VInt 7)) /\ ~ value_of E d n (Ok (VLong 7))).
Proof.
  cbv zeta. set (E := witness_env). set (d := [(J "a", VInt 5); (J "b", VColl true [VInt 1; VStr (J "x")]); (J "m", VMap [(J "k", VBool true)])]).
  assert (W : world E d).
  { assert (P1 : forall z, -2147483648 <= z <= 2147483647 -> possible (VInt z)) by (intros z F; split; [exists INTEGER; left; apply stands_int, F|discriminate]).
    assert (P2 : forall b, possible (VBool b)) by (intros b; split; [exists BOOLEAN; left; apply stands_bool|discriminate]).
    assert (P3 : forall t, possible (VStr t)) by (intros t; split; [apply text_genuine|discriminate]).
    assert (P4 : forall l, possible (VColl true l)) by (intros l; split; [exists STRING; left; constructor|discriminate]).
    assert (P5 : forall l, possible (VMap l)) by (intros l; split; [exists STRING; left; constructor|discriminate]).
    split; [exists 31; split; [apply days31; cbn; tauto|cbn; lia]|]. split; [cbn; lia|]. split.
    - apply proper_map; [cbn; repeat (constructor; [cbn; intuition discriminate|]); constructor|].
      intros k v [H|[H|[H|[]]]]; injection H as <- <-; try (apply proper_other; discriminate).
      apply proper_map; [cbn; repeat (constructor; [cbn; intuition discriminate|]); constructor|]. intros k v [H|[]]; injection H as <- <-. apply proper_other; discriminate.
    - intros ks v H. inversion H as [? k ? In0 _|? k es ks' ? In0 H']; subst.
      + destruct In0 as [X|[X|[X|[]]]]; injection X as <- <-; (split; [auto; apply P1; lia|]); cbn [members]; repeat (apply Forall_cons; [auto; apply P1; lia|]); apply Forall_nil.
      + destruct In0 as [X|[X|[X|[]]]]; try discriminate X. injection X as <- <-. inversion H' as [? k' ? In0 _|? k' es' ks'' ? In0 H'']; subst;
          (destruct In0 as [X|[]]; try discriminate X). injection X as <- <-. split; [auto|]. cbn [members]. apply Forall_cons; [auto|apply Forall_nil]. }
  split; [exact W|]. split; [|split].
  - eexists. split; [vm_compute; reflexivity|]. match goal with |- _ /\ _ /\ answer _ _ ?n _ /\ _ => assert (R : numeric_ranges n) by (cbn; tauto); assert (F : lengths_fit E d n) by (apply C77_lengths; cbn; intuition discriminate) end.
    split; [exact R|]. split; [exact F|].
    pose proof (C77_answer E d (J "(((a + 1) > 5.5) AND (NOT (c = 3) OR (m.k = true))) AND (b CONTAINS_ANY (x, y))") None _ W ltac:(vm_compute; reflexivity) R F) as A.
    split; [apply A; vm_compute; reflexivity|]. intros X. apply A in X. vm_compute in X. discriminate X.
  - eexists. split; [vm_compute; reflexivity|]. match goal with |- _ /\ value_of _ _ ?n _ => assert (F : lengths_fit E d n) by (apply C77_lengths; cbn; intuition discriminate) end.
    split; [exact F|]. apply (C77_value E d (J "2 * a - min(b1, 3)") _ W ltac:(vm_compute; reflexivity) F). vm_compute. reflexivity.
  - eexists. split; [vm_compute; reflexivity|]. match goal with |- _ /\ value_of _ _ ?n _ /\ _ => assert (F : lengths_fit E d n) by (apply C77_lengths; cbn; intuition discriminate) end.
    split; [exact F|]. pose proof (C77_value E d (J "2 * a - min(a, 3)") _ W ltac:(vm_compute; reflexivity) F) as A.
    split; [apply A; vm_compute; reflexivity|]. intros X. apply A in X. vm_compute in X. discriminate X.
Qed.
