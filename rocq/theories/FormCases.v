(** Cases for the properties of numbers that reach the data as text. *)
From Coq Require Import QArith.
From Verif Require Import RecoverFacts.
From Verif Require Import Base JNum BigDec Dates Values Ops Funcs Ast Eval Lexer Grammar Api SpecNum SpecCompare SpecArith SpecFunc SpecLex SpecPath SpecSyntax SpecText SpecChain SpecTrend SpecRepr SpecMixed SpecForm
  CompareFacts MixedFacts LexCases TextCases TrendFacts ReprFacts FormFacts CompareWitness.
Local Open Scope Z_scope.

Lemma form_sum_refuted : exists E a, fits32 a /\
  evaluate_boolean E (J "( x + 1 ) > 20") [(J "x", VInt a)] None = Ok false /\ evaluate_boolean E (J "( x + 1 ) > 20") [(J "x", VStr (print_Z a))] None = Ok true.
Proof. exists witness_env, 5. split; [split; discriminate|]. split; vm_compute; reflexivity. Qed.
Lemma form_fraction_refuted : exists E b s q, number (VDec b) q /\ written_number s q /\
  evaluate_boolean E (J "x > 5") [(J "x", VDec b)] None = Ok true /\ evaluate_boolean E (J "x > 5") [(J "x", VStr s)] None = Err InvalidDataType.
Proof.
  exists witness_env, (BD 55 1), (J "5.5"), (11 # 2). split; [constructor; reflexivity|]. split; [|split; vm_compute; reflexivity].
  apply number_parses. exists (BD 55 1). split; [vm_compute; reflexivity|reflexivity].
Qed.
Lemma form_equal_refuted : exists E a, fits32 a /\
  evaluate_boolean E (J "x = 5.0") [(J "x", VInt a)] None = Ok true /\ evaluate_boolean E (J "x = 5.0") [(J "x", VStr (print_Z a))] None = Ok false.
Proof. exists witness_env, 5. split; [split; discriminate|]. split; vm_compute; reflexivity. Qed.
Lemma form_both_refuted : exists E a b, fits32 a /\ fits32 b /\
  evaluate_boolean E (J "x > y") [(J "x", VInt a); (J "y", VInt b)] None = Ok true /\
  evaluate_boolean E (J "x > y") [(J "x", VStr (print_Z a)); (J "y", VStr (print_Z b))] None = Ok false.
Proof. exists witness_env, 10, 9. split; [split; discriminate|]. split; [split; discriminate|]. split; vm_compute; reflexivity. Qed.

Lemma field_yields E d f v : to_lower f <> J "null" -> v <> VNull -> arith_eval E d (NField (Some f)) = Ok v -> yields E d (NField (Some f)) v.
Proof. intros F N H. split; [exact H|]. split; [exact N|]. intros [g [G W]]. injection G as <-. contradiction. Qed.
Lemma form_case : let ws := [J "age"; J ">="; J "18"; J "AND"; J "NOT"] ++ bracketed [J "kind"; J "="; J "7"] in
  let n := NBool (NCmp (NField (Some (J "age"))) (NUnary INTEGER (VInt 18)) GREATER_THAN_EQUAL INTEGER)
     (Some (NBool (NCmp (NField (Some (J "kind"))) (NUnary INTEGER (VInt 7)) EQUALS INTEGER) None NOT)) AND in
  let d := [(J "age", VDec (BD 200 1)); (J "kind", VLong 12)] in let d' := [(J "age", VStr (J "2e1")); (J "kind", VStr (J "12"))] in
  passage Nothing Logic ws n /\ received witness_env d d' n /\ ~ measured witness_env d d' (NCmp (NField (Some (J "age"))) (NUnary INTEGER (VInt 18)) GREATER_THAN_EQUAL INTEGER) /\
  evaluate_boolean witness_env (unwords ws) d None = Ok true.
Proof.
  cbv zeta. split; [|split; [|split]].
  - apply (passage_join Nothing Logic Logic [J "age"; J ">="; J "18"] (J "AND") (J "NOT" :: bracketed [J "kind"; J "="; J "7"])); [|sym|].
    + apply passage_clause, clause_words; [auto|fieldop|sym|intop (J "18")].
    + apply (clause_not _ Logic); [sym|]. apply passage_clause, clause_words; [auto|fieldop|sym|intop (J "7")].
  - apply received_join; [auto| |apply received_not].
    + apply (received_left _ _ _ _ _ _ _ (20 # 1) (J "2e1") (VInt 18) 18).
      * cbn; tauto.
      * split; [exists (VDec (BD 200 1)); split; [|constructor; reflexivity]|]; (apply field_yields; [discriminate|discriminate|vm_compute; reflexivity]).
      * split; (split; [reflexivity|split; [discriminate|intros [g [G _]]; discriminate]]).
      * constructor; [split; discriminate|reflexivity].
      * split; [apply number_parses; exists (BD 2 (-1)); split; [vm_compute; reflexivity|reflexivity]|]. exists 20. split; [reflexivity|split; discriminate].
    + apply (received_equal_left _ _ _ _ _ _ _ 12 (VInt 7) 7).
      * auto.
      * split; [exists (VLong 12); split; [|constructor; split; discriminate]|]; (apply field_yields; [discriminate|discriminate|vm_compute; reflexivity]).
      * split; (split; [reflexivity|split; [discriminate|intros [g [G _]]; discriminate]]).
      * constructor. split; discriminate.
  - intros M. inversion M as [l r op t O A B| | |n F| |]; subst.
    + destruct A as [v [w [_ [[Y _] [q [_ N]]]]]]. vm_compute in Y. injection Y as <-. inversion N.
    + specialize (F (J "age")). cbn [bool_fields arith_fields] in F. specialize (F (or_introl eq_refl)). specialize (F witness_env). vm_compute in F. discriminate F.
  - vm_compute. reflexivity.
Qed.
