(** Cases for the types numbers are held in. *)
From Coq Require Import QArith.
From Verif Require Import RecoverFacts.
From Verif Require Import Base JNum BigDec Dates Values Ops Funcs Ast Eval Lexer Grammar Api SpecNum SpecCompare SpecArith SpecFunc SpecLex SpecPath SpecSyntax SpecText SpecChain SpecTrend SpecRepr
  BigDecFacts LexCases TextCases TrendFacts GrowFacts ReprFacts CompareWitness.
Local Open Scope Z_scope.

Lemma three_numbers : same_number (VInt 3) (VLong 3) /\ same_number (VInt 3) (VDec (BD 30 1)) /\ same_number (VDec (BD 30 1)) (VFloat true (J "3.0")).
Proof.
  assert (A : number (VInt 3) 3) by (constructor; [split; discriminate|reflexivity]). assert (B : number (VLong 3) 3) by (constructor; [split; discriminate|reflexivity]).
  assert (C : number (VDec (BD 30 1)) 3) by (constructor; reflexivity).
  assert (D : number (VFloat true (J "3.0")) 3).
  { constructor. exists false, (J "3"), (J "0"), None. split; [discriminate|]. split; [discriminate|]. split; [reflexivity|]. split; [reflexivity|]. split; [cbn; lia|]. split; [discriminate|]. split; reflexivity. }
  split; [|split]; exists 3%Q; auto.
Qed.
Lemma repr_negate_refuted : exists E v w, same_number v w /\
  evaluate_arith E (J "- x") [(J "x", v)] = Ok (VDec (BD (-30) 1)) /\ evaluate_arith E (J "- x") [(J "x", w)] = Err ClassCast.
Proof. exists witness_env, (VDec (BD 30 1)), (VFloat true (J "3.0")). split; [apply three_numbers|split; vm_compute; reflexivity]. Qed.
Lemma repr_modulus_refuted : exists E v w, same_number v w /\
  evaluate_boolean E (J "( x % 2 ) = 1") [(J "x", v)] None = Ok true /\ evaluate_boolean E (J "( x % 2 ) = 1") [(J "x", w)] None = Err InvalidDataType.
Proof. exists witness_env, (VInt 3), (VDec (BD 30 1)). split; [apply three_numbers|split; vm_compute; reflexivity]. Qed.
Lemma repr_text_refuted : exists E v w, same_number v w /\
  evaluate_boolean E (J "x = '3'") [(J "x", v)] None = Ok true /\ evaluate_boolean E (J "x = '3'") [(J "x", w)] None = Ok false.
Proof. exists witness_env, (VInt 3), (VDec (BD 30 1)). split; [apply three_numbers|split; vm_compute; reflexivity]. Qed.
Lemma repr_contains_refuted : exists E v w, same_number v w /\
  evaluate_boolean E (J "x CONTAINS_ANY ( 3 )") [(J "x", VColl true [v])] None = Ok true /\ evaluate_boolean E (J "x CONTAINS_ANY ( 3 )") [(J "x", VColl true [w])] None = Ok false.
Proof. exists witness_env, (VInt 3), (VDec (BD 30 1)). split; [apply three_numbers|split; vm_compute; reflexivity]. Qed.
Lemma repr_difference_refuted : exists E v w, same_number v w /\
  evaluate_boolean E (J "( x - 1 ) < 0") [(J "x", v)] None = Ok false /\ evaluate_boolean E (J "( x - 1 ) < 0") [(J "x", w)] None = Ok true.
Proof.
  exists witness_env, (VInt (-2147483648)), (VLong (-2147483648)). split; [|split; vm_compute; reflexivity].
  exists (inject_Z (-2147483648)). split; constructor; try reflexivity; split; discriminate.
Qed.
(** ( price * 2 ) >= 10 AND qty IN ( 1 , 3 ) *)
Lemma repr_case : let ws := (bracketed [J "price"; J "*"; J "2"] ++ [J ">="; J "10"]) ++ J "AND" :: (J "qty" :: J "IN" :: bracketed (commas [J "1"; J "3"])) in
  let n := NBool (NCmp (bin (NField (Some (J "price"))) MULTIPLY (NUnary INTEGER (VInt 2))) (NUnary INTEGER (VInt 10)) GREATER_THAN_EQUAL INTEGER)
    (Some (NIn (Some (J "qty")) [NUnary INTEGER (VInt 1); NUnary INTEGER (VInt 3)])) AND in
  let d := [(J "price", VInt 5); (J "qty", VDec (BD 30 1))] in let d' := [(J "price", VDec (BD 500 2)); (J "qty", VFloat true (J "3.0"))] in
  passage Nothing Logic ws n /\ measured witness_env d d' n /\ evaluate_boolean witness_env (unwords ws) d None = Ok true.
Proof.
  cbv zeta. split; [|split; [|vm_compute; reflexivity]].
  - apply (passage_join Nothing Logic Member); [|sym|].
    + apply passage_clause, (clause_left Nothing Arithmetic); [|sym|intop (J "10")].
      apply (passage_formula _ _ (NField (Some (J "price"))) [(MULTIPLY, NUnary INTEGER (VInt 2))]); [|discriminate|].
      * apply (terms_next [J "price"] _ [] (J "*") MULTIPLY [J "2"]); [apply terms_first, term_operand; fieldop|sym|apply term_operand; intop (J "2")].
      * apply (grouped_split _ [] MULTIPLY _ [] _ _); constructor.
    + apply clause_in; [field_name_tac|sym|]. split; [discriminate|]. constructor; [intop (J "1")|constructor; [intop (J "3")|constructor]].
  - assert (L : forall z, fits32 z -> number (VInt z) (inject_Z z)) by (intros z Z; constructor; [exact Z|reflexivity]).
    assert (Lt : forall t z dd, fits32 z -> same_measure witness_env (fst dd) (snd dd) (NUnary t (VInt z))) by (intros t z dd Z; exact (literal_measure _ _ _ t _ _ (L z Z))).
    apply measured_join; [auto| |].
    + apply measured_words; [cbn; tauto| |apply (Lt INTEGER 10 (_, _)); split; discriminate].
      apply (arithmetic_measure _ _ _ _ _ _ (VInt 5) (VInt 2) (VDec (BD 500 2)) (VInt 2)).
      1-4: vm_compute; reflexivity.
      * exists 5%Q. split; constructor; try reflexivity; split; discriminate.
      * exists 2%Q. split; constructor; try reflexivity; split; discriminate.
      * auto.
      * right. right. exists 5, 2. split; [constructor; split; discriminate|]. split; [constructor; split; discriminate|]. split; discriminate.
      * left. reflexivity.
    + apply (measured_in _ _ _ _ _ [VInt 1; VInt 3] [VInt 1; VInt 3]).
      * apply (field_measure _ _ _ _ (VDec (BD 30 1)) (VFloat true (J "3.0"))); [discriminate|vm_compute; reflexivity|vm_compute; reflexivity|apply three_numbers].
      * exists [VInt 1; VInt 3]. split; [repeat constructor|]. split; [reflexivity|]. intros [X|[X|[]]]; discriminate.
      * exists [VInt 1; VInt 3]. split; [repeat constructor|]. split; [reflexivity|]. intros [X|[X|[]]]; discriminate.
      * constructor; [exists (inject_Z 1); split; apply L; split; discriminate|constructor; [exists (inject_Z 3); split; apply L; split; discriminate|constructor]].
Qed.
