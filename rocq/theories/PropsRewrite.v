(** C64: conditions may be refactored. *)
From Coq Require Import QArith.
From Verif Require Import Base JNum BigDec Values Ops Funcs Ast Eval Lexer Grammar Listener Api SpecNum SpecCompare SpecTight SpecSyntax SpecText SpecRewrite RewriteFacts RewriteCases CompareWitness.

(** C64: a condition rewritten by the laws of SpecRewrite (negations pushed inwards or outwards, regrouping, absorption,
    distribution from the left, ranges as two comparisons, lists as one test per element ...), at any depth and any number of
    times, has the same result on all data, whether it succeeds or fails. *)
Theorem C64_rewrites : forall x y, rewrites x y -> forall E d, bool_eval E d x = bool_eval E d y.
Proof. exact rewrites_sound. Qed.
Print Assumptions C64_rewrites.

(** C64: the same for the texts a user writes: two texts, in any layout, whose trees can be rewritten into each other. *)
Theorem C64_texts : forall n m, rewrites n m -> forall s ws t s' ws' t',
  written Nothing s ws n -> laid_out ws t -> written Nothing s' ws' m -> laid_out ws' t' ->
  forall E d dflt dflt', evaluate_boolean E t d dflt = evaluate_boolean E t' d dflt'.
Proof. exact rewrites_texts. Qed.
Print Assumptions C64_texts.

Example C64_case : written Nothing Logic old_words old_tree /\ laid_out old_words (J "NOT ((age 18 TO 65) AND (country IN ('de', 'fr')))") /\
  written Nothing Logic new_words new_tree /\ laid_out new_words (J "((age<18) OR (age>65)) OR ((country!='de') AND (country!='fr'))") /\ rewrites old_tree new_tree /\
  bool_eval witness_env [(J "age", VStr (J "70"))] old_tree = Ok true /\ bool_eval witness_env [(J "age", VInt 20); (J "country", VStr (J "fr"))] new_tree = Ok false.
Proof. exact old_new_case. Qed.

(** C64, refuted for further classical laws, where a failure appears or disappears: distribution from the right, *)
Theorem C64_distribute_right_refuted :
  (exists E d x y z, bool_eval E d (both (any x y) z) <> bool_eval E d (any (both x z) (both y z))) /\
  (exists E d x y z, bool_eval E d (any (both x y) z) <> bool_eval E d (both (any x z) (any y z))).
Proof. exact distribute_right_fails. Qed.
Print Assumptions C64_distribute_right_refuted.

(** a range whose bounds have different types, *)
Theorem C64_mixed_range_refuted : exists E d f lo hi t1 t2 p q, bound lo t1 p /\ bound hi t2 q /\
  bool_eval E d (NRange (Some f) lo hi t1 t2) <> bool_eval E d (both (cond (NField (Some f)) GREATER_THAN_EQUAL (lit lo)) (cond (NField (Some f)) LESS_THAN_EQUAL (lit hi))).
Proof. exact mixed_range_fails. Qed.
Print Assumptions C64_mixed_range_refuted.

(** a list with a field among its elements, *)
Theorem C64_field_elements_refuted : exists E d f x g,
  bool_eval E d (NIn (Some f) [lit x; NField (Some g)]) <> bool_eval E d (any (cond (NField (Some f)) EQUALS (lit x)) (cond (NField (Some f)) EQUALS (NField (Some g)))).
Proof. exact field_elements_fail. Qed.
Print Assumptions C64_field_elements_refuted.

(** CONTAINS_ANY with elements of different types, *)
Theorem C64_mixed_contains_refuted : exists E d f x y,
  bool_eval E d (NArray (Some f) CONTAINS_ANY [lit x; lit y]) <> bool_eval E d (any (NArray (Some f) CONTAINS_ANY [lit x]) (NArray (Some f) CONTAINS_ANY [lit y])).
Proof. exact mixed_contains_fails. Qed.
Print Assumptions C64_mixed_contains_refuted.

(** x AND false, x OR NOT x. *)
Theorem C64_constants_refuted :
  (exists E d x, bool_eval E d (both x (truth_literal false)) <> bool_eval E d (truth_literal false)) /\
  (exists E d x, bool_eval E d (any x (no x)) <> bool_eval E d (truth_literal true)).
Proof. exact constant_right_fails. Qed.
Print Assumptions C64_constants_refuted.
