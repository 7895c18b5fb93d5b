(** Rewriting conditions given as texts, concrete cases, and rewritings that do not keep the result. *)
From Coq Require Import QArith.
From Verif Require Import Base JNum BigDec Values Ops Funcs Ast Eval Lexer Grammar Listener Api SpecNum SpecCompare SpecArith SpecLex SpecTight SpecGrammar SpecSyntax SpecText
  LexSplit LexWords LexTight LexCases SyntaxFacts TextFacts TextCases OddText OddCases CompareWitness SpecRewrite RewriteFacts.
Local Open Scope nat_scope.

Lemma rewrites_texts n m : rewrites n m -> forall s ws t s' ws' t', written Nothing s ws n -> laid_out ws t -> written Nothing s' ws' m -> laid_out ws' t' ->
  forall E d dflt dflt', evaluate_boolean E t d dflt = evaluate_boolean E t' d dflt'.
Proof.
  intros R s ws t s' ws' t' W L W' L' E d dflt dflt'.
  rewrite (proj1 (layout_condition E d dflt s ws n t W L)), (proj1 (layout_condition E d dflt' s' ws' m t' W' L')). apply rewrites_sound, R.
Qed.

Definition old_words : list jstr :=
  J "NOT" :: bracketed (bracketed [J "age"; J "18"; J "TO"; J "65"] ++ J "AND" :: bracketed (J "country" :: J "IN" :: bracketed (commas [J "'de'"; J "'fr'"]))).
Definition new_words : list jstr :=
  bracketed (bracketed [J "age"; J "<"; J "18"] ++ J "OR" :: bracketed [J "age"; J ">"; J "65"]) ++ J "OR" ::
  bracketed (bracketed [J "country"; J "!="; J "'de'"] ++ J "AND" :: bracketed [J "country"; J "!="; J "'fr'"]).
Definition age : node := NField (Some (J "age")).
Definition country : node := NField (Some (J "country")).
Definition old_tree : node := no (both (NRange (Some (J "age")) (VInt 18) (VInt 65) INTEGER INTEGER) (NIn (Some (J "country")) (map lit [VStr (J "de"); VStr (J "fr")]))).
Definition new_tree : node :=
  any (any (cond age LESS_THAN (lit (VInt 18))) (cond age GREATER_THAN (lit (VInt 65))))
      (both (cond country NOT_EQUAL (lit (VStr (J "de")))) (cond country NOT_EQUAL (lit (VStr (J "fr"))))).

Lemma quoted s : ~ In (ch "'") s -> operand (ch "'" :: s ++ [ch "'"]) (NUnary STRING (VStr s)).
Proof. intros H. apply o_string; auto. Qed.
Lemma old_written : written Nothing Logic old_words old_tree.
Proof.
  unfold old_words, old_tree, no, both. eapply w_not; [cbn; tauto|]. eapply w_connect; [|sym|].
  - apply w_range; [assert (X : operand (J "age") age) by fieldop; inversion X; subst; auto; discriminate|intop (J "18")|intop (J "65")|cbn; tauto|cbn; tauto|cbn; tauto].
  - apply w_in; [assert (X : operand (J "country") country) by fieldop; inversion X; subst; auto; discriminate|cbn; tauto|]. split; [discriminate|].
    repeat constructor; [apply (quoted (J "de"))|apply (quoted (J "fr"))]; cbn; intros X; repeat destruct X as [X|X]; try discriminate X; auto.
Qed.
Lemma new_written : written Nothing Logic new_words new_tree.
Proof.
  unfold new_words, new_tree, any, both, cond.
  assert (D : operand (J "'de'") (lit (VStr (J "de")))) by (apply (quoted (J "de")); cbn; intros X; repeat destruct X as [X|X]; try discriminate X; auto).
  assert (F : operand (J "'fr'") (lit (VStr (J "fr")))) by (apply (quoted (J "fr")); cbn; intros X; repeat destruct X as [X|X]; try discriminate X; auto).
  eapply w_connect; [eapply w_connect; [|sym|]|sym|eapply w_connect; [|sym|]]; apply w_compare; auto; try fieldop; try sym; [intop (J "18")|intop (J "65")].
Qed.
Lemma old_new : rewrites old_tree new_tree.
Proof.
  unfold old_tree, new_tree. eapply r_trans; [apply r_de_morgan_and|]. apply r_or.
  - eapply r_trans; [apply r_not; eapply (r_range (J "age") (VInt 18) (VInt 65) INTEGER 18 65 STRING STRING); split; try reflexivity; apply number_int; try reflexivity; split; discriminate|].
    eapply r_trans; [apply r_de_morgan_and|]. apply r_or; apply r_opposite; cbn; tauto.
  - eapply r_trans; [apply r_not, (r_in (J "country") (VStr (J "de")) [VStr (J "fr")]); [discriminate|repeat constructor; discriminate]|].
    eapply r_trans; [apply r_de_morgan_or|]. apply r_and; apply r_opposite; cbn; tauto.
Qed.
Lemma old_new_case : written Nothing Logic old_words old_tree /\ laid_out old_words (J "NOT ((age 18 TO 65) AND (country IN ('de', 'fr')))") /\
  written Nothing Logic new_words new_tree /\ laid_out new_words (J "((age<18) OR (age>65)) OR ((country!='de') AND (country!='fr'))") /\ rewrites old_tree new_tree /\
  bool_eval witness_env [(J "age", VStr (J "70"))] old_tree = Ok true /\ bool_eval witness_env [(J "age", VInt 20); (J "country", VStr (J "fr"))] new_tree = Ok false.
Proof.
  split; [exact old_written|]. split.
  { laidout [(J "NOT", J " "); (J "(", []); (J "(", []); (J "age", J " "); (J "18", J " "); (J "TO", J " "); (J "65", []); (J ")", J " "); (J "AND", J " ");
      (J "(", []); (J "country", J " "); (J "IN", J " "); (J "(", []); (J "'de'", []); (J ",", J " "); (J "'fr'", []); (J ")", []); (J ")", []); (J ")", [])]. }
  split; [exact new_written|]. split.
  { laidout [(J "(", []); (J "(", []); (J "age", []); (J "<", []); (J "18", []); (J ")", J " "); (J "OR", J " "); (J "(", []); (J "age", []); (J ">", []); (J "65", []); (J ")", []); (J ")", J " ");
      (J "OR", J " "); (J "(", []); (J "(", []); (J "country", []); (J "!=", []); (J "'de'", []); (J ")", J " "); (J "AND", J " "); (J "(", []); (J "country", []); (J "!=", []); (J "'fr'", []); (J ")", []); (J ")", [])]. }
  split; [exact old_new|]. split; reflexivity.
Qed.

(** What does not keep the result *)
Definition absent : node := cond (NField (Some (J "zz"))) EQUALS (lit (VInt 1)).
Lemma distribute_right_fails :
  (exists E d x y z, bool_eval E d (both (any x y) z) <> bool_eval E d (any (both x z) (both y z))) /\
  (exists E d x y z, bool_eval E d (any (both x y) z) <> bool_eval E d (both (any x z) (any y z))).
Proof.
  split.
  - exists witness_env, [], (truth_literal true), absent, (truth_literal false). discriminate.
  - exists witness_env, [], (truth_literal false), absent, (truth_literal true). discriminate.
Qed.
Lemma mixed_range_fails : exists E d f lo hi t1 t2 p q, bound lo t1 p /\ bound hi t2 q /\
  bool_eval E d (NRange (Some f) lo hi t1 t2) <> bool_eval E d (both (cond (NField (Some f)) GREATER_THAN_EQUAL (lit lo)) (cond (NField (Some f)) LESS_THAN_EQUAL (lit hi))).
Proof.
  exists witness_env, [(J "a", VStr (J "3.5"))], (J "a"), (VDec (BD 65 1)), (VInt 10), DECIMAL, INTEGER, (13 # 2)%Q, 10%Q.
  split; [split; [apply number_dec; reflexivity|reflexivity]|]. split; [split; [apply number_int; [split; discriminate|reflexivity]|reflexivity]|]. discriminate.
Qed.
Lemma field_elements_fail : exists E d f x g,
  bool_eval E d (NIn (Some f) [lit x; NField (Some g)]) <> bool_eval E d (any (cond (NField (Some f)) EQUALS (lit x)) (cond (NField (Some f)) EQUALS (NField (Some g)))).
Proof. exists witness_env, [(J "a", VInt 1)], (J "a"), (VInt 1), (J "zz"). discriminate. Qed.
Lemma mixed_contains_fails : exists E d f x y,
  bool_eval E d (NArray (Some f) CONTAINS_ANY [lit x; lit y]) <> bool_eval E d (any (NArray (Some f) CONTAINS_ANY [lit x]) (NArray (Some f) CONTAINS_ANY [lit y])).
Proof. exists witness_env, [(J "a", VColl true [VInt 1])], (J "a"), (VInt 1), (VStr (J "x")). discriminate. Qed.
Lemma constant_right_fails :
  (exists E d x, bool_eval E d (both x (truth_literal false)) <> bool_eval E d (truth_literal false)) /\
  (exists E d x, bool_eval E d (any x (no x)) <> bool_eval E d (truth_literal true)).
Proof. split; exists witness_env, [], absent; discriminate. Qed.
