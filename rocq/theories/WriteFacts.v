(** Every condition of SpecWrite has a text. *)
From Coq Require Import QArith.
From Verif Require Import RecoverFacts.
From Verif Require Import Base JNum BigDec Dates Values Ops Funcs Ast Eval Lexer Grammar Listener Api SpecBool SpecCompare SpecPath SpecArith SpecLex SpecDate
  SpecGrammar SpecSyntax SpecText NumFacts CacheFacts BoolFacts CompareFacts ValuesFacts FieldFacts LexFacts LexSplit LexWords LexApi LexCases SyntaxFacts ParseFuel ParseFacts
  ParseShapes ListenFacts TextFacts TextApi SpecWrite.
Local Open Scope nat_scope.

(** ** Symbols *)
Lemma arithmetic_symbol op : arithmetic_operator op -> exists o, In (o, op) arithmetic_symbols.
Proof. unfold arithmetic_operator. cbn [In]. intros H. decompose [or] H; subst; try contradiction; eexists; unfold arithmetic_symbols; cbn [In]; eauto 12. Qed.
Lemma comparison_symbol op : comparison_operator op -> exists o, In (o, op) comparators.
Proof. unfold comparison_operator. cbn [In]. intros H. decompose [or] H; subst; try contradiction; eexists; unfold comparators; cbn [In]; eauto 12. Qed.
Lemma words_listed xs : xs <> [] -> Forall word_for xs -> exists ws, listed ws xs.
Proof.
  intros Ne F. enough (exists ws, Forall2 SpecSyntax.operand ws xs) as [ws H].
  { exists ws. split; [|exact H]. intros ->. inversion H; subst. contradiction. }
  clear Ne. induction F as [|x xs [w W] _ [ws IH]]; [exists []; constructor|exists (w :: ws); constructor; assumption].
Qed.
Lemma function_word f : exists w, In (w, f) function_names.
Proof. destruct f; eexists; unfold function_names; cbn [In]; eauto 24. Qed.

(** ** Arithmetic *)
Definition arith_sort (n : node) : sort := match n with NArith _ _ _ => Arithmetic | _ => Function end.
Lemma formula_written p n : formula p n -> forall b, (p = true -> b <> Arithmetic) -> exists ws, written b (arith_sort n) ws n.
Proof.
  induction 1 as [x [w W]|p x y op [w W] [v V] O|p x n op [w W] F IH O|p m y op F IH [w W] O|p m n op F1 IH1 F2 IH2 O|p l r op F IH|p f xs Ne Fx]; intros b B.
  - exists [J "-"; w]. apply w_negation; auto.
  - destruct (arithmetic_symbol op O) as [o I]. exists [w; o; v]. apply w_arith; assumption.
  - destruct (arithmetic_symbol op O) as [o I]. destruct (IH b B) as [ws Ws]. exists (w :: o :: bracketed ws). eapply w_arith_right; eassumption.
  - destruct (arithmetic_symbol op O) as [o I]. destruct (IH b B) as [ws Ws]. exists (bracketed ws ++ [o; w]). eapply w_arith_left; eassumption.
  - destruct (arithmetic_symbol op O) as [o I]. destruct (IH1 b B) as [ws Ws]. destruct (IH2 (arith_sort m) ltac:(discriminate)) as [vs Vs].
    exists (bracketed ws ++ o :: bracketed vs). eapply w_arith_both; eassumption.
  - destruct (IH b B) as [ws Ws]. exists (J "-" :: bracketed ws). apply w_negation_compound. exact Ws.
  - destruct (words_listed xs Ne Fx) as [ws L]. destruct (function_word f) as [w I]. exists (w :: bracketed (commas ws)). apply w_call; assumption.
Qed.
Lemma formula_text n : formula true n -> exists s, forall E d, evaluate_arith E s d = arith_eval E d n.
Proof.
  intros F. destruct (formula_written _ _ F Nothing ltac:(discriminate)) as [ws W]. exists (unwords ws). intros E d. apply (written_arith E d _ _ _ W).
Qed.

(** ** Conditions *)
Definition same (n n' : node) : Prop := is_arith_base n = is_arith_base n' /\ node_is_null_field n = node_is_null_field n' /\ forall E d, bool_eval E d n = bool_eval E d n'.
Lemma same_left m m' n op t : is_arith_base m = false -> same m m' -> same (NCmp m n op t) (NCmp m' n op t).
Proof.
  intros A [B [C D]]. split; [reflexivity|]. split; [reflexivity|]. intros E d. cbn [bool_eval]. rewrite <- B, A, <- D. unfold is_null_check. rewrite <- C. reflexivity.
Qed.
Lemma same_right m n n' op t : is_arith_base n = false -> same n n' -> same (NCmp m n op t) (NCmp m n' op t).
Proof.
  intros A [B [C D]]. split; [reflexivity|]. split; [reflexivity|]. intros E d. cbn [bool_eval]. rewrite <- B, A, <- D. unfold is_null_check. rewrite <- C. reflexivity.
Qed.
Lemma query_condition n : query n -> is_arith_base n = false.
Proof. destruct 1; reflexivity. Qed.
Lemma twice_negated n : is_arith_base n = false -> node_is_null_field n = Ok false -> same n (NBool (NBool n None NOT) None NOT).
Proof.
  intros A B. split; [exact A|]. split; [exact B|]. intros E d. cbn [bool_eval]. destruct (bool_eval E d n) as [x|e]; cbn [bind]; [rewrite Bool.negb_involutive; reflexivity|reflexivity].
Qed.
Lemma same_refl n : same n n.
Proof. split; [|split]; reflexivity. Qed.
Lemma member_twice b n ws : is_arith_base n = false -> node_is_null_field n = Ok false -> written b Member ws n ->
  exists ws' n', written b Logic ws' n' /\ same n n'.
Proof.
  intros A B W. eexists _, _. split; [|apply twice_negated; assumption]. apply (w_not b Logic (J "NOT")); [left; reflexivity|]. apply (w_not b Member (J "NOT")); [left; reflexivity|exact W].
Qed.
Lemma query_written n : query n -> forall b, b = Nothing \/ b = Logic -> exists ws n', written b Logic ws n' /\ same n n'.
Proof.
  induction 1 as [x y op t [w W] [v V] O|m y op t F [w W] O|x n op t [w W] F O|m y op t Q IH [w W] O|x n op t [w W] Q IH O
    |f lo hi t u Fn [w W] [v V] T U|f xs Fn Ne F|f op xs Fn Ne F O|m Q IH|m n Q1 IH1 Q2 IH2|m n Q1 IH1 Q2 IH2]; intros b B.
  - destruct (comparison_symbol op O) as [o I]. eexists _, _. split; [|apply same_refl]. apply w_compare; eassumption.
  - destruct (comparison_symbol op O) as [o I]. destruct (formula_written _ _ F b) as [ws Ws]; [intros _; destruct B as [-> | ->]; discriminate|].
    eexists _, _. split; [|apply same_refl]. eapply w_compare_left; eassumption.
  - destruct (comparison_symbol op O) as [o I]. destruct (formula_written _ _ F b) as [ws Ws]; [intros _; destruct B as [-> | ->]; discriminate|].
    eexists _, _. split; [|apply same_refl]. eapply w_compare_right; eassumption.
  - destruct (comparison_symbol op O) as [o I]. destruct (IH b B) as [ws [m' [Ws S]]]. eexists _, _. split; [|apply same_left; [apply query_condition, Q|exact S]].
    eapply w_compare_left; eassumption.
  - destruct (comparison_symbol op O) as [o I]. destruct (IH b B) as [ws [m' [Ws S]]]. eexists _, _. split; [|apply same_right; [apply query_condition, Q|exact S]].
    eapply w_compare_right; eassumption.
  - eapply member_twice; [reflexivity|reflexivity|]. apply (w_range b f w (J "TO") v); try assumption. left. reflexivity.
  - destruct (words_listed xs Ne F) as [ws L]. eapply member_twice; [reflexivity|reflexivity|]. apply (w_in b f (J "IN") ws); try assumption. left. reflexivity.
  - destruct (words_listed xs Ne F) as [ws L]. destruct O as [-> | ->].
    + eapply member_twice; [reflexivity|reflexivity|]. apply (w_contains b f (J "CONTAINS_ALL") CONTAINS_ALL ws); try assumption. left. reflexivity.
    + eapply member_twice; [reflexivity|reflexivity|]. apply (w_contains b f (J "CONTAINS_ANY") CONTAINS_ANY ws); try assumption. right. right. left. reflexivity.
  - destruct (IH b B) as [ws [m' [Ws [_ [_ S]]]]]. eexists _, _. split; [apply (w_not b Logic (J "NOT")); [left; reflexivity|exact Ws]|].
    split; [reflexivity|]. split; [reflexivity|]. intros E d. cbn [bool_eval]. rewrite S. reflexivity.
  - destruct (IH1 b B) as [ws [m' [Ws [_ [_ S]]]]]. destruct (IH2 Logic (or_intror eq_refl)) as [vs [n' [Vs [_ [_ S']]]]].
    eexists _, _. split; [apply (w_connect b Logic Logic ws (J "AND") vs m' AND n' Ws); [left; reflexivity|exact Vs]|].
    split; [reflexivity|]. split; [reflexivity|]. intros E d. cbn [bool_eval]. rewrite S, S'. reflexivity.
  - destruct (IH1 b B) as [ws [m' [Ws [_ [_ S]]]]]. destruct (IH2 Logic (or_intror eq_refl)) as [vs [n' [Vs [_ [_ S']]]]].
    eexists _, _. split; [apply (w_connect b Logic Logic ws (J "OR") vs m' OR n' Ws); [right; right; right; left; reflexivity|exact Vs]|].
    split; [reflexivity|]. split; [reflexivity|]. intros E d. cbn [bool_eval]. rewrite S, S'. reflexivity.
Qed.
Lemma query_text n : query n -> exists s, forall E d dflt, evaluate_boolean E s d dflt = bool_eval E d n.
Proof.
  intros Q. destruct (query_written n Q Nothing (or_introl eq_refl)) as [ws [n' [W [_ [_ S]]]]]. exists (unwords ws). intros E d dflt.
  rewrite (written_boolean E d dflt _ _ _ W), S. reflexivity.
Qed.

(** ** The way around C38 *)
Lemma negated_connective E d dflt s1 s2 ws1 no o op ws2 m n : written Nothing s1 ws1 m -> In no not_words -> In (o, op) connectives -> written Logic s2 ws2 n ->
  evaluate_boolean E (unwords (bracketed (no :: bracketed (no :: bracketed ws1)) ++ o :: bracketed ws2)) d dflt =
    match op with
    | AND => b <- evaluate_boolean E (unwords ws1) d dflt ;; if b then evaluate_boolean E (unwords ws2) d dflt else Ok false
    | OR => b <- evaluate_boolean E (unwords ws1) d dflt ;; if b then Ok true else evaluate_boolean E (unwords ws2) d dflt
    | NOT => Err InvalidExpression
    end.
Proof.
  intros W1 N I W2. assert (W : written Nothing Logic (no :: bracketed (no :: bracketed ws1)) (NBool (NBool m None NOT) None NOT)).
  { apply (w_not _ Logic no _ _ N). apply (w_not _ s1 no _ _ N W1). }
  rewrite (compose_connect E d dflt _ _ _ o op _ _ _ W I W2). rewrite (written_boolean E d dflt _ _ _ W), (written_boolean E d dflt _ _ _ W1).
  cbn [bool_eval]. destruct (bool_eval E d m) as [x|e]; cbn [bind]; [rewrite Bool.negb_involutive|]; reflexivity.
Qed.

(** ** Two sides in parentheses *)
Lemma written_sort b s ws n : written b s ws n -> s <> Nothing.
Proof. induction 1; try discriminate; assumption. Qed.
Lemma two_sides E d dflt s1 s2 ws1 c q ws2 m n : written Nothing s1 ws1 m -> In (c, q) comparators -> written s1 s2 ws2 n ->
  evaluate_boolean E (unwords (bracketed ws1 ++ c :: bracketed ws2)) d dflt = Err InvalidExpression.
Proof.
  intros W1 C W2. destruct (written_good _ _ _ _ W1) as [t1 G1]. destruct (written_good _ _ _ _ W2) as [t2 G2].
  destruct G1 as [Y1 [Gn1 [R1 [Rg1 [S1 D1]]]]]. destruct G2 as [Y2 [Gn2 [R2 [Rg2 [S2 D2]]]]].
  destruct (comparator_genuine _ _ C) as [kc [Gc Kc]]. pose proof lparen_genuine as GL. pose proof rparen_genuine as GR.
  set (T := PCmp (PParen t1) (Tok kc c) (PParen t2)).
  assert (L : lex (unwords (bracketed ws1 ++ c :: bracketed ws2)) = Ok (yield T)).
  { rewrite <- (unwords_lex (yield T)).
    - do 2 f_equal. unfold T. cbn [yield]. rewrite <- Y1, <- Y2. unfold bracketed. cbn [map app text]. rewrite !map_app. cbn [map app text]. rewrite map_app. reflexivity.
    - unfold T. cbn [yield]. apply Forall_app. split.
      + apply Forall_cons; [exact GL|]. apply Forall_app. split; [exact Gn1|]. apply Forall_cons; [exact GR|apply Forall_nil].
      + apply Forall_cons; [exact Gc|]. apply Forall_cons; [exact GL|]. apply Forall_app. split; [exact Gn2|]. apply Forall_cons; [exact GR|apply Forall_nil]. }
  assert (RT : reads 0 T eof).
  { eapply r_cmp; [exact Kc|apply comparator_level9, Kc|lia|apply r_paren, R1, open_rparen|apply r_paren, R2, open_rparen]. }
  destruct (walk_regular dflt Nothing t1 Rg1 m (LState [] None 0) Gn1 (D1 dflt)) as [m' [st1 [Wk1 [St1 [_ K1]]]]]; [constructor|reflexivity|].
  assert (K0 : top_sort (stack st1) = s1) by (rewrite St1; cbn [top_sort]; congruence).
  destruct (walk_regular dflt s1 t2 Rg2 n st1 Gn2 (D2 dflt)) as [n' [st2 [Wk2 [St2 [_ K2]]]]]; [rewrite St1; apply Forall_cons; [intros X; apply (written_sort _ _ _ _ W1); congruence|apply Forall_nil]|exact K0|].
  unfold evaluate_boolean, parse_expression. rewrite L. cbn [bind]. rewrite (parse_any_complete T RT). cbn [bind].
  unfold listen, T. cbn [walk]. rewrite Wk1. cbn [bind]. rewrite Wk2. cbn [bind]. unfold push_context. cbn [map_context as_types]. destruct (steals _ _ _); reflexivity.
Qed.
