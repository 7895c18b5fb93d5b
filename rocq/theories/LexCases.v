(** Consequences and concrete cases used in PropsLex. *)
From Verif Require Import Base JNum Values Ops Ast Eval Lexer Grammar Listener Api SpecArith SpecPath SpecLex LexFacts LexSplit LexWords LexApi CompareWitness.
Local Open Scope Z_scope.

Lemma lex_unique_split s : exists ps, splits s ps /\ lex s = Ok (tokens_of ps) /\ forall ps', splits s ps' -> ps' = ps.
Proof. destruct (lex_total s) as [ps [S E]]. exists ps. split; [exact S|]. split; [exact E|]. intros ps' S'. apply (splits_unique _ _ S' _ S). Qed.
Lemma spacing_irrelevant s s' ts dflt : lex s = Ok ts -> spaced ts s' -> lex s' = Ok ts /\ parse_expression s' dflt = parse_expression s dflt.
Proof.
  intros E S. assert (E' : lex s' = Ok ts) by (apply spaced_lex; [apply (lex_genuine s), E|exact S]). split; [exact E'|].
  unfold parse_expression. rewrite E, E'. reflexivity.
Qed.
Lemma foreign_skipped c s dflt : (forall k r u, In (k, r) lexicon -> ~ matches r (c :: u)) ->
  lex (c :: s) = lex s /\ parse_expression (c :: s) dflt = parse_expression s dflt.
Proof. intros F. pose proof (foreign_ignored c s F) as E. split; [exact E|]. unfold parse_expression. rewrite E. reflexivity. Qed.
Lemma mixed_case_field k up lo w : In (k, up, lo) keywords -> to_lower w = lo -> w <> up -> w <> lo -> lex w = Ok [Tok T_FIELD w].
Proof. intros I L U N. apply lex_field. exact (mixed_field k up lo w I L U N). Qed.
Lemma longer_word_field k up lo v u : In (k, up, lo) keywords -> v = up \/ v = lo ->
  Forall (fun c => word_char c = true) u -> ~ keyword (v ++ u) -> lex (v ++ u) = Ok [Tok T_FIELD (v ++ u)].
Proof. intros I V U N. apply lex_field. exact (longer_field k up lo v u I V U N). Qed.

Lemma hash_foreign k r u : In (k, r) lexicon -> ~ matches r (ch "#" :: u).
Proof.
  intros I M. apply (rule_shape _ _ _ I) in M. apply shape_cases in M.
  destruct M as [[_ H]|[H|[[H _]|[[H _]|[[_ [H _]]|[q [b [Q [_ V]]]]]]]]].
  - discriminate.
  - unfold symbols in H. cbn [In] in H. repeat (destruct H as [H|H]; [vm_compute in H; discriminate|]). contradiction.
  - apply first_class in H. discriminate.
  - apply first_class in H. discriminate.
  - discriminate.
  - injection V as <- _. destruct Q; discriminate.
Qed.
Lemma lex_case :
  splits (J "a  >=1#") [Token (Tok T_FIELD (J "a")); Blank (J "  "); Token (Tok T_GE (J ">=")); Token (Tok T_INTEGER (J "1")); Dropped (J "#")] /\
  spaced [Tok T_FIELD (J "a"); Tok T_GE (J ">="); Tok T_INTEGER (J "1")] (J " a >=   1") /\
  (forall k r u, In (k, r) lexicon -> ~ matches r (ch "#" :: u)) /\
  parse_expression (J "a @ = 5") None = parse_expression (J "a = 5") None.
Proof.
  split; [|split; [|split; [exact hash_foreign|vm_compute; reflexivity]]].
  - assert (P : forall w rest k n, best_match (w ++ rest) = (k, n) -> n = length w -> w <> [] -> picks (w ++ rest) k w).
    { intros w rest k n B -> N. destruct (best_picks _ _ _ B) as [Q _]; [destruct w; [contradiction|discriminate]|]. rewrite firstn_app_exact in Q. exact Q. }
    apply (split_token T_FIELD (J "a") (J "  >=1#")); [eapply P; [vm_compute; reflexivity|reflexivity|discriminate]|discriminate|].
    apply (split_blank (J "  ") (J ">=1#")); [eapply P; [vm_compute; reflexivity|reflexivity|discriminate]|].
    apply (split_token T_GE (J ">=") (J "1#")); [eapply P; [vm_compute; reflexivity|reflexivity|discriminate]|discriminate|].
    apply (split_token T_INTEGER (J "1") (J "#")); [eapply P; [vm_compute; reflexivity|reflexivity|discriminate]|discriminate|].
    apply (split_drop (J "#") []); [discriminate| | |constructor].
    + apply (best_none _ T_EOF). vm_compute. reflexivity.
    + apply (error_drops (ch "#") []). apply (best_none _ T_EOF). vm_compute. reflexivity.
  - apply (sp_more (J " ") (Tok T_FIELD (J "a")) 32%N (J ">=   1") [Tok T_GE (J ">="); Tok T_INTEGER (J "1")]); [repeat constructor|reflexivity|discriminate|].
    apply (sp_more [] (Tok T_GE (J ">=")) 32%N (J "  1") [Tok T_INTEGER (J "1")]); [constructor|reflexivity|discriminate|].
    apply (sp_one (J "  ") (Tok T_INTEGER (J "1")) []); repeat constructor.
Qed.
Ltac field_name_tac :=
  split; [vm_compute; repeat constructor|split; [vm_compute; repeat (first [apply Exists_cons_hd; split; [reflexivity|discriminate]|apply Exists_cons_tl])|];
  intros [k [up [lo [I V]]]]; unfold keywords in I; cbn [In] in I;
  repeat (destruct I as [I|I]; [injection I as <- <- <-; destruct V as [V|V]; vm_compute in V; discriminate|]); contradiction].
Lemma keyword_case : In (T_AND, J "AND", J "and") keywords /\ to_lower (J "And") = J "and" /\ lex (J "And") = Ok [Tok T_FIELD (J "And")] /\
  lex (J "android") = Ok [Tok T_FIELD (J "android")] /\ lex (J "int") = Ok [Tok T_INT (J "int")] /\ field_name (J "user_1.age").
Proof.
  split; [unfold keywords; cbn [In]; tauto|]. split; [reflexivity|]. split; [vm_compute; reflexivity|]. split; [vm_compute; reflexivity|].
  split; [vm_compute; reflexivity|]. field_name_tac.
Qed.
Lemma quoted_case : ~ In (ch "'") (J " x AND (y) <> ""1""") /\ field_name (J "name") /\ In (J "!=", NOT_EQUAL) comparators /\
  evaluate_arith witness_env (J "' x AND (y) <> ""1""'") [] = Ok (VStr (J " x AND (y) <> ""1""")).
Proof.
  split; [vm_compute; intuition discriminate|]. split; [field_name_tac|]. split; [unfold comparators; cbn [In]; tauto|]. vm_compute. reflexivity.
Qed.
Lemma number_case : digits (J "0042") /\ natural (J "0042") = 42 /\ fits64 (natural (J "9223372036854775807")) /\ ~ fits64 (natural (J "9223372036854775808")) /\
  field_name (path_text [J "user"; J "age"]) /\ In (J ">=", GREATER_THAN_EQUAL) comparators /\
  evaluate_boolean witness_env (J "user.age >= 0042") [(J "user", VMap [(J "age", VLong 42)])] None = Ok true.
Proof.
  split; [split; [discriminate|repeat constructor]|]. split; [reflexivity|]. split; [vm_compute; split; discriminate|]. split; [vm_compute; intros [_ H]; apply H; reflexivity|].
  split; [change (path_text [J "user"; J "age"]) with (J "user.age"); field_name_tac|]. split; [unfold comparators; cbn [In]; tauto|]. vm_compute. reflexivity.
Qed.
