(** C62: the tables of the generated parser. *)
From Verif Require Import SpecRecover Recover.
From Verif Require Import Base Lexer Grammar SpecGrammar LexerAtn Listener Api ParserTable ParserAtn NetFacts NetFinal NetSets NetCases.

(** C62: the serialised automaton of the generated parser is well formed: the decoder of the runtime's format accepts it. *)
Theorem C62_decoded : parser_net = Some net.
Proof. exact net_decoded. Qed.
Print Assumptions C62_decoded.

(** C62: on the tokens of a text, the automaton accepts exactly the sentences of the grammar. *)
Theorem C62_language : forall s ts, generated_lex s = Some ts -> (automaton_accepts ts <-> sentence ts).
Proof. exact net_language. Qed.
Print Assumptions C62_language.

(** C62: on the tokens of a text, the generated methods, asking the automaton for every decision, run without an error if and
    only if the text is a sentence; and then they build the one tree the grammar and its precedences give the sentence. *)
Theorem C62_tree : forall s ts t, generated_lex s = Some ts -> (parse_run ts t <-> yield t = ts /\ reads 0 t eof).
Proof. exact net_tree. Qed.
Print Assumptions C62_tree.

(** C62: and parsing the text returns what the listener makes of that tree. *)
Theorem C62_result : forall s ts t dflt, generated_lex s = Some ts -> parse_run ts t -> parse_expression s dflt = listen dflt t.
Proof. exact run_is_result. Qed.
Print Assumptions C62_result.

Example C62_case :
  generated_lex net_text = Some net_tokens /\ automaton_accepts net_tokens /\ parse_run net_tokens net_ptree /\
  generated_lex (J "a = 1 )") = Some bad_tokens /\ ~ automaton_accepts bad_tokens.
Proof. exact net_case. Qed.

(** C62: whatever constructs are open, the tokens at which the model of the error recovery resumes, and the tokens it takes for
    a possible continuation, are those the automaton gives. *)
Theorem C62_recovery_sets : forall st ctx k, Forall2 (fun r fr => In r (opens fr)) st ctx -> k <> T_WS ->
  (recovery_has ctx k = true <-> In (code k) (resume_set st)) /\ (context_has ctx k = true <-> In (code k) (expected_after st)).
Proof. intros st ctx k H N. split; [exact (resume_same st ctx k H N) | exact (expected_same st ctx k H N)]. Qed.
Print Assumptions C62_recovery_sets.
(** ... and so are the tokens it checks for inside lists, brackets and ranges. *)
Theorem C62_sync_sets : forall k, k <> T_WS ->
  (forall q, In q [96; 110]%N -> (begins_item k = true <-> In (code k) (next_tokens q))) /\
  (forall q, In q [103; 117; 122; 124]%N -> (ends_item k = true <-> In (code k) (next_tokens q))) /\
  (forall q a, In (q, a) [(28, T_RPAREN); (125, T_RPAREN); (40, T_TO); (47, T_IN); (92, T_LPAREN); (23, T_EOF)]%N -> (k = a <-> In (code k) (next_tokens q))) /\
  (forall q, In q [41; 129]%N -> (is_numeric_type k = true <-> In (code k) (next_tokens q))).
Proof. exact sync_same. Qed.
Print Assumptions C62_sync_sets.
Example C62_sets_case : Forall2 (fun r fr => In r (opens fr)) [54; 28; 82; 103; 36; 23]%N [InOps; InParen; InOps; InWords; InOps; InParse].
Proof. repeat (constructor; [cbn; tauto |]). constructor. Qed.
