(** The generated parser and the parser model agree on the sentences of the grammar. *)
From Coq Require Import FMapPositive.
From Verif Require Import Base Lexer Grammar SpecGrammar SpecLex LexSplit LexTight SyntaxFacts SpecRecover LexerAtn AtnFacts AtnCases ParserTable ParserAtn NetFacts NetRun NetParse NetMain ParseFuel ParseFacts.
Local Open Scope Z_scope.
Opaque next_tokens.

(** * A run is determined by its tokens *)
Lemma predicts_unique p d st ts i j : predicts p d st ts i -> predicts p d st ts j -> i = j.
Proof. intros [V M] [V' M']. destruct (Nat.lt_total i j) as [L | [L | L]]; [| exact L |]; exfalso; [eapply M' | eapply M]; eauto. Qed.
Ltac clash := match goal with P : predicts ?p ?d ?st ?ts ?i, P' : predicts ?p ?d ?st ?ts ?j |- _ =>
  let E := fresh "E" in pose proof (predicts_unique _ _ _ _ _ _ P P') as E; discriminate E end.
Lemma types_unique p st ts t rest t' rest' : types_run p st ts t rest -> types_run p st ts t' rest' -> t = t' /\ rest = rest'.
Proof.
  intros H H'. inversion H as [i test x xs Y P N T | x xs Y P]; subst; inversion H' as [j test' y ys Y' P' N' T' | y ys Y' P']; subst; auto;
    pose proof (predicts_unique _ _ _ _ _ _ P P') as E; subst; exfalso.
  - injection E as ->. vm_compute in N. discriminate.
  - injection E as <-. vm_compute in N'. discriminate.
Qed.
Lemma blanks_unique q q' ts r r' : blanks_run q q' ts r -> blanks_run q q' ts r' -> r = r'.
Proof.
  intros H. revert r'. induction H; intros r' H'; inversion H'; subst; auto; congruence.
Qed.
Lemma pblanks_unique p d st q q' ts r r' : predicted_blanks p d st q q' ts r -> predicted_blanks p d st q q' ts r' -> r = r'.
Proof.
  intros H. revert r'. induction H; intros r' H'; inversion H'; subst; auto; clash.
Qed.
Scheme expression_run_i := Minimality for expression_run Sort Prop
  with primary_run_i := Minimality for primary_run Sort Prop
  with loop_run_i := Minimality for loop_run Sort Prop
  with wordlist_run_i := Minimality for wordlist_run Sort Prop
  with items_run_i := Minimality for items_run Sort Prop.
Combined Scheme runs_ind from expression_run_i, primary_run_i, loop_run_i, wordlist_run_i, items_run_i.

Ltac use IH := match goal with X : _ |- _ =>
  let E := fresh "E" in let E' := fresh "E'" in destruct (IH _ _ X) as [E E']; clear X; try (injection E' as E'); subst end.
Ltac same_blanks := match goal with
  | X : predicted_blanks _ _ _ _ _ ?ts ?a, Y : predicted_blanks _ _ _ _ _ ?ts ?b |- _ =>
      assert_fails (constr_eq a b); pose proof (pblanks_unique _ _ _ _ _ _ _ _ X Y); clear Y; subst
  | X : blanks_run _ _ ?ts ?a, Y : blanks_run _ _ ?ts ?b |- _ =>
      assert_fails (constr_eq a b); pose proof (blanks_unique _ _ _ _ _ X Y); clear Y; subst
  end.
Lemma runs_unique :
  (forall p st ts t rest, expression_run p st ts t rest -> forall t' rest', expression_run p st ts t' rest' -> t = t' /\ rest = rest') /\
  (forall p st ts t rest, primary_run p st ts t rest -> forall t' rest', primary_run p st ts t' rest' -> t = t' /\ rest = rest') /\
  (forall p q st l ts t rest, loop_run p q st l ts t rest -> forall t' rest', loop_run p q st l ts t' rest' -> t = t' /\ rest = rest') /\
  (forall p st ts items rest, wordlist_run p st ts items rest -> forall items' rest', wordlist_run p st ts items' rest' -> items = items' /\ rest = rest') /\
  (forall p q st ts items rest, items_run p q st ts items rest -> forall items' rest', items_run p q st ts items' rest' -> items = items' /\ rest = rest').
Proof.
  apply runs_ind; intros.
  - inversion H4; subst. use H1. eapply H3. eassumption.
  - inversion H4; subst; try clash. use H2. auto.
  - inversion H3; subst; try clash. use H2. auto.
  - inversion H3; subst; try clash. use H2. auto.
  - inversion H3; subst; try clash. use H2. auto.
  - inversion H1; subst; try clash. eapply types_unique; eassumption.
  - inversion H4; subst; try clash. auto.
  - inversion H5; subst; try clash; [| congruence]. use H4. auto.
  - inversion H6; subst; try clash; [congruence |]. use H5. auto.
  - inversion H4; subst; try clash. use H3. auto.
  - inversion H1; subst; try clash. auto.
  - inversion H10; subst; try clash.
    match goal with P : predicts _ 2 _ _ (S i), P' : predicts _ 2 _ _ (S ?j) |- _ => pose proof (predicts_unique _ _ _ _ _ _ P P') as E; injection E as <- end.
    match goal with N : nth_error branches i = Some b, N' : nth_error branches i = Some ?b' |- _ => rewrite N in N'; injection N' as <- end.
    use H7. eapply H9. eassumption.
  - inversion H6; subst. same_blanks.
    use H2. same_blanks. use H5. auto.
  - inversion H2; subst; [auto | congruence].
  - inversion H7; subst; [congruence |]. same_blanks.
    use H3. same_blanks. use H6. auto.
Qed.

(** * Whole inputs *)
Lemma codes_eof ts : nows ts -> nows (ts ++ [eof]).
Proof. intros H. apply Forall_app. split; [exact H |]. constructor; [discriminate | constructor]. Qed.
Lemma into_parse ts : automaton_accepts ts <-> A 2 [23%N] (codes (ts ++ [eof])).
Proof.
  unfold automaton_accepts. change (entry 0) with 0%N. split; intros H.
  - at_state H. at_state H. exact H.
  - go 0. go 0. exact H.
Qed.
Lemma at_eof rest : A 3 [23%N] (codes rest) <-> exists e, rest = [e] /\ kind e = T_EOF.
Proof.
  split.
  - intros H. at_end H. at_state H. destruct rest as [| e rest]; [contradiction |]. cbn [codes map] in H. destruct H as [K H]. at_state H. at_end H.
    destruct rest; [| discriminate H]. exists e. split; [reflexivity |]. destruct (kind e); try discriminate K; reflexivity.
  - intros (e & -> & K). apply acc_return; [reflexivity |]. go 0. cbn [codes map]. rewrite K. split; [reflexivity |]. go 0. apply acc_end. reflexivity.
Qed.
Lemma run_of_accepted ts : nows ts -> automaton_accepts ts -> exists t, parse_tokens ts = Ok t /\ parse_run ts t.
Proof.
  intros B H. apply into_parse in H. pose proof (proj1 (all_good (parse_fuel (ts ++ [eof]))) 0%nat (ts ++ [eof]) [23%N] (codes_eof _ B) es_parse (or_introl eq_refl) H) as G.
  destruct (parse_decides ts) as [[t P] | P].
  - exists t. split; [exact P |]. unfold parse_tokens in P. cbv zeta in P. destruct (pexpr _ _ _) as [[t' rest] | e]; [| discriminate]. cbn [bind good fst snd] in *.
    destruct G as (_ & G & R). apply at_eof in G. destruct G as (e & -> & K). rewrite K in P. cbn in P. injection P as ->. exists e. auto.
  - exfalso. unfold parse_tokens in P. cbv zeta in P. destruct (pexpr _ _ _) as [[t' rest] | e]; cbn [bind good fst snd] in *.
    + destruct G as (_ & G & _). apply at_eof in G. destruct G as (e & -> & K). rewrite K in P. discriminate P.
    + injection P as ->. exact G.
Qed.
Lemma accepted_of_parsed ts t : parse_tokens ts = Ok t -> automaton_accepts ts.
Proof.
  intros P. apply into_parse. unfold parse_tokens in P. cbv zeta in P. apply bind_ok in P. destruct P as ((t' & rest) & P & Q). cbn [fst snd] in Q.
  eapply (proj1 (all_back _)); [exact P |]. apply at_eof. destruct rest as [| e [| x rest]]; try discriminate. exists e. split; [reflexivity |].
  destruct (kind e); try discriminate Q; reflexivity.
Qed.
Lemma viable_accepts p d st ts i : viable p d st ts i -> A (decision d) st (codes ts).
Proof.
  intros (q & N & _ & V). apply free in V. apply acc_mk. apply Exists_exists. eexists. split; [eapply nth_error_In; exact N | exact V].
Qed.
Lemma accepted_of_run ts t : parse_run ts t -> automaton_accepts ts.
Proof.
  intros (e & H & K). apply into_parse. inversion H as [p st l ts' t' rest x Y P L]; subst.
  assert (V : exists i, viable 0 1 [23%N] (ts ++ [eof]) i) by (inversion P; subst; match goal with X : predicts _ _ _ _ ?i |- _ => exists i; exact (proj1 X) end).
  destruct V as [i V]. apply viable_accepts in V. go 0. exact V.
Qed.
Lemma run_is_parse ts t : nows ts -> (parse_run ts t <-> parse_tokens ts = Ok t).
Proof.
  intros B. split; intros H.
  - destruct (run_of_accepted ts B (accepted_of_run _ _ H)) as (t' & P & R). rewrite P. f_equal. destruct H as (e & H & _), R as (e' & R & _).
    symmetry. now apply (proj1 runs_unique _ _ _ _ _ H) in R.
  - destruct (run_of_accepted ts B (accepted_of_parsed _ _ H)) as (t' & P & R). congruence.
Qed.

Lemma generated_tokens s ts : generated_lex s = Some ts -> nows ts /\ Forall canonical ts /\ lex s = Ok ts.
Proof.
  intros H. destruct (generated_same s) as (ts' & G & L). assert (ts' = ts) by congruence. subst ts'. repeat split; auto.
  - eapply Forall_impl; [| apply (lex_genuine _ _ L)]. intros t [_ N]. exact N.
  - now apply lex_canonical with s.
Qed.
Lemma parsed_is_sentence ts t : Forall canonical ts -> parse_tokens ts = Ok t <-> yield t = ts /\ reads 0 t eof.
Proof.
  intros C. split; [now apply parse_tokens_sound |]. intros [<- R]. now apply parse_tokens_complete.
Qed.
Theorem net_language s ts : generated_lex s = Some ts -> (automaton_accepts ts <-> sentence ts).
Proof.
  intros H. apply generated_tokens in H. destruct H as (B & C & _). split.
  - intros X. destruct (run_of_accepted ts B X) as (t & P & _). exists t. now apply parsed_is_sentence.
  - intros (t & X). apply accepted_of_parsed with t. now apply parsed_is_sentence.
Qed.
Theorem net_tree s ts t : generated_lex s = Some ts -> (parse_run ts t <-> yield t = ts /\ reads 0 t eof).
Proof. intros H. apply generated_tokens in H. destruct H as (B & C & _). rewrite run_is_parse by exact B. now apply parsed_is_sentence. Qed.
