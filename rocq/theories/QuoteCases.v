(** The cases of C86, and failures from text to result. *)
From Verif Require Import RecoverFacts SpecRecover AnyText.
From Verif Require Import Base JNum Values Ops Funcs Ast Eval Lexer Grammar Recover Listener Api SpecCompare SpecLex SpecGrammar SpecSyntax SpecText Messages ParseMessages SpecMessage SpecQuote
  SyntaxFacts ParseFacts ParseShapes CompareWitness MessageFacts QuoteFacts.
Local Open Scope nat_scope.

Lemma parse_speaks s t dflt e m : lex s = Ok (yield t) -> reads 0 t eof -> parse_told s dflt = Throws e m -> (own e <-> m <> None).
Proof.
  intros L R P. destruct (parse_quoting s t dflt e m L R P) as [K _]. rewrite <- K. pose proof (forget_parse s dflt) as F. rewrite P in F. cbn [forget] in F.
  destruct (parse_total s dflt) as [[n N]|[e' [E' I']]]; [congruence|]. assert (e' = e) by congruence. subst e'. unfold own. unfold parse_failures in I'. cbn [In] in *.
  split; [|intros ->; tauto]. intros O. decompose [or] I'; subst; try reflexivity; try contradiction; exfalso; decompose [or] O; try discriminate; contradiction.
Qed.
Lemma condition_speaks E s t d dflt e m : lex s = Ok (yield t) -> reads 0 t eof -> condition_told E s d dflt = Throws e m -> (own e <-> m <> None).
Proof.
  intros L R C. unfold condition_told in C. destruct (parse_told s dflt) as [n|e' m'] eqn:P; cbn [tbind] in C.
  - exact (proj1 (bool_speaks E d n e m C)).
  - injection C as -> ->. exact (parse_speaks s t dflt e m L R P).
Qed.
Lemma formula_speaks E s t d e m : lex s = Ok (yield t) -> reads 0 t eof -> formula_told E s d = Throws e m -> (own e <-> m <> None).
Proof.
  intros L R C. unfold formula_told in C. destruct (parse_told s None) as [n|e' m'] eqn:P; cbn [tbind] in C.
  - exact (proj1 (arith_speaks E d n e m C)).
  - injection C as -> ->. exact (parse_speaks s t None e m L R P).
Qed.

Lemma quote_case : let says s := condition_told witness_env s [] None in let error m := Throws InvalidExpression (Some m) in
  says (J "a IN (1, 2) AND b = 3") = error (J "Error parsing binary expression for the string aIN(1,2)ANDb=3") /\
  says (J "NOT (a = 1 OR b)") = error (J "Error parsing binary expression for the string a=1ORb") /\
  says (J "x = 1 AND (a + 1) = (b - 1)") = error (J "Array does not support this expression (b-1)") /\
  says (J "min(1, (a)) > 3") = error (J "Array does not support this expression (a)") /\
  formula_told witness_env (J "( a ) + ( b )") [] = Throws InvalidExpression (Some (J "Error parsing expression for the string (a)+(b)")) /\
  formula_told witness_env (J "a + (b)") [] = Throws EmptyStack None /\
  exists t, lex (J "NOT (a = 1 OR b)") = Ok (yield t) /\ reads 0 t eof.
Proof.
  cbv zeta. split; [|split; [|split; [|split; [|split; [|split]]]]]; try (vm_compute; reflexivity).
  destruct (lex (J "NOT (a = 1 OR b)")) as [ts|] eqn:L; [|vm_compute in L; discriminate]. destruct (parse_tokens ts) as [t|] eqn:P.
  - exists t. destruct (parse_tokens_sound ts t) as [Y R]; [|exact P|]; [apply (lex_canonical _ _ L)|]. rewrite Y. auto.
  - vm_compute in L. injection L as <-. vm_compute in P. discriminate.
Qed.
