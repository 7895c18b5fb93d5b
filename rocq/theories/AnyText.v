(** Properties of every text, whether or not it is a sentence of the grammar. *)
From Verif Require Import RecoverFacts RecoverTexts RecoverOrigin ListenAny.
From Verif Require Import Base JNum Values Ops Funcs Ast Eval Lexer Grammar Recover Listener Api SpecPath SpecLex SpecGrammar SpecRecover FieldFacts LexSplit LexWords ParseFacts ParseShapes.

(** ** Parsing ends, and how it fails *)
Definition quotes : list jstr := [[ch "'"]; [34%N]].
Lemma convert_ends w dt e : ~ In w quotes -> convert_value w dt = Err e -> e = NumberFormat.
Proof.
  intros N. destruct dt; cbn [convert_value]; try (destruct (parse_int w); congruence); try (destruct (parse_long w); congruence);
    try (destruct (BigDec.parse_bigdec w); congruence); try discriminate.
  assert (Q : forall q, In [q] quotes -> quoted_by q w = true -> strip_ends w = Err e -> False).
  { intros q I B S. unfold strip_ends in S. destruct w as [|c [|c' w]]; cbn in B, S; try discriminate.
    apply andb_prop in B. destruct B as [B _]. apply N.eqb_eq in B. subst c. contradiction. }
  destruct (quoted_by (ch "'") w) eqn:A; [intro E; exfalso; exact (Q _ (or_introl eq_refl) A E)|].
  destruct (quoted_by 34%N w) eqn:B; [intro E; exfalso; exact (Q _ (or_intror (or_introl eq_refl)) B E)|]. discriminate.
Qed.
Lemma genuine_no_quote t : genuine t -> ~ In (text t) quotes.
Proof.
  intros G [E|[E|[]]]; apply genuine_lex in G; rewrite <- E in G; vm_compute in G; discriminate G.
Qed.
Lemma concat_single (xs : list token) q : concat (map text xs) = [q] -> exists x, In x xs /\ text x = [q].
Proof.
  induction xs as [|x xs IH]; cbn; [discriminate|]. destruct (text x) as [|c w] eqn:T; cbn; intro E.
  - destruct (IH E) as [y [I Y]]. exists y. auto.
  - injection E as -> E. exists x. split; [auto|]. destruct w; [exact T|discriminate E].
Qed.
Lemma concat_no_quote xs : Forall (fun t => ~ In (text t) quotes) xs -> ~ In (concat (map text xs)) quotes.
Proof.
  intros H [E|[E|[]]]; symmetry in E; apply concat_single in E; destruct E as [x [I X]]; rewrite Forall_forall in H; apply (H x I); rewrite X; cbn; auto.
Qed.
Lemma eof_no_quote : ~ In (text eof) quotes.
Proof. intros [E|[E|[]]]; discriminate E. Qed.

Lemma parse_ends s dflt : ends (fun _ : node => True) (parse_expression s dflt).
Proof.
  unfold parse_expression. destruct (lex_total s) as [ps [Sp E]]. rewrite E. cbn [bind].
  destruct (parse_any_total (tokens_of ps)) as [t Et]. rewrite Et. cbn [bind].
  assert (H : from (fun t => ~ In (text t) quotes) t).
  { apply (parse_any_from _ eof_no_quote (tokens_of ps)); [|exact Et]. eapply Forall_impl; [|apply (lex_genuine _ _ E)]. apply genuine_no_quote. }
  assert (C : forall w dt, ~ In w quotes -> ends (fun _ : jval => True) (convert_value w dt)).
  { intros w dt N. destruct (convert_value w dt) eqn:X; cbn; [exact I|]. apply convert_ends in X; [|exact N]. auto. }
  assert (L : ends (built (fun _ => True) (fun _ => True)) (listen dflt t)).
  { apply listen_built with (P := fun t => ~ In (text t) quotes); auto.
    - destruct dflt; exact I.
    - intros xs dt X. apply C, concat_no_quote, X. }
  destruct (listen dflt t); [exact I|exact L].
Qed.
Lemma parse_total s dflt : (exists n, parse_expression s dflt = Ok n) \/ exists e, parse_expression s dflt = Err e /\ In e parse_failures.
Proof. pose proof (parse_ends s dflt) as H. destruct (parse_expression s dflt) as [n|e]; [left; eauto|right; exists e; split; [reflexivity|exact H]]. Qed.

(** ** The fields of a text *)
Lemma parse_built s ts dflt n : lex s = Ok ts -> parse_expression s dflt = Ok n ->
  built (names ts dflt) (fun v => exists t dt, In t (eof :: ts) /\ (dt = token_data_type t \/ dt = STRING) /\ convert_value (text t) dt = Ok v) n.
Proof.
  intros E Pn. unfold parse_expression in Pn. rewrite E in Pn. cbn [bind] in Pn. apply bind_ok in Pn. destruct Pn as [t [Et Pn]].
  set (P := fun t => In t (eof :: ts) /\ ~ In (text t) quotes).
  assert (H : from P t).
  { apply (parse_any_from P (conj (or_introl eq_refl) eof_no_quote) ts); [|exact Et]. apply Forall_forall. intros x I. split; [right; exact I|].
    pose proof (lex_genuine _ _ E) as G. rewrite Forall_forall in G. apply genuine_no_quote, G, I. }
  assert (L : ends (built (names ts dflt) (fun v => exists t dt, In t (eof :: ts) /\ (dt = token_data_type t \/ dt = STRING) /\ convert_value (text t) dt = Ok v)) (listen dflt t)).
  { apply listen_built with (P := P); auto.
    - destruct dflt; [left; reflexivity|exact I].
    - intros x [[<-|I] _] K; [discriminate K|]. right. exists x. auto.
    - intros x dt [I N] Dt. destruct (convert_value (text x) dt) eqn:X; cbn; [eauto 6|]. apply convert_ends in X; [|exact N]. auto.
    - intros xs dt X. destruct (convert_value _ dt) eqn:Y; cbn; [exact I|]. apply convert_ends in Y; [auto|].
      apply concat_no_quote. eapply Forall_impl; [|exact X]. intros x [_ N]. exact N. }
  rewrite Pn in L. exact L.
Qed.
Lemma built_arith F V n : built F V n -> forall f, In f (arith_fields n) -> F f.
Proof.
  induction n using node_ind'; intros B f0 I; cbn [arith_fields built] in *; try contradiction.
  - destruct f as [s|]; [|contradiction]. destruct I as [<-|[]]. exact B.
  - destruct B as [B1 B2]. apply in_app_or in I. destruct I as [I|I]; [apply IHn; assumption|].
    destruct op; try contradiction; destruct r as [r|]; try contradiction; cbn in *; auto.
  - rewrite built_all in B. apply in_flat_map in I. destruct I as [i [Ii If]]. rewrite Forall_forall in H, B. apply (H i Ii (B i Ii)), If.
Qed.
Lemma built_bool F V n : built F V n -> forall f, In f (bool_fields n) -> F f \/ exists v, V v /\ show v = f.
Proof.
  assert (O : forall m, (built F V m -> forall f, In f (bool_fields m) -> F f \/ exists v, V v /\ show v = f) -> built F V m ->
    forall f, In f (if is_arith_base m then arith_fields m else bool_fields m) -> F f \/ exists v, V v /\ show v = f).
  { intros m Hm B f I. destruct (is_arith_base m); [left; apply (built_arith _ _ _ B), I|apply Hm; assumption]. }
  induction n using node_ind'; intros B f0 I; cbn [bool_fields built] in *; try contradiction.
  - destruct (dtype_eqb dt BOOLEAN); [contradiction|]. destruct I as [<-|[]]. right. eauto.
  - destruct B as [B1 B2]. apply in_app_or in I. destruct I as [I|I]; [apply (O n1)|apply (O n2)]; assumption.
  - destruct f as [s|]; [|contradiction]. destruct I as [<-|[]]. left. exact B.
  - rewrite built_all in B. destruct B as [B1 B2]. apply in_app_or in I. destruct I as [I|I].
    + destruct f as [s|]; [|contradiction]. destruct I as [<-|[]]. left. exact B1.
    + apply in_flat_map in I. destruct I as [i [Ii If]]. rewrite Forall_forall in H, B2. apply (O i (H i Ii) (B2 i Ii)), If.
  - rewrite built_all in B. destruct B as [B1 B2]. apply in_app_or in I. destruct I as [I|I].
    + destruct f as [s|]; [|contradiction]. destruct I as [<-|[]]. left. exact B1.
    + apply in_flat_map in I. destruct I as [i [Ii If]]. rewrite Forall_forall in H, B2. apply (O i (H i Ii) (B2 i Ii)), If.
  - destruct B as [B1 B2]. apply in_app_or in I. destruct I as [I|I]; [apply IHn; assumption|].
    destruct op; try contradiction; destruct r as [r|]; try contradiction; cbn in *; auto.
Qed.
Lemma text_arith_fields s ts E d1 d2 : lex s = Ok ts -> (forall f, names ts None f -> same_field d1 d2 f) ->
  evaluate_arith E s d1 = evaluate_arith E s d2.
Proof.
  intros L H. unfold evaluate_arith. destruct (parse_expression s None) as [n|e] eqn:Pn; [|reflexivity]. cbn [bind].
  apply arith_same. intros f I. apply H. eapply built_arith; [apply (parse_built s ts None n L Pn)|exact I].
Qed.
Lemma text_bool_fields s ts dflt E d1 d2 : lex s = Ok ts -> (forall f, names ts dflt f \/ literal_names ts f -> same_field d1 d2 f) ->
  evaluate_boolean E s d1 dflt = evaluate_boolean E s d2 dflt.
Proof.
  intros L H. unfold evaluate_boolean. destruct (parse_expression s dflt) as [n|e] eqn:Pn; [|reflexivity]. cbn [bind].
  apply bool_same. intros f I. apply H. destruct (built_bool _ _ _ (parse_built s ts dflt n L Pn) f I) as [N|[v [[t [dt [It [_ C]]]] Sv]]]; [left; exact N|].
  right. exists t, dt, v. auto.
Qed.

(** ** Malformed texts *)
Lemma parse_as s ts t dflt : lex s = Ok ts -> parse_any ts = Ok t -> parse_expression s dflt = listen dflt t.
Proof. intros L E. unfold parse_expression. rewrite L. cbn [bind]. rewrite E. reflexivity. Qed.
Lemma not_sentence ts t : parse_any ts = Ok t -> length (yield t) <> length ts -> ~ sentence ts.
Proof. intros E N [t' [<- R]]. rewrite (parse_any_complete t' R) in E. injection E as <-. contradiction. Qed.

Lemma trailing_accepted s s' ts us dflt : lex s = Ok ts -> sentence ts -> ends_operand ts -> us <> [] -> no_operator_first us -> lex s' = Ok (ts ++ us) ->
  ~ sentence (ts ++ us) /\ parse_expression s' dflt = parse_expression s dflt.
Proof.
  intros L [t [<- R]] En N Nu L'. pose proof (trailing_ignored t us R En Nu) as T. split.
  - apply (not_sentence _ _ T). rewrite app_length. destruct us; [contradiction|]. cbn [length]. lia.
  - rewrite (parse_as _ _ _ _ L' T). symmetry. apply (parse_as _ _ _ _ L), parse_any_complete, R.
Qed.
Lemma wrapped_yield k t : yield (wrapped k t) = repeat lparen k ++ yield t ++ repeat rparen k.
Proof.
  induction k as [|k IH]; [rewrite app_nil_r; reflexivity|]. cbn [wrapped yield repeat]. rewrite IH. cbn [app]. f_equal.
  rewrite <- !app_assoc. do 2 f_equal. clear. induction k; cbn; congruence.
Qed.
Lemma wrapped_listen dflt k t : listen dflt (wrapped k t) = listen dflt t.
Proof. induction k as [|k IH]; [reflexivity|]. exact IH. Qed.
Lemma parentheses_accepted s s' ts k j dflt : lex s = Ok ts -> sentence ts -> ends_operand ts -> k <> j -> lex s' = Ok (repeat lparen k ++ ts ++ repeat rparen j) ->
  ~ sentence (repeat lparen k ++ ts ++ repeat rparen j) /\ parse_expression s' dflt = parse_expression s dflt.
Proof.
  intros L [t [<- R]] En N L'. pose proof (unbalanced_accepted t k j R En) as T. split.
  - apply (not_sentence _ _ T). rewrite wrapped_yield, !app_length, !repeat_length. lia.
  - rewrite (parse_as _ _ _ _ L' T), wrapped_listen. symmetry. apply (parse_as _ _ _ _ L), parse_any_complete, R.
Qed.
Lemma unclosed_accepted s s' ts t dflt : yield t = ts ++ [rparen] -> reads 0 t eof -> list_condition t -> ends_operand ts -> lex s = Ok (ts ++ [rparen]) -> lex s' = Ok ts ->
  ~ sentence ts /\ parse_expression s' dflt = parse_expression s dflt.
Proof.
  intros Y R C En L L'.
  assert (T : parse_any ts = Ok t).
  { destruct C as [[f [neg [it [items ->]]]]|[f [op [items ->]]]]; cbn [yield] in Y.
    - assert (Ei : exists pre, ts = pre ++ sep_yield items /\ pre = match neg with Some n => [f; n; it; lparen] | None => [f; it; lparen] end).
      { eexists; split; [|reflexivity]. apply (app_inj_tail ts _ rparen rparen). rewrite <- Y. destruct neg; cbn [app]; rewrite <- ?app_assoc; reflexivity. }
      destruct Ei as [pre [-> Ep]].
      assert (Es : ends_operand (sep_yield items)).
      { destruct En as [us [x [Eu K]]]. destruct (sep_yield items) as [|y l] eqn:Sy.
        - exfalso. rewrite app_nil_r, Ep in Eu. destruct neg as [n|].
          + change [f; n; it; lparen] with ([f; n; it] ++ [lparen]) in Eu. apply app_inj_tail in Eu. destruct Eu as [_ <-]. cbn in K. decompose [or] K; try discriminate; contradiction.
          + change [f; it; lparen] with ([f; it] ++ [lparen]) in Eu. apply app_inj_tail in Eu. destruct Eu as [_ <-]. cbn in K. decompose [or] K; try discriminate; contradiction.
        - destruct (exists_last (l := y :: l) ltac:(discriminate)) as [l' [z Z]]. rewrite Z in *. exists l', z. split; [reflexivity|].
          rewrite app_assoc in Eu. apply app_inj_tail in Eu. destruct Eu as [_ ->]. exact K. }
      inversion R; subst; cbn [app]; [apply unclosed_in|apply unclosed_not_in]; assumption.
    - assert (Ei : ts = [f; op; lparen] ++ sep_yield items).
      { apply (app_inj_tail ts _ rparen rparen). rewrite <- Y. cbn [app]. rewrite <- ?app_assoc; reflexivity. }
      subst ts.
      assert (Es : ends_operand (sep_yield items)).
      { destruct En as [us [x [Eu K]]]. destruct (sep_yield items) as [|y l] eqn:Sy.
        - exfalso. rewrite app_nil_r in Eu.
          change [f; op; lparen] with ([f; op] ++ [lparen]) in Eu. apply app_inj_tail in Eu. destruct Eu as [_ <-]. cbn in K. decompose [or] K; try discriminate; contradiction.
        - destruct (exists_last (l := y :: l) ltac:(discriminate)) as [l' [z Z]]. rewrite Z in *. exists l', z. split; [reflexivity|].
          rewrite app_assoc in Eu. apply app_inj_tail in Eu. destruct Eu as [_ ->]. exact K. }
      inversion R; subst. apply unclosed_array; assumption. }
  split.
  - apply (not_sentence _ _ T). rewrite Y, app_length. cbn [length]. lia.
  - rewrite (parse_as _ _ _ _ L' T). symmetry. apply (parse_as _ _ _ _ L). rewrite <- Y. apply parse_any_complete, R.
Qed.
Lemma operand_suffix pre x l : ends_operand ((pre ++ [x]) ++ l) -> ~ closing_kind (kind x) -> ends_operand l.
Proof.
  intros [us [y [E K]]] N. destruct l as [|z l] using rev_ind.
  - rewrite app_nil_r in E. apply app_inj_tail in E. destruct E as [_ <-]. contradiction.
  - exists l, z. split; [reflexivity|]. rewrite app_assoc in E. apply app_inj_tail in E. destruct E as [_ ->]. exact K.
Qed.
Lemma unclosed_call_fails s ts fn items dflt : yield (PFunc fn items) = ts ++ [rparen] -> reads 0 (PFunc fn items) eof -> ends_operand ts ->
  lex s = Ok ts -> exists e, parse_expression s dflt = Err e.
Proof.
  intros Y R En L.
  assert (Et : ts = ([fn] ++ [lparen]) ++ sep_yield items).
  { apply (app_inj_tail ts _ rparen rparen). rewrite <- Y. cbn [app yield]. reflexivity. }
  subst ts. assert (Es : ends_operand (sep_yield items)).
  { apply (operand_suffix [fn] lparen); [exact En|]. intro K. cbn in K. decompose [or] K; try discriminate; contradiction. }
  inversion R; subst. cbn [app] in L.
  rewrite (parse_as _ _ _ _ L (unclosed_function fn items ltac:(assumption) ltac:(assumption) Es)). unfold listen.
  change (walk dflt (PFuncErr fn items) (LState [] None 0)) with (st' <- ListenFacts.walk_list dflt items (LState [] None 0) ;; push_context dflt (PFuncErr fn items) st').
  destruct (ListenFacts.walk_list dflt items _) as [st|e]; cbn; eauto.
Qed.

Lemma refuted_case :
  (exists t, lex (J "a = 5") = Ok (yield t) /\ reads 0 t eof /\ ends_operand (yield t)) /\
  no_operator_first [F (J "b"); Tok T_EQ (J "="); Tok T_INTEGER (J "6")] /\
  lex (J "a = 5 b = 6") = Ok ([F (J "a"); Tok T_EQ (J "="); Tok T_INTEGER (J "5")] ++ [F (J "b"); Tok T_EQ (J "="); Tok T_INTEGER (J "6")]) /\
  parse_expression (J "a = 5 b = 6") None = parse_expression (J "a = 5") None /\
  lex (J "((a = 5)") = Ok (repeat lparen 2 ++ [F (J "a"); Tok T_EQ (J "="); Tok T_INTEGER (J "5")] ++ repeat rparen 1) /\
  parse_expression (J "a IN (1, 2") None = parse_expression (J "a IN (1, 2)") None /\
  (exists n, parse_expression (J "a IN (1, 2") None = Ok n) /\
  parse_expression (J "min(1, 2") None = Err InvalidExpression /\ (exists n, parse_expression (J "min(1, 2)") None = Ok n).
Proof.
  split. { exists (PCmp (PTypes (F (J "a"))) (Tok T_EQ (J "=")) (PTypes (Tok T_INTEGER (J "5")))). split; [vm_compute; reflexivity|]. split.
    - eapply r_cmp with (m := 9); [cbn; tauto|reflexivity|lia| |]; apply r_operand; cbn; tauto.
    - exists [F (J "a"); Tok T_EQ (J "=")], (Tok T_INTEGER (J "5")). split; [reflexivity|]. cbn; tauto. }
  split. { intros x us E. injection E as <- _. reflexivity. }
  split; [vm_compute; reflexivity|]. split; [vm_compute; reflexivity|]. split; [vm_compute; reflexivity|]. split; [vm_compute; reflexivity|].
  split; [eexists; vm_compute; reflexivity|]. split; [vm_compute; reflexivity|]. eexists; vm_compute; reflexivity.
Qed.
Lemma failures_case :
  map (fun s => parse_expression s None) [J "a AND b"; J "a = 99999999999999999999"; J "a 5 b"; J "-(5)"; J "5 + (a)"] = map Err parse_failures /\
  (exists n, parse_expression (J ") ) $ , IN") None = Ok n).
Proof. split; [vm_compute; reflexivity|eexists; vm_compute; reflexivity]. Qed.
Lemma fields_case E :
  let d1 := [(J "a", VInt 1); (J "c", VInt 2)] in let d2 := [(J "c", VInt 3); (J "a", VInt 1)] in
  (exists ts, lex (J "a + ) (5 4") = Ok ts /\ (forall f, names ts None f -> same_field d1 d2 f) /\ evaluate_arith E (J "a + ) (5 4") d1 = evaluate_arith E (J "a + ) (5 4") d2) /\
  (exists ts, lex (J "a = 1 c") = Ok ts /\ names ts None (J "c") /\ ~ same_field d1 d2 (J "c")).
Proof.
  cbv zeta. split.
  - eexists. split; [vm_compute; reflexivity|]. match goal with |- ?A /\ _ => assert (H : A) end.
    { intros f [X|[t [I [K T]]]]; [discriminate X|]. repeat (destruct I as [<-|I]; [try discriminate K; subst f; intros E'; vm_compute; reflexivity|]). destruct I. }
    split; [exact H|]. eapply text_arith_fields; [vm_compute; reflexivity|exact H].
  - eexists. split; [vm_compute; reflexivity|]. split.
    + right. exists (Tok T_FIELD (J "c")). split; [cbn; tauto|split; reflexivity].
    + intro H. specialize (H E). vm_compute in H. discriminate H.
Qed.
