(** Texts in a Turkish or Azeri default locale. *)
From Coq Require Import Lia.
From Verif Require CompareWitness.
From Verif Require Import RecoverFacts RecoverTexts RecoverOrigin ListenAny TreeKinds LocaleFacts AnyText LocaleCases.
From Verif Require Import Base JNum Values Ops Funcs Ast Eval Lexer Grammar Recover Listener Api Locale SpecLex SpecGrammar SpecSyntax SpecText SpecOdd SpecRecover SpecLocale FieldFacts LexSplit LexCases LexWords ParseFacts ParseShapes ListenFacts SyntaxFacts TextFacts OddText CacheFacts SpecTight.

Lemma operand_not_missing x : operand_kind (kind x) -> ~ missing x.
Proof. intros K [F _]. unfold operand_kind in K. cbn [In] in K. destruct (kind x); try discriminate F; intuition discriminate. Qed.
Lemma kind_not_missing x k : kind x = k -> is_function k = false -> ~ missing x.
Proof. intros <- K [F _]. congruence. Qed.
Lemma number_not_missing x : number_kind (kind x) -> ~ missing x.
Proof. intros K [F _]. unfold number_kind in K. cbn [In] in K. destruct (kind x); try discriminate F; intuition discriminate. Qed.
Lemma level_not_missing x m : level (kind x) = Some m -> ~ missing x.
Proof. intros K [F _]. destruct (kind x); try discriminate F; discriminate K. Qed.
Ltac elsewhere := solve [exfalso; match goal with M : missing ?x |- _ =>
  first [exact (kind_not_missing x _ eq_refl eq_refl M)|refine (kind_not_missing x _ _ _ M); [eassumption|reflexivity]|refine (operand_not_missing x _ M); assumption|refine (number_not_missing x _ M); assumption|refine (level_not_missing x _ _ M); eassumption] end].
Lemma stuck_items dflt x items : missing x -> In x (sep_yield items) -> Forall (fun t => In x (yield t) -> stuck dflt t) items -> Exists (stuck dflt) items.
Proof.
  intros M I H. apply sep_in in I. destruct I as [-> |I]; [elsewhere|]. apply Exists_exists in I. destruct I as [t [J Y]]. apply Exists_exists. exists t. split; [exact J|].
  exact (proj1 (Forall_forall _ _) H t J Y).
Qed.
Lemma bracketed_in x items : missing x -> In x (lparen :: sep_yield items ++ [rparen]) -> In x (sep_yield items).
Proof. intros M [<-|I]; [elsewhere|]. apply in_app_or in I. destruct I as [I|[<-|[]]]; [exact I|elsewhere]. Qed.
Lemma reads_stuck dflt x : missing x ->
  (forall n t next, reads n t next -> In x (yield t) -> stuck dflt t) /\
  (forall items, reads_items items -> Forall (fun t => In x (yield t) -> stuck dflt t) items).
Proof.
  intros M. apply reads_mut; intros; try (match goal with I : In x (yield _) |- _ => rename I into Hin end).
  - change (yield (PParen t)) with (lparen :: yield t ++ [rparen]) in Hin. intro st. cbn [walk_locale]. destruct Hin as [<-|I]; [elsewhere|].
    apply in_app_or in I. destruct I as [I|[<-|[]]]; [auto|elsewhere]. apply H0. exact I.
  - intro st. cbn [walk_locale]. destruct Hin as [<-|I]; [elsewhere|]. apply bind_stuck, H1. exact I.
  - intro st. cbn [walk_locale]. destruct Hin as [<-|I]; [elsewhere|]. apply bind_stuck, H0. exact I.
  - destruct Hin as [<-|[]]. elsewhere.
  - destruct Hin.
  - destruct Hin as [<-|[<-|[<-|[<-|[]]]]]; elsewhere.
  - rewrite yield_func in Hin. intro st. rewrite walk_func_in. destruct Hin as [<-|I].
    + apply bind_then. intro u. unfold push_context_in. apply bind_stuck. rewrite context_func_in. rewrite (proj2 M). eexists; reflexivity.
    + apply bind_stuck, list_stuck. apply (stuck_items dflt x items M); [apply bracketed_in; assumption|assumption].
  - rewrite yield_in in Hin. intro st. rewrite walk_in_in. destruct Hin as [<-|[<-|I]]; [elsewhere|elsewhere|].
    apply bind_stuck, list_stuck. apply (stuck_items dflt x items M); [apply bracketed_in; assumption|assumption].
  - rewrite yield_in in Hin. intro st. rewrite walk_in_in. destruct Hin as [<-|[<-|[<-|I]]]; [elsewhere|elsewhere|elsewhere|].
    apply bind_stuck, list_stuck. apply (stuck_items dflt x items M); [apply bracketed_in; assumption|assumption].
  - rewrite yield_array in Hin. intro st. rewrite walk_array_in. destruct Hin as [<-|[<-|I]]; [elsewhere|destruct H0; elsewhere|].
    apply bind_stuck, list_stuck. apply (stuck_items dflt x items M); [apply bracketed_in; assumption|assumption].
  - change (yield (PCmp l op r)) with (yield l ++ op :: yield r) in Hin. intro st. cbn [walk_locale]. apply in_app_or in Hin. destruct Hin as [I|[<-|I]]; [apply bind_stuck; auto|elsewhere|apply bind_then; intro u; apply bind_stuck; auto]; [apply H3; exact I|apply H5; exact I].
  - change (yield (PArith l op r)) with (yield l ++ op :: yield r) in Hin. intro st. cbn [walk_locale]. apply in_app_or in Hin. destruct Hin as [I|[<-|I]]; [apply bind_stuck; auto|elsewhere|apply bind_then; intro u; apply bind_stuck; auto]; [apply H3; exact I|apply H5; exact I].
  - change (yield (PBin l op r)) with (yield l ++ op :: yield r) in Hin. intro st. cbn [walk_locale]. apply in_app_or in Hin. destruct Hin as [I|[<-|I]]; [apply bind_stuck; auto|elsewhere|apply bind_then; intro u; apply bind_stuck; auto]; [apply H3; exact I|apply H5; exact I].
  - constructor; [assumption|constructor].
  - constructor; assumption.
Qed.
Lemma small_missing x : genuine x -> In (text x) small_functions -> missing x.
Proof.
  intros G K. apply genuine_lex in G. destruct x as [k w]. cbn [text] in *. cbn in K.
  destruct K as [<-|[<-|[<-|[]]]]; vm_compute in G; injection G as <-; split; reflexivity.
Qed.
Lemma call_lost s ps dflt : splits s ps -> sentence (tokens_of ps) -> uses small_functions s ->
  (exists e, parse_expression_in Turkic s dflt = Err e) /\
  (forall n, parse_expression_in Common s dflt = Ok n -> parse_expression_in Turkic s dflt = Err InvalidExpression).
Proof.
  intros Sp [t [Y Rd]] [ps' [x [Sp' [I K]]]]. rewrite (splits_unique _ _ Sp' _ Sp) in I. pose proof (lex_splits _ _ Sp) as E.
  assert (M : missing x). { apply small_missing; [|exact K]. exact (proj1 (Forall_forall _ _) (lex_genuine _ _ E) x I). }
  assert (F : exists e, parse_expression_in Turkic s dflt = Err e).
  { unfold parse_expression_in. rewrite E. cbn [bind]. rewrite <- Y. rewrite (parse_any_complete t Rd). cbn [bind]. unfold listen_in. apply bind_stuck.
    apply (proj1 (reads_stuck dflt x M) _ _ _ Rd). rewrite Y. exact I. }
  split; [exact F|]. intros n En. rewrite common_text in En. destruct (class_text s dflt) as [[_ B]|B]; [exact B|]. rewrite En in B. destruct F as [e Fe]. rewrite Fe in B. contradiction.
Qed.

(** ** Containment *)
Lemma array_fails E d f items b op : bool_eval E d (NArray f op items) = Ok b -> bool_eval E d (NArray f EQUALS items) = Err InvalidContainerType.
Proof.
  rewrite !array_unfold. destruct (field_value_or_fail f d); [|discriminate]. cbn [bind]. destruct (mapM _ items) as [vs|]; [|discriminate]. cbn [bind]. cbv zeta.
  match goal with |- context [if ?h then Err HeterogeneousArray else _] => destruct h end; [discriminate|]. reflexivity.
Qed.
Lemma array_never E d f items b : bool_eval E d (NArray f EQUALS items) <> Ok b.
Proof. intro H. pose proof (array_fails _ _ _ _ _ _ H). congruence. Qed.
Lemma plain_walk L dflt items : forallb plain items = true -> forall st, exists st', walk_list_in L dflt items st = Ok st' /\ walk_list dflt items st = Ok st' /\ stack st' = stack st.
Proof.
  induction items as [|i l IH]; intros P st; [exists st; auto|]. cbn [forallb] in P. apply andb_prop in P. destruct P as [P1 P2].
  destruct (IH P2 (match i with PTypes x | PEps x => exit_types x st | _ => st end)) as [st' [A [B C]]].
  exists st'. destruct i; try discriminate P1; (split; [exact A|split; [exact B|exact C]]).
Qed.
Lemma plain_elements L dflt items : forallb plain items = true -> forall s, map_elements_in L dflt items s = map_elements dflt items s.
Proof.
  induction items as [|i l IH]; intros P s; [reflexivity|]. cbn [forallb] in P. apply andb_prop in P. destruct P as [P1 P2]. cbn [map_elements map_elements_in].
  assert (E : map_context_in L dflt i s = map_context dflt i s) by (destruct i; try discriminate P1; reflexivity). rewrite E.
  destruct (map_context dflt i s); [|reflexivity]. cbn [bind]. rewrite (IH P2). reflexivity.
Qed.
Lemma plain_array L dflt f op items : forallb plain items = true ->
  listen_in L dflt (PArray f op items) = (fld <- named_field dflt f ;; is <- map_elements dflt items [] ;; Ok (NArray fld (operator_in L (text op)) (fst is))) /\
  listen dflt (PArray f op items) = (fld <- named_field dflt f ;; is <- map_elements dflt items [] ;; Ok (NArray fld (operator_of (kind op)) (fst is))).
Proof.
  intros P. destruct (plain_walk L dflt items P (LState [] None 0)) as [st [A [B C]]]. unfold listen, listen_in. rewrite walk_array, walk_array_in, A, B. cbn [bind].
  unfold exit_array, exit_array_in. rewrite C, (plain_elements L dflt items P). cbn [stack].
  destruct (named_field dflt f); [|split; reflexivity]. cbn [bind]. destruct (map_elements dflt items []); split; reflexivity.
Qed.
Lemma containment_lost E d dflt f c op ws ns s : field_name f -> In (c, op) array_operators -> In c small_containments -> listed ws ns ->
  laid_out (f :: c :: bracketed (commas ws)) s ->
  (forall b, evaluate_boolean_in Common E s d dflt = Ok b -> evaluate_boolean_in Turkic E s d dflt = Err InvalidContainerType) /\
  exists e, evaluate_boolean_in Turkic E s d dflt = Err e.
Proof.
  intros Ff C Sc Ls O. destruct (listed_good _ _ Ls) as [items [Y [G [R [P _]]]]]. pose proof (field_genuine f Ff) as Gf. destruct (array_token _ _ C) as [k [Gk [Kk _]]].
  assert (Lx : lex s = Ok (yield (PArray (Tok T_FIELD f) (Tok k c) items))).
  { refine (layout_words _ _ _ _ _ O).
    - change (f :: c :: map text (lparen :: sep_yield items ++ [rparen]) = f :: c :: bracketed (commas ws)). do 2 f_equal. apply list_words, Y.
    - apply (list_end [Tok T_FIELD f; Tok k c]); [repeat apply Forall_cons; try apply Forall_nil; assumption|exact G]. }
  assert (Pt : parse_any (yield (PArray (Tok T_FIELD f) (Tok k c) items)) = Ok (PArray (Tok T_FIELD f) (Tok k c) items)) by (apply parse_any_complete, r_array; [reflexivity|exact Kk|exact R]).
  assert (Eq : operator_in Turkic c = EQUALS) by (cbn in Sc; destruct Sc as [<-|[<-|[]]]; reflexivity).
  unfold evaluate_boolean_in. rewrite common_text, (parse_as _ _ _ dflt Lx Pt). unfold parse_expression_in. rewrite Lx. cbn [bind]. rewrite Pt. cbn [bind].
  destruct (plain_array Turkic dflt (Tok T_FIELD f) (Tok k c) items P) as [-> ->]. cbn [text kind]. rewrite Eq.
  destruct (named_field dflt (Tok T_FIELD f)) as [fld|e]; cbn [bind]; [|split; [discriminate|eexists; reflexivity]].
  destruct (map_elements dflt items []) as [is|e]; cbn [bind]; [|split; [discriminate|eexists; reflexivity]]. split.
  - intros b. apply array_fails.
  - destruct (bool_eval E d (NArray fld EQUALS (fst is))) as [b|e] eqn:Ev; [destruct (array_never _ _ _ _ _ Ev)|eexists; reflexivity].
Qed.

(** ** Truth values *)
Lemma lower_spelled L c d : In d (J "truefals") -> lower_char_in L c = d <-> spelled c d.
Proof.
  intros I. unfold spelled.
  assert (Rg : (97 <= d <= 122)%N) by (cbn in I; repeat destruct I as [<-|I]; try contradiction; lia).
  assert (N : d <> ch "i") by (cbn in I; intros ->; repeat (destruct I as [I|I]; [discriminate I|]); contradiction).
  assert (B : lower_char c = d <-> c = d \/ is_upper c = true /\ d = (c + 32)%N).
  { unfold lower_char, is_upper. destruct ((65 <=? c) && (c <=? 90))%N eqn:U; [|intuition congruence].
    split; [intros <-; auto|]. intros [-> |[_ ->]]; [|reflexivity]. apply andb_prop in U. destruct U as [_ U]. apply N.leb_le in U. lia. }
  destruct L; [exact B|]. cbn [lower_char_in]. destruct (N.eqb_spec c (ch "I")) as [-> |Nc]; [|exact B]. split.
  - intros <-. lia.
  - intros [<-|[_ E]]; [cbn in Rg; lia|]. exfalso. apply N. rewrite E. reflexivity.
Qed.
Lemma lower_spells L w v : Forall (fun d => In d (J "truefals")) v -> jstr_eqb (lower_in L w) v = true <-> spells w v.
Proof.
  intros F. rewrite jstr_eqb_eq. revert v F. induction w as [|c w IH]; intros v F.
  - split; [intros <-; constructor|intros H; inversion H; reflexivity].
  - destruct F as [|d v I F]; [split; [discriminate|intros H; inversion H]|]. cbn [lower_in map]. split.
    + intros E. injection E as E1 E2. constructor; [apply (lower_spelled L c d I), E1|apply (IH v F), E2].
    + intros H. inversion H; subst. f_equal; [apply (lower_spelled L c d I); assumption|apply (IH v F); assumption].
Qed.
Lemma boolean_spelled L w b : boolean_text_in L w = Some b <-> spells w (if b then J "true" else J "false").
Proof.
  assert (T : Forall (fun d => In d (J "truefals")) (J "true")) by (repeat constructor; cbn; tauto).
  assert (F : Forall (fun d => In d (J "truefals")) (J "false")) by (repeat constructor; cbn; tauto).
  pose proof (lower_spells L w _ T) as PT. pose proof (lower_spells L w _ F) as PF. unfold boolean_text_in.
  destruct (jstr_eqb (lower_in L w) (J "true")) eqn:ET.
  - assert (EF : jstr_eqb (lower_in L w) (J "false") = true -> False) by (intro X; apply jstr_eqb_eq in X, ET; rewrite X in ET; discriminate ET).
    destruct b; [intuition congruence|]. split; [discriminate|]. intro X. destruct EF. apply PF, X.
  - destruct (jstr_eqb (lower_in L w) (J "false")) eqn:EF; destruct b; split; intro X; try discriminate X; try reflexivity.
    + apply PT in X. discriminate X.
    + apply PF. reflexivity.
    + apply PT in X. discriminate X.
    + apply PF in X. discriminate X.
Qed.

Lemma evaluated_same L E s d dflt : ~ uses small s ->
  parse_expression_in L s dflt = parse_expression s dflt /\
  evaluate_boolean_in L E s d dflt = evaluate_boolean E s d dflt /\ evaluate_arith_in L E s d = evaluate_arith E s d.
Proof.
  intro N. unfold evaluate_boolean_in, evaluate_arith_in, evaluate_boolean, evaluate_arith. rewrite !(same_text L s) by auto. auto.
Qed.
Lemma evaluated_common E s d dflt :
  parse_expression_in Common s dflt = parse_expression s dflt /\
  evaluate_boolean_in Common E s d dflt = evaluate_boolean E s d dflt /\ evaluate_arith_in Common E s d = evaluate_arith E s d.
Proof. unfold evaluate_boolean_in, evaluate_arith_in, evaluate_boolean, evaluate_arith. rewrite !common_text. auto. Qed.
Lemma uses_lex ws s ts : lex s = Ok ts -> uses ws s <-> exists t, In t ts /\ In (text t) ws.
Proof.
  intros E. destruct (lex_unique_split s) as [ps [Sp [E' U]]]. rewrite E in E'. injection E' as ->. split.
  - intros [ps' [t [S' [I K]]]]. rewrite (U _ S') in I. exists t. auto.
  - intros [t [I K]]. exists ps, t. auto.
Qed.
Lemma locale_case :
  ~ uses small (J "MIN(a, 2) > 1 AND f CONTAINS_ALL (x) OR title = 'min int'") /\
  uses small_functions (J "min(a, 2) > 1") /\
  ~ uses small_functions (J "f contains_all (1)") /\ ~ uses capital_containments (J "f contains_all (1)") /\
  parse_expression_in Turkic (J "min(a, 2) > 1") None = Err InvalidExpression /\
  evaluate_boolean_in Common CompareWitness.witness_env (J "min(a, 2) > 1") [(J "a", VInt 5)] None = Ok true /\
  evaluate_boolean_in Common CompareWitness.witness_env (J "f contains_all (1)") [(J "f", VColl true [VInt 1; VInt 2])] None = Ok true /\
  evaluate_boolean_in Turkic CompareWitness.witness_env (J "f contains_all (1)") [(J "f", VColl true [VInt 1; VInt 2])] None = Err InvalidContainerType.
Proof.
  assert (U : forall ws s ts, lex s = Ok ts -> forallb (fun t => negb (existsb (jstr_eqb (text t)) ws)) ts = true -> ~ uses ws s).
  { intros ws s ts E F H. apply (uses_lex ws s ts E) in H. destruct H as [t [I K]]. rewrite forallb_forall in F. specialize (F t I). apply negb_true_iff in F.
    assert (X : existsb (jstr_eqb (text t)) ws = true) by (apply existsb_exists; exists (text t); split; [exact K|apply jstr_eqb_eq; reflexivity]). congruence. }
  split; [eapply U; [vm_compute; reflexivity|vm_compute; reflexivity]|].
  split; [eapply uses_lex; [vm_compute; reflexivity|eexists; split; [left; reflexivity|vm_compute; tauto]]|].
  split; [eapply U; [vm_compute; reflexivity|vm_compute; reflexivity]|].
  split; [eapply U; [vm_compute; reflexivity|vm_compute; reflexivity]|].
  repeat split; vm_compute; reflexivity.
Qed.
