(** The messages of rejected texts. *)
From Verif Require Import RecoverFacts.
From Verif Require Import Base JNum BigDec Dates Values Ops Funcs Ast Eval Lexer Grammar Recover Listener Api SpecLex SpecGrammar SpecSyntax SpecText Messages ParseMessages SpecQuote
  LexFacts LexSplit LexWords LexApi LexCases SyntaxFacts ParseFuel ParseFacts ParseShapes ListenFacts TextFacts TextApi DefaultFacts MessageFacts SpecWrite WriteFacts.
Local Open Scope nat_scope.

(** ** Without the messages *)
Lemma forget_field dflt f t : forget (field_told dflt f t) = named_field dflt f.
Proof. unfold field_told, named_field. destruct (is_blank (text f) && opt_is_blank dflt); reflexivity. Qed.
Definition elements_go (dflt : option jstr) : list ptree -> list node -> told (list node * list node) :=
  fix go (l : list ptree) (s : list node) {struct l} : told (list node * list node) :=
    match l with [] => Gives ([], s) | i :: l' => ns <! context_told dflt i s ;; rs <! go l' (snd ns) ;; Gives (fst ns :: fst rs, snd rs) end.
Lemma elements_go_told dflt l : forall s, elements_go dflt l s = elements_told dflt l s.
Proof.
  induction l as [|i l IH]; intros s; [reflexivity|]. cbn [elements_told].
  change (elements_go dflt (i :: l) s) with (ns <! context_told dflt i s ;; rs <! elements_go dflt l (snd ns) ;; Gives (fst ns :: fst rs, snd rs)).
  destruct (context_told dflt i s); [|reflexivity]. cbn [tbind]. rewrite IH. reflexivity.
Qed.
Definition walk_go (dflt : option jstr) : list ptree -> lstate -> told lstate :=
  fix go (l : list ptree) (st : lstate) {struct l} : told lstate := match l with [] => Gives st | i :: l' => st' <! walk_told dflt i st ;; go l' st' end.
Lemma walk_go_told dflt l : forall st, walk_go dflt l st = walk_items_told dflt l st.
Proof.
  induction l as [|i l IH]; intros st; [reflexivity|]. cbn [walk_items_told]. change (walk_go dflt (i :: l) st) with (st' <! walk_told dflt i st ;; walk_go dflt l st').
  destruct (walk_told dflt i st); [|reflexivity]. cbn [tbind]. apply IH.
Qed.
Lemma told_func dflt fn items s : context_told dflt (PFunc fn items) s =
  match function_of (kind fn) with None => unparsed (PFunc fn items) | Some ft => is <! elements_told dflt items s ;; Gives (NFunc ft (fst is), snd is) end.
Proof. destruct (function_of (kind fn)) eqn:E; cbn [context_told]; rewrite E; [|reflexivity]. fold (elements_go dflt). rewrite elements_go_told. reflexivity. Qed.
Lemma told_in dflt f neg it items s : context_told dflt (PIn f neg it items) s =
  (fld <! field_told dflt f (PIn f neg it items) ;; is <! elements_told dflt items s ;;
   Gives (match neg with None => NIn fld (fst is) | Some _ => NBool (NIn fld (fst is)) None NOT end, snd is)).
Proof. cbn [context_told]. fold (elements_go dflt). destruct (field_told dflt f _); [|reflexivity]. cbn [tbind]. rewrite elements_go_told. reflexivity. Qed.
Lemma told_walk_func dflt fn items st : walk_told dflt (PFunc fn items) st = (st' <! walk_items_told dflt items st ;; push_told dflt (PFunc fn items) st').
Proof. cbn [walk_told]. fold (walk_go dflt). rewrite walk_go_told. reflexivity. Qed.
Lemma told_walk_in dflt f neg it items st : walk_told dflt (PIn f neg it items) st = (st' <! walk_items_told dflt items st ;; push_told dflt (PIn f neg it items) st').
Proof. cbn [walk_told]. fold (walk_go dflt). rewrite walk_go_told. reflexivity. Qed.
Lemma told_walk_array dflt f op items st : walk_told dflt (PArray f op items) st = (st' <! walk_items_told dflt items st ;; array_told dflt (PArray f op items) f op items st').
Proof. cbn [walk_told]. fold (walk_go dflt). rewrite walk_go_told. reflexivity. Qed.

Lemma forget_elements dflt items : Forall (fun t => forall s, forget (context_told dflt t s) = map_context dflt t s) items -> forall s, forget (elements_told dflt items s) = map_elements dflt items s.
Proof. induction 1 as [|i l H _ IH]; intros s; [reflexivity|]. cbn [elements_told map_elements]. rewrite forget_bind, H. apply bind_ext. intros [n r]. cbn [snd]. rewrite forget_bind, IH. apply bind_ext. reflexivity. Qed.
Lemma forget_map dflt t : forall s, forget (context_told dflt t s) = map_context dflt t s.
Proof.
  induction t using ptree_ind'; intros s; try reflexivity.
  - rewrite told_func, context_func. destruct (function_of (kind fn)); [|reflexivity]. rewrite forget_bind, forget_elements by assumption. apply bind_ext. reflexivity.
  - cbn [context_told map_context]. forgetting.
  - cbn [context_told map_context]. rewrite forget_bind, forget_field. forgetting.
  - rewrite told_in, context_in, forget_bind, forget_field. apply bind_ext. intros fld. rewrite forget_bind, forget_elements by assumption. apply bind_ext. reflexivity.
  - cbn [context_told map_context]. assert (D : forall (o : operator), forget (bs <! context_told dflt t2 s ;; as_ <! context_told dflt t1 (snd bs) ;; Gives (NCmp (fst as_) (fst bs) o (token_data_type (start t2)), snd as_)) =
      (bs <- map_context dflt t2 s ;; as_ <- map_context dflt t1 (snd bs) ;; Ok (NCmp (fst as_) (fst bs) o (token_data_type (start t2)), snd as_))).
    { intros o. rewrite forget_bind, IHt2. apply bind_ext. intros a. rewrite forget_bind, IHt1. apply bind_ext. reflexivity. }
    destruct (steals t1 t2 s); [|apply D]. destruct (as_types dflt t1); [forgetting|]. destruct (as_types dflt t2); [forgetting|apply D].
  - cbn [context_told map_context]. destruct (as_types dflt t1), (as_types dflt t2); try (forgetting; fail). destruct s as [|b [|a s]]; reflexivity.
  - destruct t; try discriminate H; cbn [context_told]; apply forget_jdk.
Qed.
Lemma forget_push dflt t st : forget (push_told dflt t st) = push_context dflt t st.
Proof. unfold push_told, push_context. rewrite forget_bind, forget_map. apply bind_ext. reflexivity. Qed.
Lemma forget_items dflt items : Forall (fun t => forall st, forget (walk_told dflt t st) = walk dflt t st) items -> forall st, forget (walk_items_told dflt items st) = walk_list dflt items st.
Proof.
  induction 1 as [|i l H _ IH]; intros st; [reflexivity|]. cbn [walk_items_told]. change (walk_list dflt (i :: l) st) with (st' <- walk dflt i st ;; walk_list dflt l st').
  rewrite forget_bind, H. apply bind_ext. exact IH.
Qed.
Lemma forget_walk dflt t : forall st, forget (walk_told dflt t st) = walk dflt t st.
Proof.
  induction t using ptree_ind'; intros st; try reflexivity.
  - cbn [walk_told walk]. apply IHt.
  - cbn [walk_told walk]. rewrite forget_bind, IHt. apply bind_ext. intros st'. unfold not_told. destruct (stack st') eqn:S, (last_token st') eqn:L; try apply forget_jdk.
    unfold exit_not. rewrite S, L. reflexivity.
  - cbn [walk_told walk]. rewrite forget_bind, IHt. apply bind_ext. intros st'. apply forget_jdk.
  - rewrite told_walk_func, walk_func, forget_bind, forget_items by assumption. apply bind_ext. intros st'. apply forget_push.
  - cbn [walk_told walk]. apply forget_push.
  - rewrite told_walk_in, walk_in, forget_bind, forget_items by assumption. apply bind_ext. intros st'. apply forget_push.
  - rewrite told_walk_array, walk_array, forget_bind, forget_items by assumption. apply bind_ext. intros st'. unfold array_told, exit_array.
    rewrite forget_bind, forget_field. apply bind_ext. intros fld. rewrite forget_bind, forget_elements; [apply bind_ext; reflexivity|]. apply Forall_forall. intros t _ s. apply forget_map.
  - cbn [walk_told walk]. rewrite forget_bind, IHt1. apply bind_ext. intros st1. rewrite forget_bind, IHt2. apply bind_ext. intros st2. apply forget_push.
  - cbn [walk_told walk]. rewrite forget_bind, IHt1. apply bind_ext. intros st1. rewrite forget_bind, IHt2. apply bind_ext. intros st2. apply forget_push.
  - cbn [walk_told walk]. rewrite forget_bind, IHt1. apply bind_ext. intros st1. rewrite forget_bind, IHt2. apply bind_ext. intros st2. unfold binary_told, exit_binary.
    destruct (stack st2) as [|b [|a s]]; reflexivity.
  - destruct t; try discriminate H; cbn [walk_told]; apply forget_jdk.
Qed.
Lemma forget_listen dflt t : forget (listen_told dflt t) = listen dflt t.
Proof.
  unfold listen_told, listen. rewrite forget_bind, forget_walk. apply bind_ext. intros st. unfold parse_end_told.
  destruct (stack st) eqn:S; [|apply forget_jdk]. destruct (token_count st) as [|[|k]] eqn:C, (last_token st) eqn:L; try apply forget_jdk; unfold exit_parse; rewrite S, C, ?L; reflexivity.
Qed.
Lemma forget_parse s dflt : forget (parse_told s dflt) = parse_expression s dflt.
Proof. unfold parse_told, parse_expression. rewrite forget_bind, forget_jdk. apply bind_ext. intros ts. rewrite forget_bind, forget_jdk. apply bind_ext. intros t. apply forget_listen. Qed.
Lemma forget_condition E s d dflt : forget (condition_told E s d dflt) = evaluate_boolean E s d dflt.
Proof. unfold condition_told, evaluate_boolean. rewrite forget_bind, forget_parse. apply bind_ext. intros n. apply forget_bool. Qed.
Lemma forget_formula E s d : forget (formula_told E s d) = evaluate_arith E s d.
Proof. unfold formula_told, evaluate_arith. rewrite forget_bind, forget_parse. apply bind_ext. intros n. apply forget_arith. Qed.

(** ** What the messages quote *)
Lemma inside_trans u t w : inside u t -> inside t w -> inside u w.
Proof. intros H. induction 1; eauto using inside. Qed.
Lemma sep_part i items : In i items -> exists a b, sep_yield items = a ++ yield i ++ b.
Proof.
  induction items as [|j items IH]; intros I; [contradiction|]. destruct items as [|k items].
  - destruct I as [->|[]]. exists [], []. rewrite app_nil_r. reflexivity.
  - rewrite sep_yield_cons by discriminate. destruct I as [->|I]; [exists [], (comma :: sep_yield (k :: items)); reflexivity|].
    destruct (IH I) as [a [b E]]. rewrite E. exists (yield j ++ comma :: a), b. rewrite <- !app_assoc. reflexivity.
Qed.
Lemma inside_tokens u t : inside u t -> exists a b, yield t = a ++ yield u ++ b.
Proof.
  intros H. induction H as [|t H IH|no t H IH|t H IH|f i items I H IH|f no w i items I H IH|f o i items I H IH|l o r H IH|l o r H IH|l o r H IH|l o r H IH|l o r H IH|l o r H IH];
    [exists [], []; rewrite app_nil_r; reflexivity|..]; destruct IH as [a [b IH]].
  - exists (lparen :: a), (b ++ [rparen]). cbn [yield]. rewrite IH. cbn [app]. rewrite <- !app_assoc. reflexivity.
  - exists (no :: a), b. cbn [yield]. rewrite IH. reflexivity.
  - exists (minus :: a), b. cbn [yield]. rewrite IH. reflexivity.
  - destruct (sep_part i items I) as [c [e E]]. rewrite yield_func, E, IH. exists (f :: lparen :: c ++ a), (b ++ e ++ [rparen]). cbn [app]. rewrite <- !app_assoc. reflexivity.
  - destruct (sep_part i items I) as [c [e E]]. rewrite yield_in, E, IH. destruct no as [no|].
    + exists (f :: no :: w :: lparen :: c ++ a), (b ++ e ++ [rparen]). cbn [app]. rewrite <- !app_assoc. reflexivity.
    + exists (f :: w :: lparen :: c ++ a), (b ++ e ++ [rparen]). cbn [app]. rewrite <- !app_assoc. reflexivity.
  - destruct (sep_part i items I) as [c [e E]]. rewrite yield_array, E, IH. exists (f :: o :: lparen :: c ++ a), (b ++ e ++ [rparen]). cbn [app]. rewrite <- !app_assoc. reflexivity.
  - exists a, (b ++ o :: yield r). cbn [yield]. rewrite IH, <- !app_assoc. reflexivity.
  - exists (yield l ++ o :: a), b. cbn [yield]. rewrite IH, <- !app_assoc. reflexivity.
  - exists a, (b ++ o :: yield r). cbn [yield]. rewrite IH, <- !app_assoc. reflexivity.
  - exists (yield l ++ o :: a), b. cbn [yield]. rewrite IH, <- !app_assoc. reflexivity.
  - exists a, (b ++ o :: yield r). cbn [yield]. rewrite IH, <- !app_assoc. reflexivity.
  - exists (yield l ++ o :: a), b. cbn [yield]. rewrite IH, <- !app_assoc. reflexivity.
Qed.

(** [x], an outcome of code that works on a part of [w], fails with a message exactly if it rejects the expression, and the message is about a part of [w]. *)
Definition quoting {A} (w : ptree) (x : told A) : Prop :=
  match x with
  | Gives _ => True
  | Throws e m => (e = InvalidExpression <-> m <> None) /\ forall s, m = Some s -> exists u, inside u w /\ complaint u s
  end.
Lemma quoting_inside {A} t w (x : told A) : inside t w -> quoting t x -> quoting w x.
Proof. intros H. destruct x as [a|e m]; [auto|]. intros [K Q]. split; [exact K|]. intros s S. destruct (Q s S) as [u [Iu C]]. exists u. split; [exact (inside_trans u t w Iu H)|exact C]. Qed.
Lemma quoting_bind {A B} w (x : told A) (k : A -> told B) : quoting w x -> (forall a, x = Gives a -> quoting w (k a)) -> quoting w (tbind x k).
Proof. destruct x as [a|e m]; intros H K; [apply K; reflexivity|exact H]. Qed.
Lemma quoting_jdk {A} w (r : res A) : r <> Err InvalidExpression -> quoting w (jdk r).
Proof. destruct r as [a|e]; intros H; [exact Logic.I|]. split; [split; [congruence|contradiction]|discriminate]. Qed.
Lemma quoting_complain {A} w (m : jstr) : complaint w m -> quoting w (Throws InvalidExpression (Some m) : told A).
Proof. intros C. split; [split; [discriminate|reflexivity]|]. intros s [= <-]. exists w. split; [constructor|exact C]. Qed.

Lemma convert_other s t : convert_value s t <> Err InvalidExpression.
Proof.
  destruct t; cbn [convert_value]; try discriminate.
  - destruct (quoted_by _ s); [|destruct (quoted_by _ s)]; try discriminate; unfold strip_ends; repeat (match goal with |- context [match ?x with _ => _ end] => destruct x end); discriminate.
  - destruct (parse_int s); discriminate.
  - destruct (parse_long s); discriminate.
  - destruct (parse_bigdec s); discriminate.
Qed.
Lemma types_other dflt t : map_types_token dflt t <> Err InvalidExpression.
Proof.
  unfold map_types_token. destruct (kind t); try discriminate; (destruct (is_blank (text t)); [discriminate|]); intros H;
    (destruct (convert_value (text t) (token_data_type t)) as [v|e] eqn:C; [discriminate|cbn [bind] in H; injection H as ->; exact (convert_other _ _ C)]).
Qed.
Lemma as_types_other dflt t m : as_types dflt t = Some m -> m <> Err InvalidExpression.
Proof. destruct t; try discriminate; intros [= <-]; [apply types_other|discriminate]. Qed.
Lemma as_types_compound dflt t : as_types dflt t = None -> compound t.
Proof. destruct t; try discriminate; intros _; exact Logic.I. Qed.
Lemma pop_other s : pop s <> Err InvalidExpression.
Proof. destruct s; discriminate. Qed.
Lemma field_quoting dflt f t : genuine f -> exists o, field_told dflt f t = Gives o.
Proof. intros G. unfold field_told. rewrite (genuine_not_blank f G). cbn [andb]. eauto. Qed.

Definition readable (t : ptree) : Prop := Forall genuine (yield t) /\ exists n next, reads n t next.
Lemma items_readable items : reads_items items -> Forall genuine (sep_yield items) -> Forall readable items.
Proof.
  intros R G. apply Forall_forall. intros i Ii. split; [exact (sep_each i items Ii G)|]. clear G. induction R as [t R|t ts R Rs IH].
  - destruct Ii as [<-|[]]. eauto.
  - destruct Ii as [<-|Ii]; [eauto|auto].
Qed.
Ltac gather := repeat match goal with
  | H : Forall genuine (_ :: _) |- _ => inversion H; clear H; subst
  | H : Forall genuine (_ ++ _) |- _ => apply Forall_app in H; destruct H
  end.
Lemma elements_quoting dflt w items : (forall i, In i items -> inside i w) -> Forall (fun t => readable t -> forall s, quoting t (context_told dflt t s)) items -> Forall readable items ->
  forall s, quoting w (elements_told dflt items s).
Proof.
  intros IW H R. revert IW R. induction H as [|i l H _ IH]; intros IW R s; [exact Logic.I|]. inversion R; subst. cbn [elements_told].
  apply quoting_bind; [apply (quoting_inside i); [apply IW; left; reflexivity|auto]|]. intros ns _.
  apply quoting_bind; [apply IH; [intros j J; apply IW; right; exact J|assumption]|]. intros; exact Logic.I.
Qed.
Lemma function_known k : function_kind k -> exists f, function_of k = Some f.
Proof. unfold function_kind. intros H. destruct k; try (eexists; reflexivity); exfalso; cbn in H; intuition discriminate. Qed.
Lemma context_quoting dflt t : readable t -> forall s, quoting t (context_told dflt t s).
Proof.
  induction t using ptree_ind'; intros [G [k [nx R]]] s; try (apply quoting_complain, complaint_element; exact Logic.I).
  - rewrite told_func. rewrite yield_func in G. gather. inversion R; subst. destruct (function_known (kind fn)) as [ft ->]; [assumption|].
    apply quoting_bind; [|intros; exact Logic.I]. apply elements_quoting; [intros i Ii; eapply inside_call; [exact Ii|constructor]|exact H|apply items_readable; assumption].
  - cbn [context_told]. apply quoting_bind; [apply quoting_jdk, types_other|intros; exact Logic.I].
  - exact Logic.I.
  - cbn [context_told]. cbn [yield] in G. gather. destruct (field_quoting dflt f (PTo f lo to hi)) as [o ->]; [assumption|]. cbn [tbind].
    apply quoting_bind; [apply quoting_jdk, convert_other|]. intros a _. apply quoting_bind; [apply quoting_jdk, convert_other|intros; exact Logic.I].
  - rewrite told_in. rewrite yield_in in G. inversion G as [|x y Gf G']; subst. destruct (field_quoting dflt f (PIn f neg it items) Gf) as [o ->]. cbn [tbind].
    assert (Gi : Forall genuine (sep_yield items)) by (destruct neg; cbn [app] in G'; gather; assumption).
    assert (Ri : reads_items items) by (inversion R; subst; assumption).
    apply quoting_bind; [|intros; exact Logic.I]. apply elements_quoting; [intros i Ii; eapply inside_in; [exact Ii|constructor]|exact H|apply items_readable; assumption].
  - cbn [yield] in G. gather. inversion R; subst. assert (R1 : readable t1) by (split; eauto). assert (R2 : readable t2) by (split; eauto).
    assert (D : forall (o : operator), quoting (PCmp t1 op t2) (bs <! context_told dflt t2 s ;; as_ <! context_told dflt t1 (snd bs) ;; Gives (NCmp (fst as_) (fst bs) o (token_data_type (start t2)), snd as_))).
    { intros o. apply quoting_bind; [apply (quoting_inside t2); [apply inside_compare_right; constructor|auto]|]. intros a _.
      apply quoting_bind; [apply (quoting_inside t1); [apply inside_compare_left; constructor|auto]|]. intros; exact Logic.I. }
    cbn [context_told]. destruct (steals t1 t2 s); [|apply D].
    destruct (as_types dflt t1) as [m1|] eqn:A1.
    + apply quoting_bind; [exact (quoting_jdk _ _ (as_types_other _ _ _ A1))|]. intros a _. apply quoting_bind; [apply quoting_jdk, pop_other|]. intros; exact Logic.I.
    + destruct (as_types dflt t2) as [m2|] eqn:A2; [|apply D].
      apply quoting_bind; [exact (quoting_jdk _ _ (as_types_other _ _ _ A2))|]. intros a _. apply quoting_bind; [apply quoting_jdk, pop_other|]. intros; exact Logic.I.
  - cbn [context_told]. destruct (as_types dflt t1) as [m1|] eqn:A1, (as_types dflt t2) as [m2|] eqn:A2.
    + apply quoting_bind; [exact (quoting_jdk _ _ (as_types_other _ _ _ A1))|]. intros a _. apply quoting_bind; [exact (quoting_jdk _ _ (as_types_other _ _ _ A2))|]. intros; exact Logic.I.
    + apply quoting_bind; [exact (quoting_jdk _ _ (as_types_other _ _ _ A1))|]. intros a _. apply quoting_bind; [apply quoting_jdk, pop_other|]. intros; exact Logic.I.
    + apply quoting_bind; [exact (quoting_jdk _ _ (as_types_other _ _ _ A2))|]. intros a _. apply quoting_bind; [apply quoting_jdk, pop_other|]. intros; exact Logic.I.
    + destruct s as [|b [|a s]]; try exact Logic.I; apply quoting_complain, complaint_operator; eapply as_types_compound; eassumption.
  - destruct t; try discriminate H; inversion R.
Qed.

(** A walk that leaves no node has seen exactly one operand. *)
Lemma walk_empty dflt t : readable t -> forall st st', walk dflt t st = Ok st' -> stack st' = [] -> token_count st' = S (token_count st) /\ last_token st' <> None.
Proof.
  induction t using ptree_ind'; intros [G [k [nx R]]] st st' W S.
  - cbn [walk] in W. cbn [yield] in G. gather. inversion R; subst. apply (IHt ltac:(split; eauto) st st' W S).
  - cbn [walk] in W. apply bind_ok in W. destruct W as [st1 [_ W]]. unfold exit_not in W. destruct (stack st1); [destruct (last_token st1); [|discriminate]; apply bind_ok in W; destruct W as [v [_ W]]|];
      injection W as <-; discriminate S.
  - cbn [walk] in W. apply bind_ok in W. destruct W as [st1 [_ W]]. unfold exit_unary in W.
    destruct (stack st1) as [|[] s1]; (try (destruct (as_types dflt t); [|discriminate]; apply bind_ok in W; destruct W as [v [_ W]])); injection W as <-; discriminate S.
  - rewrite walk_func in W. apply bind_ok in W. destruct W as [st1 [_ W]]. unfold push_context in W. apply bind_ok in W. destruct W as [ns [_ W]]. injection W as <-. discriminate S.
  - cbn [walk] in W. injection W as <-. cbn. split; [reflexivity|discriminate].
  - cbn [walk] in W. injection W as <-. cbn. split; [reflexivity|discriminate].
  - cbn [walk] in W. unfold push_context in W. apply bind_ok in W. destruct W as [ns [_ W]]. injection W as <-. discriminate S.
  - rewrite walk_in in W. apply bind_ok in W. destruct W as [st1 [_ W]]. unfold push_context in W. apply bind_ok in W. destruct W as [ns [_ W]]. injection W as <-. discriminate S.
  - rewrite walk_array in W. apply bind_ok in W. destruct W as [st1 [_ W]]. unfold exit_array in W. apply bind_ok in W. destruct W as [fld [_ W]]. apply bind_ok in W. destruct W as [ns [_ W]].
    injection W as <-. discriminate S.
  - cbn [walk] in W. apply bind_ok in W. destruct W as [st1 [_ W]]. apply bind_ok in W. destruct W as [st2 [_ W]]. unfold push_context in W. apply bind_ok in W. destruct W as [ns [_ W]]. injection W as <-. discriminate S.
  - cbn [walk] in W. apply bind_ok in W. destruct W as [st1 [_ W]]. apply bind_ok in W. destruct W as [st2 [_ W]]. unfold push_context in W. apply bind_ok in W. destruct W as [ns [_ W]]. injection W as <-. discriminate S.
  - cbn [walk] in W. apply bind_ok in W. destruct W as [st1 [_ W]]. apply bind_ok in W. destruct W as [st2 [_ W]]. unfold exit_binary in W. destruct (stack st2) as [|b [|a s]]; try discriminate. injection W as <-. discriminate S.
  - destruct t; try discriminate H; inversion R.
Qed.
Lemma told_gives {A} (x : told A) (r : res A) a : forget x = r -> x = Gives a -> r = Ok a.
Proof. intros <- ->. reflexivity. Qed.
Lemma gives_told {A} (x : told A) a : forget x = Ok a -> x = Gives a.
Proof. destruct x; cbn; congruence. Qed.

Lemma push_quoting dflt t st : readable t -> quoting t (push_told dflt t st).
Proof. intros R. unfold push_told. apply quoting_bind; [apply context_quoting, R|intros; exact Logic.I]. Qed.
Lemma items_quoting dflt w items : (forall i, In i items -> inside i w) -> Forall (fun t => readable t -> forall st, quoting t (walk_told dflt t st)) items -> Forall readable items ->
  forall st, quoting w (walk_items_told dflt items st).
Proof.
  intros IW H R. revert IW R. induction H as [|i l H _ IH]; intros IW R st; [exact Logic.I|]. inversion R; subst. cbn [walk_items_told].
  apply quoting_bind; [apply (quoting_inside i); [apply IW; left; reflexivity|auto]|]. intros st' _. apply IH; [intros j J; apply IW; right; exact J|assumption].
Qed.
Lemma unary_other dflt t st : exit_unary dflt t st <> Err InvalidExpression.
Proof.
  unfold exit_unary. destruct (as_types dflt t) as [m|] eqn:A; [|destruct (stack st) as [|[]]; discriminate].
  pose proof (as_types_other _ _ _ A). destruct (stack st) as [|[]]; try discriminate; destruct m; cbn [bind]; congruence.
Qed.
Lemma walk_quoting dflt t : readable t -> forall st, quoting t (walk_told dflt t st).
Proof.
  induction t using ptree_ind'; intros R st; pose proof R as [G [k [nx Rd]]]; try exact Logic.I.
  - cbn [walk_told]. cbn [yield] in G. gather. inversion Rd; subst. apply (quoting_inside t); [apply inside_paren; constructor|]. apply IHt. split; eauto.
  - cbn [walk_told]. cbn [yield] in G. gather. inversion Rd; subst. assert (Rt : readable t) by (split; eauto).
    apply quoting_bind; [apply (quoting_inside t); [apply inside_not; constructor|auto]|]. intros st' W. unfold not_told.
    assert (O : exit_not st' <> Err InvalidExpression \/ (stack st' = [] /\ last_token st' = None)).
    { unfold exit_not. destruct (stack st'); [|left; discriminate]. destruct (last_token st') as [tk|]; [left|right; auto].
      pose proof (convert_other (text tk) (token_data_type tk)). destruct (convert_value (text tk) (token_data_type tk)); cbn [bind]; congruence. }
    pose proof (told_gives _ _ _ (forget_walk dflt t st) W) as W'. pose proof (walk_empty dflt t Rt st st' W').
    destruct (stack st') as [|n s] eqn:S, (last_token st') as [tk|] eqn:L; try (apply quoting_jdk; destruct O as [O|[O1 O2]]; [exact O|congruence]). destruct (H eq_refl) as [_ F]. congruence.
  - cbn [walk_told]. cbn [yield] in G. gather. inversion Rd; subst. apply quoting_bind; [apply (quoting_inside t); [apply inside_minus; constructor|apply IHt; split; eauto]|].
    intros st' _. apply quoting_jdk, unary_other.
  - rewrite told_walk_func. rewrite yield_func in G. gather. inversion Rd; subst.
    apply quoting_bind; [|intros; apply push_quoting, R]. apply items_quoting; [intros i Ii; eapply inside_call; [exact Ii|constructor]|exact H|apply items_readable; assumption].
  - cbn [walk_told]. apply push_quoting, R.
  - rewrite told_walk_in. rewrite yield_in in G. inversion G as [|x y Gf G']; subst. assert (Gi : Forall genuine (sep_yield items)) by (destruct neg; cbn [app] in G'; gather; assumption).
    assert (Ri : reads_items items) by (inversion Rd; subst; assumption).
    apply quoting_bind; [|intros; apply push_quoting, R]. apply items_quoting; [intros i Ii; eapply inside_in; [exact Ii|constructor]|exact H|apply items_readable; assumption].
  - rewrite told_walk_array. rewrite yield_array in G. gather. assert (Ri : reads_items items) by (inversion Rd; subst; assumption).
    apply quoting_bind; [apply items_quoting; [intros i Ii; eapply inside_contains; [exact Ii|constructor]|exact H|apply items_readable; assumption]|]. intros st' _. unfold array_told.
    destruct (field_quoting dflt f (PArray f op items)) as [o ->]; [assumption|]. cbn [tbind].
    apply quoting_bind; [|intros; exact Logic.I]. apply elements_quoting; [intros i Ii; eapply inside_contains; [exact Ii|constructor]| |apply items_readable; assumption].
    apply Forall_forall. intros i _ Ri' s. apply context_quoting, Ri'.
  - cbn [walk_told]. cbn [yield] in G. gather. inversion Rd; subst.
    apply quoting_bind; [apply (quoting_inside t1); [apply inside_compare_left; constructor|apply IHt1; split; eauto]|]. intros st1 _.
    apply quoting_bind; [apply (quoting_inside t2); [apply inside_compare_right; constructor|apply IHt2; split; eauto]|]. intros st2 _. apply push_quoting, R.
  - cbn [walk_told]. cbn [yield] in G. gather. inversion Rd; subst.
    apply quoting_bind; [apply (quoting_inside t1); [apply inside_compute_left; constructor|apply IHt1; split; eauto]|]. intros st1 _.
    apply quoting_bind; [apply (quoting_inside t2); [apply inside_compute_right; constructor|apply IHt2; split; eauto]|]. intros st2 _. apply push_quoting, R.
  - cbn [walk_told]. cbn [yield] in G. gather. inversion Rd; subst.
    apply quoting_bind; [apply (quoting_inside t1); [apply inside_connect_left; constructor|apply IHt1; split; eauto]|]. intros st1 _.
    apply quoting_bind; [apply (quoting_inside t2); [apply inside_connect_right; constructor|apply IHt2; split; eauto]|]. intros st2 _.
    unfold binary_told. destruct (stack st2) as [|b [|a s]]; try exact Logic.I; apply quoting_complain, complaint_connective.
  - destruct t; try discriminate H; inversion Rd.
Qed.
Lemma listen_quoting dflt t : readable t -> quoting t (listen_told dflt t).
Proof.
  intros R. unfold listen_told. apply quoting_bind; [apply walk_quoting, R|]. intros st W. pose proof (told_gives _ _ _ (forget_walk dflt t _) W) as W'.
  pose proof (walk_empty dflt t R _ st W') as H. cbn [token_count] in H. unfold parse_end_told. destruct (stack st) as [|n s] eqn:S.
  - destruct (H eq_refl) as [C L]. rewrite C. destruct (last_token st) as [tk|] eqn:T; [|congruence]. apply quoting_jdk. unfold exit_parse. rewrite S, C, T.
    pose proof (convert_other (text tk) STRING); destruct (kind tk); try discriminate; destruct (convert_value (text tk) STRING) as [v|e]; cbn [bind]; try congruence; destruct v; cbn [to_string bind]; discriminate.
  - apply quoting_jdk. unfold exit_parse. rewrite S. discriminate.
Qed.
Lemma parse_quoting s t dflt e m : lex s = Ok (yield t) -> reads 0 t eof -> parse_told s dflt = Throws e m ->
  (e = InvalidExpression <-> m <> None) /\ forall x, m = Some x -> exists u, inside u t /\ complaint u x.
Proof.
  intros L R P. assert (H : quoting t (listen_told dflt t)) by (apply listen_quoting; split; [apply (lex_genuine s), L|eauto]).
  unfold parse_told in P. rewrite L in P. cbn [jdk tbind] in P. rewrite (parse_any_complete t R) in P. cbn [jdk tbind] in P. rewrite P in H. exact H.
Qed.

(** ** The messages of three kinds of texts *)
Lemma walk_gives dflt t st st' : walk dflt t st = Ok st' -> walk_told dflt t st = Gives st'.
Proof. intros W. apply gives_told. rewrite forget_walk. exact W. Qed.
Lemma condition_sentence E s d dflt T m : lex s = Ok (yield T) -> reads 0 T eof -> walk_told dflt T (LState [] None 0) = Throws InvalidExpression m ->
  condition_told E s d dflt = Throws InvalidExpression m.
Proof.
  intros L R W. unfold condition_told, parse_told. rewrite L. cbn [jdk tbind]. rewrite (parse_any_complete T R). cbn [jdk tbind]. unfold listen_told. rewrite W. reflexivity.
Qed.
Lemma formula_sentence E s d T m : lex s = Ok (yield T) -> reads 0 T eof -> walk_told None T (LState [] None 0) = Throws InvalidExpression m ->
  formula_told E s d = Throws InvalidExpression m.
Proof.
  intros L R W. unfold formula_told, parse_told. rewrite L. cbn [jdk tbind]. rewrite (parse_any_complete T R). cbn [jdk tbind]. unfold listen_told. rewrite W. reflexivity.
Qed.
Lemma quote_two_sides E d dflt s1 s2 ws1 c q ws2 m n : written Nothing s1 ws1 m -> In (c, q) comparators -> written s1 s2 ws2 n ->
  condition_told E (unwords (bracketed ws1 ++ c :: bracketed ws2)) d dflt =
    Throws InvalidExpression (Some (J "Array does not support this expression " ++ concat (bracketed ws2))).
Proof.
  intros W1 C W2. destruct (written_good _ _ _ _ W1) as [t1 G1]. destruct (written_good _ _ _ _ W2) as [t2 G2].
  destruct G1 as [Y1 [Gn1 [R1 [Rg1 [S1 D1]]]]]. destruct G2 as [Y2 [Gn2 [R2 [Rg2 [S2 D2]]]]].
  destruct (comparator_genuine _ _ C) as [kc [Gc Kc]]. pose proof lparen_genuine as GL. pose proof rparen_genuine as GR.
  set (T := PCmp (PParen t1) (Tok kc c) (PParen t2)).
  assert (L : lex (unwords (bracketed ws1 ++ c :: bracketed ws2)) = Ok (yield T)).
  { rewrite <- (unwords_lex (yield T)).
    - do 2 f_equal. unfold T. cbn [yield]. rewrite <- Y1, <- Y2. unfold bracketed. cbn [map app text]. rewrite !map_app. cbn [map app text]. rewrite map_app. reflexivity.
    - unfold T. cbn [yield]. apply Forall_app. split.
      + apply Forall_cons; [exact GL|]. apply Forall_app. split; [exact Gn1|]. apply Forall_cons; [exact GR|apply Forall_nil].
      + apply Forall_cons; [exact Gc|]. apply Forall_cons; [exact GL|]. apply Forall_app. split; [exact Gn2|]. apply Forall_cons; [exact GR|apply Forall_nil]. }
  assert (RT : reads 0 T eof).
  { eapply r_cmp; [exact Kc|apply comparator_level9, Kc|lia|apply r_paren, R1, open_rparen|apply r_paren, R2, open_rparen]. }
  destruct (walk_regular dflt Nothing t1 Rg1 m (LState [] None 0) Gn1 (D1 dflt)) as [m' [st1 [Wk1 [St1 [_ K1]]]]]; [constructor|reflexivity|].
  assert (K0 : top_sort (stack st1) = s1) by (rewrite St1; cbn [top_sort]; congruence).
  destruct (walk_regular dflt s1 t2 Rg2 n st1 Gn2 (D2 dflt)) as [n' [st2 [Wk2 [St2 [_ K2]]]]]; [rewrite St1; apply Forall_cons; [intros X; apply (written_sort _ _ _ _ W1); congruence|apply Forall_nil]|exact K0|].
  apply (condition_sentence E _ d dflt T _ L RT). unfold T. cbn [walk_told]. rewrite (walk_gives _ _ _ _ Wk1). cbn [tbind]. rewrite (walk_gives _ _ _ _ Wk2). cbn [tbind].
  assert (X : concat (bracketed ws2) = tree_text (PParen t2)) by (unfold tree_text, glued; cbn [yield map]; rewrite map_app, Y2; reflexivity). rewrite X.
  unfold push_told. cbn [context_told as_types]. destruct (steals _ _ _); reflexivity.
Qed.
Lemma quote_steal E d dflt s t o op x c q y m n (paren : bool) : s = Member \/ s = Function \/ s = Arithmetic -> Forall genuine (yield t) -> everywhere t -> pushes s t ->
  In (o, op) connectives -> operand x m -> In (c, q) comparators -> operand y n ->
  let ws := map text (yield t) ++ o :: if paren then bracketed [x; c; y] else [x; c; y] in
  condition_told E (unwords ws) d dflt = Throws InvalidExpression (Some (J "Error parsing binary expression for the string " ++ concat ws)).
Proof.
  intros B G R P I X C Y ws. destruct (P dflt) as [n' [st [Wk [St K]]]].
  destruct (operand_token _ _ X) as [kx [Gx [Kx Mx]]]. destruct (operand_words _ _ Y) as [ky [Gy Ky]].
  destruct (comparator_genuine _ _ C) as [kc [Gc Kc]]. destruct (connective_token _ _ I) as [ko [Go [Ko _]]].
  set (cmp := PCmp (PTypes (Tok kx x)) (Tok kc c) (PTypes (Tok ky y))). set (r := if paren then PParen cmp else cmp). set (T := PBin t (Tok ko o) r).
  pose proof lparen_genuine as GL. pose proof rparen_genuine as GR.
  assert (YT : map text (yield T) = ws) by (unfold T, ws; cbn [yield]; rewrite map_app; destruct paren; reflexivity).
  assert (L : lex (unwords ws) = Ok (yield T)).
  { rewrite <- YT. apply unwords_lex. unfold T. cbn [yield]. apply Forall_app. split; [exact G|]. apply Forall_cons; [exact Go|]. unfold r. destruct paren; cbn [yield cmp app]; genuines. }
  assert (RC : forall n next, n <= 9 -> reads n cmp next).
  { intros k next Le. eapply r_cmp; [exact Kc|apply comparator_level9, Kc|exact Le|apply r_operand; exact Kx|apply r_operand; exact Ky]. }
  assert (RT : reads 0 T eof).
  { eapply r_bin; [exact Ko|apply connective_level, Ko|lia|apply R|]. unfold r. destruct paren; [apply r_paren|]; apply RC; lia. }
  assert (WR : exists st', walk dflt r st = Ok st' /\ exists k, stack st' = [k]).
  { assert (walk dflt r st = walk dflt cmp st) as -> by (unfold r; destruct paren; reflexivity).
    unfold cmp. cbn [walk]. unfold push_context. cbn [exit_types stack bind]. rewrite St. cbn [map_context as_types].
    rewrite (steals_fit (PTypes (Tok kx x)) (PTypes (Tok ky y)) n' []).
    - rewrite (Mx dflt). cbn [bind pop fst snd]. eexists. split; [reflexivity|]. eexists. reflexivity.
    - destruct B as [-> | [-> | ->]]; congruence.
    - right. right. destruct B as [-> | [-> | ->]]; congruence. }
  destruct WR as [st' [Wr [k Sk]]].
  apply (condition_sentence E _ d dflt T _ L RT). unfold T at 1. cbn [walk_told]. rewrite (walk_gives _ _ _ _ Wk). cbn [tbind]. rewrite (walk_gives _ _ _ _ Wr). cbn [tbind].
  unfold binary_told. rewrite Sk. unfold complain, tree_text, glued. fold T. rewrite YT. reflexivity.
Qed.
Lemma quote_swallowed E d dflt s ws w o op x c q y m n : written Nothing s ws w -> s = Member \/ s = Function \/ s = Arithmetic ->
  In (o, op) connectives -> operand x m -> In (c, q) comparators -> operand y n ->
  let text := bracketed ws ++ o :: bracketed [x; c; y] in
  condition_told E (unwords text) d dflt = Throws InvalidExpression (Some (J "Error parsing binary expression for the string " ++ concat text)).
Proof.
  intros W B I X C Y. cbv zeta. destruct (walk_pushed _ _ _ W) as [t [Yt [G [R [S P]]]]].
  assert (bracketed ws = map text (yield (PParen t))) as -> by (cbn [yield map]; rewrite map_app, Yt; reflexivity).
  apply (quote_steal E d dflt s (PParen t) o op x c q y m n true); try assumption.
  - cbn [yield]. apply Forall_cons; [exact lparen_genuine|]. apply Forall_app. split; [exact G|]. apply Forall_cons; [exact rparen_genuine|apply Forall_nil].
  - intros k next. apply r_paren. apply R, open_rparen.
Qed.
Lemma quote_swallowed_bare E d dflt s ws w o op x c q y m n : written Nothing s ws w -> s = Member \/ s = Function ->
  In (o, op) connectives -> operand x m -> In (c, q) comparators -> operand y n ->
  let text := ws ++ [o; x; c; y] in
  condition_told E (unwords text) d dflt = Throws InvalidExpression (Some (J "Error parsing binary expression for the string " ++ concat text)).
Proof.
  intros W B I X C Y. cbv zeta. destruct (walk_pushed _ _ _ W) as [t [Yt [G [R [S P]]]]]. rewrite <- Yt.
  apply (quote_steal E d dflt s t o op x c q y m n false); try assumption; [tauto|]. apply member_everywhere; [rewrite S; exact B|exact R].
Qed.
(** Plain operands joined by AND or OR. *)
Lemma quote_plain E d dflt x m o op y n : operand x m -> In (o, op) connectives -> operand y n ->
  condition_told E (unwords [x; o; y]) d dflt = Throws InvalidExpression (Some (J "Error parsing binary expression for the string " ++ concat [x; o; y])).
Proof.
  intros X I Y. destruct (operand_words _ _ X) as [kx [Gx Kx]]. destruct (operand_words _ _ Y) as [ky [Gy Ky]]. destruct (connective_token _ _ I) as [ko [Go [Ko _]]].
  set (T := PBin (PTypes (Tok kx x)) (Tok ko o) (PTypes (Tok ky y))).
  assert (L : lex (unwords [x; o; y]) = Ok (yield T)) by (apply (unwords_lex (yield T)); unfold T; cbn [yield app]; genuines).
  assert (RT : reads 0 T eof) by (eapply r_bin; [exact Ko|apply connective_level, Ko|lia|apply r_operand, Kx|apply r_operand, Ky]).
  apply (condition_sentence E _ d dflt T _ L RT). reflexivity.
Qed.
(** Two operands in parentheses with an arithmetic operator between. *)
Lemma quote_operands E d x m o op y n : operand x m -> In (o, op) arithmetic_symbols -> operand y n ->
  let text := bracketed [x] ++ o :: bracketed [y] in
  formula_told E (unwords text) d = Throws InvalidExpression (Some (J "Error parsing expression for the string " ++ concat text)).
Proof.
  intros X I Y. destruct (operand_words _ _ X) as [kx [Gx Kx]]. destruct (operand_words _ _ Y) as [ky [Gy Ky]]. destruct (symbol_level _ _ I) as [ko [Go [Ko Lo]]].
  cbv zeta. pose proof lparen_genuine as GL. pose proof rparen_genuine as GR.
  set (T := PArith (PParen (PTypes (Tok kx x))) (Tok ko o) (PParen (PTypes (Tok ky y)))).
  assert (L : lex (unwords (bracketed [x] ++ o :: bracketed [y])) = Ok (yield T)) by (apply (unwords_lex (yield T)); unfold T; cbn [yield app]; genuines).
  assert (RT : reads 0 T eof) by (eapply r_arith; [exact Ko|exact Lo|lia|apply r_paren, r_operand, Kx|apply r_paren, r_operand, Ky]).
  apply (formula_sentence E _ d T _ L RT). reflexivity.
Qed.
Lemma text_quoting s t dflt e m : lex s = Ok (yield t) -> reads 0 t eof -> parse_told s dflt = Throws e m ->
  (e = InvalidExpression <-> m <> None) /\
  forall x, m = Some x -> exists before u after, inside u t /\ lex s = Ok (before ++ yield u ++ after) /\ complaint u x.
Proof.
  intros L R P. destruct (parse_quoting s t dflt e m L R P) as [K Q]. split; [exact K|]. intros x X. destruct (Q x X) as [u [U C]].
  destruct (inside_tokens u t U) as [a [b Y]]. exists a, u, b. rewrite L, Y. auto.
Qed.
