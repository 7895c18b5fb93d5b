(** Comparisons of two function calls. *)
From Coq Require Import QArith.
From Verif Require Import RecoverFacts.
From Verif Require Import Base JNum BigDec Dates Values Ops Funcs Ast Eval Lexer Grammar Listener Api SpecBool SpecCompare SpecPath SpecArith SpecLex SpecDate
  SpecGrammar SpecSyntax SpecText NumFacts CacheFacts BoolFacts CompareFacts ValuesFacts FieldFacts LexFacts LexSplit LexWords LexApi LexCases SyntaxFacts ParseFuel ParseFacts
  ParseShapes ListenFacts TextFacts TextApi SpecWrite WriteFacts.
Local Open Scope nat_scope.

Definition calls (t : ptree) (n : node) : Prop :=
  as_types None t = None /\ (forall dflt, as_types dflt t = None) /\
  forall dflt, (forall st, exists lt tc, walk dflt t st = Ok (LState (n :: stack st) lt tc)) /\ (forall s, map_context dflt t s = Ok (n, s)).
Lemma call_tree f fn ws ms : In (f, fn) function_names -> listed ws ms ->
  exists t, map text (yield t) = f :: bracketed (commas ws) /\ Forall genuine (yield t) /\ everywhere t /\ calls t (NFunc fn ms).
Proof.
  intros If L. destruct (listed_good _ _ L) as [items [Y [G [R [P D]]]]]. destruct (function_token f fn If) as [kf [Gf [Kf Fo]]]. exists (PFunc (Tok kf f) items).
  split; [|split; [|split]].
  - rewrite yield_func. cbn [map text]. f_equal. apply list_words, Y.
  - rewrite yield_func. apply (list_end [Tok kf f]); [constructor; [exact Gf|constructor]|exact G].
  - intros m next. apply r_func; assumption.
  - split; [reflexivity|]. split; [reflexivity|]. intros dflt. destruct (plain_list dflt items ms P G (D dflt)) as [W M].
    assert (C : forall s, map_context dflt (PFunc (Tok kf f) items) s = Ok (NFunc fn ms, s)).
    { intros s. rewrite context_func. cbn [kind]. rewrite Fo, M. reflexivity. }
    split; [|exact C]. intros st. destruct (W st) as [lt [tc Wst]]. exists lt, tc. rewrite walk_func, Wst. cbn [bind]. unfold push_context. rewrite C. reflexivity.
Qed.

(** A comparison of two calls. *)
Lemma calls_tree f fn ws ms c q g gn vs ns : In (f, fn) function_names -> listed ws ms -> In (c, q) comparators -> In (g, gn) function_names -> listed vs ns ->
  exists t dt, map text (yield t) = calls_compared f ws c g vs /\ Forall genuine (yield t) /\ (forall m next, m <= 9 -> reads m t next) /\
    forall dflt st, exists lt tc, walk dflt t st = Ok (LState (NCmp (NFunc fn ms) (NFunc gn ns) q dt :: NFunc gn ns :: NFunc fn ms :: stack st) lt tc).
Proof.
  intros If L C Ig K. destruct (call_tree f fn ws ms If L) as [l [Y1 [G1 [R1 [_ [A1 C1]]]]]]. destruct (call_tree g gn vs ns Ig K) as [r [Y2 [G2 [R2 [_ [A2 C2]]]]]].
  destruct (comparator_token c q C) as [kc [Gc Oc]]. assert (Kc : comparator kc) by apply (comparator_kind kc c q Gc C). exists (PCmp l (Tok kc c) r), (token_data_type (start r)).
  split; [cbn [yield]; unfold calls_compared; rewrite <- Y1, <- Y2, map_app; reflexivity|].
  split; [cbn [yield]; apply infix_genuine; assumption|]. split; [intros m next Le; eapply r_cmp; [exact Kc|apply comparator_level9, Kc|exact Le|apply R1|apply R2]|].
  intros dflt st. destruct (C1 dflt) as [W1 M1]. destruct (C2 dflt) as [W2 M2]. destruct (W1 st) as [lt1 [tc1 Wl]]. destruct (W2 (LState (NFunc fn ms :: stack st) lt1 tc1)) as [lt [tc Wr]].
  exists lt, tc. cbn [walk]. rewrite Wl. cbn [bind]. rewrite Wr. cbn [bind]. unfold push_context. cbn [map_context stack]. rewrite A1, A2.
  destruct (steals l r _); rewrite M2; cbn [bind snd fst]; rewrite M1; cbn [bind snd fst kind]; [rewrite (proj2 (comparator_kind kc c q Gc C))|rewrite (proj2 (comparator_kind kc c q Gc C))]; reflexivity.
Qed.

Lemma two_calls E d dflt f fn ws ms c q g gn vs ns : In (f, fn) function_names -> listed ws ms -> In (c, q) comparators -> In (g, gn) function_names -> listed vs ns ->
  evaluate_boolean E (unwords (calls_compared f ws c g vs)) d dflt = bool_eval E d (NCmp (NFunc fn ms) (NFunc gn ns) q STRING).
Proof.
  intros If L C Ig K. destruct (calls_tree f fn ws ms c q g gn vs ns If L C Ig K) as [t [dt [Y [G [R W]]]]]. destruct (W dflt (LState [] None 0)) as [lt [tc Wk]].
  rewrite <- Y. unfold evaluate_boolean, parse_expression. rewrite (unwords_lex (yield t) G). cbn [bind]. rewrite (parse_any_complete t (R 0 eof ltac:(lia))). cbn [bind].
  unfold listen. rewrite Wk. reflexivity.
Qed.

Lemma calls_second E d dflt s ws0 m o op f fn ws ms c q g gn vs ns (paren : bool) : written Nothing s ws0 m -> In (o, op) connectives ->
  In (f, fn) function_names -> listed ws ms -> In (c, q) comparators -> In (g, gn) function_names -> listed vs ns ->
  evaluate_boolean E (unwords (bracketed ws0 ++ o :: if paren then bracketed (calls_compared f ws c g vs) else calls_compared f ws c g vs)) d dflt =
    match op with AND => Ok false | _ => evaluate_boolean E (unwords (calls_compared f ws c g vs)) d dflt end.
Proof.
  intros W0 I If L C Ig K. rewrite (two_calls E d dflt f fn ws ms c q g gn vs ns If L C Ig K).
  destruct (calls_tree f fn ws ms c q g gn vs ns If L C Ig K) as [t [dt [Y [G [R W]]]]].
  destruct (written_good _ _ _ _ W0) as [t0 [Y0 [G0 [R0 [Rg0 [S0 D0]]]]]]. destruct (connective_token _ _ I) as [ko [Go [Ko Lo]]].
  pose proof lparen_genuine as GL. pose proof rparen_genuine as GR. set (r := if paren then PParen t else t). set (T := PBin (PParen t0) (Tok ko o) r).
  assert (Yr : map text (yield r) = if paren then bracketed (calls_compared f ws c g vs) else calls_compared f ws c g vs).
  { unfold r. destruct paren; [|exact Y]. cbn [yield map]. rewrite map_app, Y. reflexivity. }
  assert (Lx : lex (unwords (bracketed ws0 ++ o :: if paren then bracketed (calls_compared f ws c g vs) else calls_compared f ws c g vs)) = Ok (yield T)).
  { rewrite <- Yr, <- (unwords_lex (yield T)).
    - do 2 f_equal. unfold T. cbn [yield]. rewrite <- Y0. unfold bracketed. cbn [map app text]. rewrite !map_app. reflexivity.
    - unfold T. cbn [yield]. apply Forall_app. split.
      + apply Forall_cons; [exact GL|]. apply Forall_app. split; [exact G0|]. apply Forall_cons; [exact GR|apply Forall_nil].
      + apply Forall_cons; [exact Go|]. unfold r. destruct paren; [|exact G]. cbn [yield]. apply Forall_cons; [exact GL|]. apply Forall_app. split; [exact G|]. apply Forall_cons; [exact GR|apply Forall_nil]. }
  assert (RT : reads 0 T eof).
  { eapply r_bin; [exact Ko|apply connective_level, Ko|lia|apply r_paren, R0, open_rparen|]. unfold r. destruct paren; [apply r_paren|]; apply R; lia. }
  destruct (walk_regular dflt Nothing t0 Rg0 m (LState [] None 0) G0 (D0 dflt)) as [m' [st1 [Wk1 [St1 [_ K1]]]]]; [constructor|reflexivity|].
  destruct (W dflt st1) as [lt [tc Wk2]].
  assert (Wr : walk dflt r st1 = Ok (LState (NCmp (NFunc fn ms) (NFunc gn ns) q dt :: NFunc gn ns :: NFunc fn ms :: stack st1) lt tc)) by (unfold r; destruct paren; exact Wk2).
  unfold evaluate_boolean, parse_expression. rewrite Lx. cbn [bind]. rewrite (parse_any_complete T RT). cbn [bind].
  unfold listen, T. cbn [walk]. rewrite Wk1. cbn [bind]. rewrite Wr. cbn [bind]. unfold exit_binary. cbn [stack bind exit_parse kind]. rewrite Lo.
  destruct op; [reflexivity|reflexivity|]. exfalso. unfold connectives in I. cbn [In] in I. decompose [or] I; try discriminate; contradiction.
Qed.

Lemma calls_first E d dflt s ws2 n o op f fn ws ms c q g gn vs ns : In (f, fn) function_names -> listed ws ms -> In (c, q) comparators -> In (g, gn) function_names -> listed vs ns ->
  In (o, op) connectives -> written Logic s ws2 n ->
  evaluate_boolean E (unwords (bracketed (calls_compared f ws c g vs) ++ o :: bracketed ws2)) d dflt =
    bool_eval E d (NBool (NCmp (NFunc fn ms) (NFunc gn ns) q STRING) (Some n) op).
Proof.
  intros If L C Ig K I W0.
  destruct (calls_tree f fn ws ms c q g gn vs ns If L C Ig K) as [t [dt [Y [G [R W]]]]].
  destruct (written_good _ _ _ _ W0) as [t0 [Y0 [G0 [R0 [Rg0 [S0 D0]]]]]]. destruct (connective_token _ _ I) as [ko [Go [Ko Lo]]].
  pose proof lparen_genuine as GL. pose proof rparen_genuine as GR. set (T := PBin (PParen t) (Tok ko o) (PParen t0)).
  assert (Lx : lex (unwords (bracketed (calls_compared f ws c g vs) ++ o :: bracketed ws2)) = Ok (yield T)).
  { rewrite <- (unwords_lex (yield T)).
    - do 2 f_equal. unfold T. cbn [yield]. rewrite <- Y0, <- Y. unfold bracketed. cbn [map app text]. rewrite !map_app. cbn [map app text]. rewrite map_app. reflexivity.
    - unfold T. cbn [yield]. apply Forall_app. split.
      + apply Forall_cons; [exact GL|]. apply Forall_app. split; [exact G|]. apply Forall_cons; [exact GR|apply Forall_nil].
      + apply Forall_cons; [exact Go|]. apply Forall_cons; [exact GL|]. apply Forall_app. split; [exact G0|]. apply Forall_cons; [exact GR|apply Forall_nil]. }
  assert (RT : reads 0 T eof).
  { eapply r_bin; [exact Ko|apply connective_level, Ko|lia|apply r_paren, R; lia|apply r_paren, R0, open_rparen]. }
  destruct (W dflt (LState [] None 0)) as [lt [tc Wk1]].
  destruct (walk_regular dflt Logic t0 Rg0 n (LState [NCmp (NFunc fn ms) (NFunc gn ns) q dt; NFunc gn ns; NFunc fn ms] lt tc) G0 (D0 dflt)) as [n' [st2 [Wk2 [St2 [Dn K2]]]]];
    [repeat (apply Forall_cons; [discriminate|]); apply Forall_nil|reflexivity|].
  unfold evaluate_boolean, parse_expression. rewrite Lx. cbn [bind]. rewrite (parse_any_complete T RT). cbn [bind].
  unfold listen, T. cbn [walk]. rewrite Wk1. cbn [bind stack]. rewrite Wk2. cbn [bind]. unfold exit_binary. rewrite St2. cbn [stack bind exit_parse kind]. rewrite Lo.
  cbn [bool_eval]. rewrite (proj1 (denotes_same E d dflt t0 n' n Dn (D0 dflt))). reflexivity.
Qed.
Lemma calls_before E d dflt s ws2 n o op f fn ws ms c q g gn vs ns : In (f, fn) function_names -> listed ws ms -> In (c, q) comparators -> In (g, gn) function_names -> listed vs ns ->
  In (o, op) connectives -> written Logic s ws2 n ->
  evaluate_boolean E (unwords (bracketed (calls_compared f ws c g vs) ++ o :: bracketed ws2)) d dflt =
    match op with
    | AND => b <- evaluate_boolean E (unwords (calls_compared f ws c g vs)) d dflt ;; if b then bool_eval E d n else Ok false
    | OR => b <- evaluate_boolean E (unwords (calls_compared f ws c g vs)) d dflt ;; if b then Ok true else bool_eval E d n
    | NOT => Err InvalidExpression
    end.
Proof.
  intros If L C Ig K I W. rewrite (calls_first E d dflt s ws2 n o op f fn ws ms c q g gn vs ns), (two_calls E d dflt f fn ws ms c q g gn vs ns) by assumption.
  cbn [bool_eval]. destruct op; try reflexivity; try (destruct (bool_eval E d (NCmp _ _ _ _)) as [[|]|]; reflexivity).
  exfalso. unfold connectives in I. cbn [In] in I. decompose [or] I; try discriminate; contradiction.
Qed.
