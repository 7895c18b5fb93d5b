(** Consequences for texts: composition, precedence, and the expressions that are mishandled. *)
From Coq Require Import QArith.
From Verif Require Import RecoverFacts.
From Verif Require Import Base JNum BigDec Dates Values Ops Funcs Ast Eval Lexer Grammar Listener Api SpecBool SpecCompare SpecPath SpecArith SpecLex SpecDate
  SpecGrammar SpecSyntax SpecText NumFacts CacheFacts BoolFacts CompareFacts ValuesFacts FieldFacts LexFacts LexSplit LexWords LexApi LexCases SyntaxFacts ParseFuel ParseFacts
  ParseShapes ListenFacts TextFacts CompareWitness.
Local Open Scope nat_scope.

(** ** Composition *)
Lemma written_first b s ws n : written b s ws n -> written Nothing s ws n.
Proof. induction 1; try (econstructor; eauto; fail). apply w_negation; [discriminate|assumption]. Qed.

Lemma compose_connect E d dflt s1 s2 ws1 o op ws2 m n : written Nothing s1 ws1 m -> In (o, op) connectives -> written s1 s2 ws2 n ->
  evaluate_boolean E (unwords (bracketed ws1 ++ o :: bracketed ws2)) d dflt =
    match op with
    | AND => b <- evaluate_boolean E (unwords ws1) d dflt ;; if b then evaluate_boolean E (unwords ws2) d dflt else Ok false
    | OR => b <- evaluate_boolean E (unwords ws1) d dflt ;; if b then Ok true else evaluate_boolean E (unwords ws2) d dflt
    | NOT => Err InvalidExpression
    end.
Proof.
  intros W1 I W2. rewrite (written_boolean E d dflt Logic _ _ (w_connect Nothing s1 s2 ws1 o ws2 m op n W1 I W2)).
  rewrite (written_boolean E d dflt _ _ _ W1), (written_boolean E d dflt _ _ _ (written_first _ _ _ _ W2)).
  destruct op; [reflexivity|reflexivity|]. exfalso. unfold connectives in I. cbn [In] in I. decompose [or] I; try discriminate; contradiction.
Qed.
Lemma compose_not E d dflt s no ws n : In no not_words -> written Nothing s ws n ->
  evaluate_boolean E (unwords (no :: bracketed ws)) d dflt = (b <- evaluate_boolean E (unwords ws) d dflt ;; Ok (negb b)).
Proof.
  intros I W. rewrite (written_boolean E d dflt Logic _ _ (w_not Nothing s no ws n I W)), (written_boolean E d dflt _ _ _ W). reflexivity.
Qed.
Lemma compose_paren E d dflt s ws n : written Nothing s ws n ->
  evaluate_boolean E (unwords (bracketed ws)) d dflt = evaluate_boolean E (unwords ws) d dflt /\ evaluate_arith E (unwords (bracketed ws)) d = evaluate_arith E (unwords ws) d.
Proof.
  intros W. pose proof (w_paren _ _ _ _ W) as P. rewrite (written_boolean E d dflt _ _ _ W), (written_boolean E d dflt _ _ _ P), (written_arith E d _ _ _ W), (written_arith E d _ _ _ P). auto.
Qed.
Lemma compose_arith E d s1 s2 ws1 o op ws2 m n v w : written Nothing s1 ws1 m -> In (o, op) arithmetic_symbols -> written s1 s2 ws2 n ->
  evaluate_arith E (unwords ws1) d = Ok v -> evaluate_arith E (unwords ws2) d = Ok w ->
  evaluate_arith E (unwords (bracketed ws1 ++ o :: bracketed ws2)) d = arith_eval E d (bin (lit v) op (lit w)).
Proof.
  intros W1 I W2. rewrite (written_arith E d Arithmetic _ _ (w_arith_both Nothing s1 s2 ws1 o ws2 m op n W1 I W2)).
  rewrite (written_arith E d _ _ _ W1), (written_arith E d _ _ _ (written_first _ _ _ _ W2)). intros V W. unfold bin, lit. cbn [arith_eval]. rewrite V, W. reflexivity.
Qed.

(** ** Precedence *)
Lemma text_tree ts t : yield t = ts -> Forall genuine ts -> lex (unwords (map text ts)) = Ok (yield t).
Proof. intros <- G. apply unwords_lex, G. Qed.
Lemma symbol_level o op : In (o, op) arithmetic_symbols -> exists k, genuine (Tok k o) /\ arithmetic_op k /\ level k = Some (tightness op).
Proof. intros I. destruct (arithmetic_token o op I) as [k [G [A O]]]. exists k. split; [exact G|]. split; [exact A|]. subst op. cbn in A. decompose [or] A; subst; try contradiction; reflexivity. Qed.
Lemma operand_words x m : operand x m -> exists k, genuine (Tok k x) /\ operand_kind k.
Proof. intros O. destruct (operand_token x m O) as [k [G [K _]]]. eauto. Qed.
Ltac genuines := repeat (apply Forall_cons; [assumption|]); apply Forall_nil.

Lemma arithmetic_grouping E d x y z m n p o1 o2 op1 op2 : operand x m -> operand y n -> operand z p ->
  In (o1, op1) arithmetic_symbols -> In (o2, op2) arithmetic_symbols ->
  evaluate_arith E (unwords [x; o1; y; o2; z]) d =
    if tightness op1 <? tightness op2 then evaluate_arith E (unwords (x :: o1 :: bracketed [y; o2; z])) d
    else evaluate_arith E (unwords (bracketed [x; o1; y] ++ [o2; z])) d.
Proof.
  intros X Y Z I1 I2. destruct (operand_words _ _ X) as [kx [Gx Kx]]. destruct (operand_words _ _ Y) as [ky [Gy Ky]]. destruct (operand_words _ _ Z) as [kz [Gz Kz]].
  destruct (symbol_level _ _ I1) as [k1 [G1 [A1 L1]]]. destruct (symbol_level _ _ I2) as [k2 [G2 [A2 L2]]].
  destruct (Nat.ltb_spec (tightness op1) (tightness op2)) as [T|T].
  - rewrite (written_arith E d _ _ _ (w_arith_right Nothing Arithmetic x o1 _ m op1 _ X I1 (w_arith Nothing y o2 z n op2 p Y I2 Z))).
    apply (meaning_arith E _ (PArith (PTypes (Tok kx x)) (Tok k1 o1) (PArith (PTypes (Tok ky y)) (Tok k2 o2) (PTypes (Tok kz z))))).
    + apply (text_tree [Tok kx x; Tok k1 o1; Tok ky y; Tok k2 o2; Tok kz z]); [reflexivity|genuines].
    + eapply r_arith; [exact A1|exact L1|lia|apply r_operand; exact Kx|]. eapply r_arith; [exact A2|exact L2|lia|apply r_operand; exact Ky|apply r_operand; exact Kz].
    + apply g_arith_right; [reflexivity|]. apply g_arith_plain; reflexivity.
    + repeat (constructor; try assumption).
  - rewrite (written_arith E d _ _ _ (w_arith_left Nothing Arithmetic _ o2 z _ op2 p (w_arith Nothing x o1 y m op1 n X I1 Y) I2 Z)).
    apply (meaning_arith E _ (PArith (PArith (PTypes (Tok kx x)) (Tok k1 o1) (PTypes (Tok ky y))) (Tok k2 o2) (PTypes (Tok kz z)))).
    + apply (text_tree [Tok kx x; Tok k1 o1; Tok ky y; Tok k2 o2; Tok kz z]); [reflexivity|genuines].
    + eapply r_arith; [exact A2|exact L2|lia| |apply r_operand; exact Kz]. eapply r_arith; [exact A1|exact L1|lia|apply r_operand; exact Kx|apply r_operand; exact Ky].
    + apply g_arith_left; [|reflexivity]. apply g_arith_plain; reflexivity.
    + repeat (constructor; try assumption).
Qed.

(** three comparisons joined by two connectives *)
Lemma connective_grouping E d dflt x1 o1 y1 x2 o2 y2 x3 o3 y3 m1 n1 m2 n2 m3 n3 p1 p2 p3 c1 c2 q1 q2 :
  operand x1 m1 -> operand y1 n1 -> operand x2 m2 -> operand y2 n2 -> operand x3 m3 -> operand y3 n3 ->
  In (o1, p1) comparators -> In (o2, p2) comparators -> In (o3, p3) comparators -> In (c1, q1) connectives -> In (c2, q2) connectives ->
  evaluate_boolean E (unwords [x1; o1; y1; c1; x2; o2; y2; c2; x3; o3; y3]) d dflt =
  evaluate_boolean E (unwords (bracketed (bracketed [x1; o1; y1] ++ c1 :: bracketed [x2; o2; y2]) ++ c2 :: bracketed [x3; o3; y3])) d dflt.
Proof.
  intros X1 Y1 X2 Y2 X3 Y3 O1 O2 O3 C1 C2.
  destruct (operand_words _ _ X1) as [a1 [Ga1 Ka1]]. destruct (operand_words _ _ Y1) as [b1 [Gb1 Kb1]].
  destruct (operand_words _ _ X2) as [a2 [Ga2 Ka2]]. destruct (operand_words _ _ Y2) as [b2 [Gb2 Kb2]].
  destruct (operand_words _ _ X3) as [a3 [Ga3 Ka3]]. destruct (operand_words _ _ Y3) as [b3 [Gb3 Kb3]].
  destruct (comparator_genuine _ _ O1) as [k1 [Gk1 Kk1]]. destruct (comparator_genuine _ _ O2) as [k2 [Gk2 Kk2]]. destruct (comparator_genuine _ _ O3) as [k3 [Gk3 Kk3]].
  destruct (connective_token _ _ C1) as [l1 [Gl1 [Kl1 _]]]. destruct (connective_token _ _ C2) as [l2 [Gl2 [Kl2 _]]].
  assert (W : written Nothing Logic (bracketed (bracketed [x1; o1; y1] ++ c1 :: bracketed [x2; o2; y2]) ++ c2 :: bracketed [x3; o3; y3])
    (NBool (NBool (NCmp m1 n1 p1 STRING) (Some (NCmp m2 n2 p2 STRING)) q1) (Some (NCmp m3 n3 p3 STRING)) q2)).
  { eapply w_connect; [eapply w_connect; [| |]| |]; try eassumption; apply w_compare; auto. }
  rewrite (written_boolean E d dflt _ _ _ W).
  apply (meaning_boolean E _ (PBin (PBin (PCmp (PTypes (Tok a1 x1)) (Tok k1 o1) (PTypes (Tok b1 y1))) (Tok l1 c1) (PCmp (PTypes (Tok a2 x2)) (Tok k2 o2) (PTypes (Tok b2 y2))))
     (Tok l2 c2) (PCmp (PTypes (Tok a3 x3)) (Tok k3 o3) (PTypes (Tok b3 y3))))).
  - apply (text_tree [Tok a1 x1; Tok k1 o1; Tok b1 y1; Tok l1 c1; Tok a2 x2; Tok k2 o2; Tok b2 y2; Tok l2 c2; Tok a3 x3; Tok k3 o3; Tok b3 y3]); [reflexivity|genuines].
  - assert (RC : forall a x k o b y n next, operand_kind a -> comparator k -> operand_kind b -> n <= 9 -> reads n (PCmp (PTypes (Tok a x)) (Tok k o) (PTypes (Tok b y))) next).
    { intros a x k o b y n next A K B L. eapply r_cmp; [exact K|apply comparator_level9, K|exact L|apply r_operand; exact A|apply r_operand; exact B]. }
    eapply r_bin; [exact Kl2|apply connective_level, Kl2|lia| |apply RC; try assumption; lia]. eapply r_bin; [exact Kl1|apply connective_level, Kl1|lia|apply RC; try assumption; lia|apply RC; try assumption; lia].
  - apply g_bin; [apply g_bin|]; apply g_cmp_plain; auto.
  - repeat (constructor; try assumption).
Qed.

(** a sum on the left of a comparison *)
Lemma sum_compared E d dflt x y z m n p o c op1 op2 : operand x m -> operand y n -> operand z p ->
  In (o, op1) arithmetic_symbols -> In (c, op2) comparators -> evaluate_boolean E (unwords [x; o; y; c; z]) d dflt = Ok false.
Proof.
  intros X Y Z I1 I2. destruct (operand_words _ _ X) as [kx [Gx Kx]]. destruct (operand_words _ _ Y) as [ky [Gy Ky]]. destruct (operand_words _ _ Z) as [kz [Gz Kz]].
  destruct (symbol_level _ _ I1) as [k1 [G1 [A1 L1]]]. destruct (comparator_genuine _ _ I2) as [k2 [G2 A2]].
  apply (meaning_boolean E _ (PArith (PTypes (Tok kx x)) (Tok k1 o) (PCmp (PTypes (Tok ky y)) (Tok k2 c) (PTypes (Tok kz z)))) (NArith m (Some (NCmp n p op2 STRING)) op1)).
  - apply (text_tree [Tok kx x; Tok k1 o; Tok ky y; Tok k2 c; Tok kz z]); [reflexivity|genuines].
  - eapply r_arith; [exact A1|exact L1|lia|apply r_operand; exact Kx|].
    eapply r_cmp; [exact A2|apply comparator_level9, A2| |apply r_operand; exact Ky|apply r_operand; exact Kz].
    clear -I1. unfold arithmetic_symbols in I1. table_tac I1; cbn; lia.
  - apply g_arith_right; [reflexivity|]. apply g_cmp_plain; auto.
  - repeat (constructor; try assumption).
Qed.

(** ** A comparison directly after a membership condition *)
Definition pushes (s : sort) (t : ptree) : Prop :=
  forall dflt, exists n' st, walk dflt t (LState [] None 0) = Ok st /\ stack st = [n'] /\ node_sort n' = s.
Lemma walk_pushed s ws n : written Nothing s ws n -> exists t, map text (yield t) = ws /\ Forall genuine (yield t) /\ (forall next, open next -> reads 0 t next) /\ sort_of t = s /\ pushes s t.
Proof.
  intros W. destruct (written_good _ _ _ _ W) as [t G]. pose proof G as [Y [Gn [R [Rg [S D]]]]]. exists t. split; [exact Y|]. split; [exact Gn|].
  split; [exact R|]. split; [exact S|]. intros dflt.
  destruct (walk_regular dflt Nothing t Rg n (LState [] None 0) Gn (D dflt)) as [n' [st [Wk [St [_ K]]]]]; [constructor|reflexivity|].
  exists n', st. split; [exact Wk|]. split; [exact St|congruence].
Qed.
Lemma member_everywhere t : sort_of t = Member \/ sort_of t = Function -> (forall next, open next -> reads 0 t next) -> everywhere t.
Proof.
  intros S R m next. specialize (R eof open_eof). destruct t; try (destruct S; discriminate); inversion R; subst; constructor; assumption.
Qed.
Lemma steal_tree E d dflt s t o op x c q y m n (paren : bool) : s = Member \/ s = Function \/ s = Arithmetic -> Forall genuine (yield t) -> everywhere t -> pushes s t ->
  In (o, op) connectives -> operand x m -> In (c, q) comparators -> operand y n ->
  evaluate_boolean E (unwords (map text (yield t) ++ o :: if paren then bracketed [x; c; y] else [x; c; y])) d dflt = Err InvalidExpression.
Proof.
  intros B G R P I X C Y. destruct (P dflt) as [n' [st [Wk [St K]]]].
  destruct (operand_token _ _ X) as [kx [Gx [Kx Mx]]]. destruct (operand_words _ _ Y) as [ky [Gy Ky]].
  destruct (comparator_genuine _ _ C) as [kc [Gc Kc]]. destruct (connective_token _ _ I) as [ko [Go [Ko _]]].
  set (cmp := PCmp (PTypes (Tok kx x)) (Tok kc c) (PTypes (Tok ky y))). set (r := if paren then PParen cmp else cmp). set (T := PBin t (Tok ko o) r).
  pose proof lparen_genuine as GL. pose proof rparen_genuine as GR.
  assert (L : lex (unwords (map text (yield t) ++ o :: if paren then bracketed [x; c; y] else [x; c; y])) = Ok (yield T)).
  { rewrite <- (unwords_lex (yield T)).
    - do 2 f_equal. unfold T. cbn [yield]. rewrite map_app. destruct paren; reflexivity.
    - unfold T. cbn [yield]. apply Forall_app. split; [exact G|]. apply Forall_cons; [exact Go|]. unfold r. destruct paren; cbn [yield cmp app]; genuines. }
  assert (RC : forall n next, n <= 9 -> reads n cmp next).
  { intros k next Le. eapply r_cmp; [exact Kc|apply comparator_level9, Kc|exact Le|apply r_operand; exact Kx|apply r_operand; exact Ky]. }
  assert (RT : reads 0 T eof).
  { eapply r_bin; [exact Ko|apply connective_level, Ko|lia|apply R|]. unfold r. destruct paren; [apply r_paren|]; apply RC; lia. }
  assert (WR : exists st', walk dflt r st = Ok st' /\ exists k, stack st' = [k]).
  { assert (walk dflt r st = walk dflt cmp st) as -> by (unfold r; destruct paren; reflexivity).
    unfold cmp. cbn [walk]. unfold push_context. cbn [exit_types stack bind]. rewrite St. cbn [map_context as_types].
    rewrite (steals_fit (PTypes (Tok kx x)) (PTypes (Tok ky y)) n' []).
    - rewrite (Mx dflt). cbn [bind pop fst snd]. eexists. split; [reflexivity|]. eexists. reflexivity.
    - destruct B as [-> | [-> | ->]]; congruence.
    - right. right. destruct B as [-> | [-> | ->]]; congruence. }
  destruct WR as [st' [Wr [k Sk]]].
  unfold evaluate_boolean, parse_expression. rewrite L. cbn [bind]. rewrite (parse_any_complete T RT). cbn [bind].
  unfold listen, T. cbn [walk]. rewrite Wk. cbn [bind]. rewrite Wr. cbn [bind]. unfold exit_binary. rewrite Sk. reflexivity.
Qed.
Lemma comparison_steals E d dflt s ws w o op x c q y m n : written Nothing s ws w -> s = Member \/ s = Function \/ s = Arithmetic ->
  In (o, op) connectives -> operand x m -> In (c, q) comparators -> operand y n ->
  evaluate_boolean E (unwords (bracketed ws ++ o :: bracketed [x; c; y])) d dflt = Err InvalidExpression.
Proof.
  intros W B I X C Y. destruct (walk_pushed _ _ _ W) as [t [Yt [G [R [S P]]]]].
  assert (bracketed ws = map text (yield (PParen t))) as -> by (cbn [yield map]; rewrite map_app, Yt; reflexivity).
  apply (steal_tree E d dflt s (PParen t) o op x c q y m n true); try assumption.
  - cbn [yield]. apply Forall_cons; [exact lparen_genuine|]. apply Forall_app. split; [exact G|]. apply Forall_cons; [exact rparen_genuine|apply Forall_nil].
  - intros k next. apply r_paren. apply R, open_rparen.
Qed.
Lemma comparison_steals_bare E d dflt s ws w o op x c q y m n : written Nothing s ws w -> s = Member \/ s = Function ->
  In (o, op) connectives -> operand x m -> In (c, q) comparators -> operand y n ->
  evaluate_boolean E (unwords (ws ++ [o; x; c; y])) d dflt = Err InvalidExpression.
Proof.
  intros W B I X C Y. destruct (walk_pushed _ _ _ W) as [t [Yt [G [R [S P]]]]]. rewrite <- Yt.
  apply (steal_tree E d dflt s t o op x c q y m n false); try assumption; [tauto|]. apply member_everywhere; [rewrite S; exact B|exact R].
Qed.
(** the other order, without parentheses *)
Lemma membership_second E d dflt s ws w o op x c q y m n : written Logic s ws w -> s = Member ->
  In (o, op) connectives -> operand x m -> In (c, q) comparators -> operand y n ->
  evaluate_boolean E (unwords ([x; c; y; o] ++ ws)) d dflt = evaluate_boolean E (unwords (bracketed [x; c; y] ++ o :: bracketed ws)) d dflt.
Proof.
  intros W B I X C Y. assert (Wc : written Nothing Logic [x; c; y] (NCmp m n q STRING)) by (apply w_compare; auto).
  rewrite (written_boolean E d dflt _ _ _ (w_connect _ _ _ _ _ _ _ _ _ Wc I W)).
  destruct (written_good _ _ _ _ W) as [t [Yt [G [R [Rg [S D]]]]]].
  destruct (operand_words _ _ X) as [kx [Gx Kx]]. destruct (operand_words _ _ Y) as [ky [Gy Ky]].
  destruct (comparator_genuine _ _ C) as [kc [Gc Kc]]. destruct (connective_token _ _ I) as [ko [Go [Ko _]]].
  apply (meaning_boolean E _ (PBin (PCmp (PTypes (Tok kx x)) (Tok kc c) (PTypes (Tok ky y))) (Tok ko o) t)).
  - rewrite <- Yt. apply (text_tree (Tok kx x :: Tok kc c :: Tok ky y :: Tok ko o :: yield t)); [reflexivity|]. repeat (apply Forall_cons; [assumption|]). exact G.
  - eapply r_bin; [exact Ko|apply connective_level, Ko|lia| |apply member_everywhere; [left; congruence|exact R]].
    eapply r_cmp; [exact Kc|apply comparator_level9, Kc|lia|apply r_operand; exact Kx|apply r_operand; exact Ky].
  - apply g_bin; [apply g_cmp_plain; auto|exact Rg].
  - repeat (constructor; try assumption). apply D.
Qed.
