(** Conditions with computed elements: alone, first in a row, and later in a row. *)
From Verif Require Import RecoverFacts.
From Verif Require Import Base Values Ops Funcs Ast Eval Lexer Grammar Listener Api SpecLex SpecGrammar SpecSyntax SpecText SpecChain SpecElements
  LexFacts LexSplit LexWords SyntaxFacts ParseFacts ListenFacts TextFacts TextApi ChainFacts ChainText ListText ElementFacts.
Local Open Scope nat_scope.

(** What handling a condition with computed elements does to the stack. *)
Definition leaves (wss : list (list jstr)) (s : sort) (n : node) (t : ptree) : Prop :=
  forall dflt st, exists n' junk st', walk dflt t st = Ok st' /\ stack st' = n' :: junk ++ stack st /\ Forall silent junk /\ (compound wss -> junk <> []) /\
    denotes dflt t n' /\ node_sort n' = s.
Definition laden_tree (s : sort) (wss : list (list jstr)) (ws : list jstr) (n : node) (t : ptree) : Prop :=
  built ws n t /\ sort_of t = s /\ s <> Nothing /\ (forall k next, k <= 9 -> open next -> reads k t next) /\ leaves wss s n t.

Lemma call_tree f fn wss ns : In (f, fn) function_names -> wss <> [] -> element_list wss ns -> exists t, built (f :: bracketed (listing wss)) (NFunc fn ns) t /\ everywhere t /\
  (forall dflt, as_types dflt t = None) /\ is_parent t = false /\
  forall dflt st, exists junk lt tc, walk dflt t st = Ok (LState (NFunc fn ns :: junk ++ stack st) lt tc) /\ Forall silent junk /\ (compound wss -> junk <> []) /\
    (forall before ws0 us nsb n0 nsu, wss = before ++ ws0 :: map (fun w => [w]) us -> ns = nsb ++ n0 :: nsu -> length before = length nsb -> length ws0 <> 1 -> exists j, junk = n0 :: j).
Proof.
  intros I N L. destruct (proj2 element_trees _ _ L) as [ts [Y [G [R [_ [_ [S0 [D W]]]]]]]]. destruct (function_token f fn I) as [kf [Gf [Kf _]]]. exists (PFunc (Tok kf f) ts).
  assert (Sf : simple (PFunc (Tok kf f) ts)) by (constructor; exact S0).
  assert (Gt : Forall genuine (yield (PFunc (Tok kf f) ts))) by (rewrite yield_func; apply (list_end [Tok kf f]); [constructor; [exact Gf|constructor]|exact G]).
  assert (Df : forall dflt, denotes dflt (PFunc (Tok kf f) ts) (NFunc fn ns)) by (intros; apply d_func; [exact I|apply D]).
  split; [split; [|split; [exact Gt|exact Df]]|]. { rewrite yield_func. cbn [map text]. rewrite map_app, Y. reflexivity. }
  split; [intros m next; apply r_func; [exact Kf|apply R, N]|]. split; [reflexivity|]. split; [reflexivity|]. intros dflt st.
  destruct (proj1 (simple_walk dflt) _ Sf _ Gt (Df dflt)) as [M _]. destruct (W dflt st) as [junk [lt [tc [E [F [C [H _]]]]]]]. exists junk, lt, tc.
  split; [rewrite walk_func, E; cbn [bind]; unfold push_context; rewrite M; reflexivity|]. auto.
Qed.

Lemma laden_trees s wss ws n : laden s wss ws n -> exists t, laden_tree s wss ws n t.
Proof.
  induction 1 as [f fn wss ns o op y n dt If N L Io Oy|f fn wss ns o op y n dt Oy Io If N L|f i wss ns F Ii N L|f no i wss ns F In_ Ii N L|f c op wss ns F Ic N L|s wss ws n L IH|s wss no ws n Ino L IH].
  - destruct (call_tree f fn wss ns If N L) as [t [[Y1 [G1 D1]] [R1 [T1 [P1 W1]]]]]. destruct (operand_good _ _ Oy) as [r [P2 [Y2 [G2 [R2 D2]]]]].
    destruct (comparator_genuine o op Io) as [k [G C]]. exists (PCmp t (Tok k o) r). assert (Gt : Forall genuine (yield (PCmp t (Tok k o) r))) by (apply infix_genuine; assumption).
    split; [split; [apply (infix_yield t (Tok k o) r _ [y]); assumption|split; [exact Gt|intros dflt; constructor; auto]]|split; [reflexivity|split; [discriminate|split]]].
    + intros k' next K _. eapply r_cmp; [exact C|apply comparator_level9, C|exact K|apply R1|apply R2].
    + intros dflt st. destruct (W1 dflt st) as [junk [lt [tc [E [F [Cj _]]]]]]. destruct (plain_walk dflt r (LState (NFunc fn ns :: junk ++ stack st) lt tc) P2) as [lt' [tc' Wr]].
      destruct (plain_types dflt r n P2 G2 (D2 dflt)) as [Ar Mr]. destruct (comparator_kind k o op G Io) as [_ Oo].
      eexists _, junk, _. split; [|split; [|split; [exact F|split; [exact Cj|split]]]].
      * cbn [walk]. rewrite E. cbn [bind]. rewrite Wr. cbn [bind]. unfold push_context. cbn [map_context stack].
        rewrite steals_fit; [|discriminate|right; right; discriminate]. rewrite T1, Ar. cbn [bind pop fst snd kind]. rewrite Oo. reflexivity.
      * reflexivity.
      * constructor; auto.
      * reflexivity.
  - destruct (call_tree f fn wss ns If N L) as [t [[Y1 [G1 D1]] [R1 [T1 [P1 W1]]]]]. destruct (operand_good _ _ Oy) as [l [P2 [Y2 [G2 [R2 D2]]]]].
    destruct (comparator_genuine o op Io) as [k [G C]]. exists (PCmp l (Tok k o) t). assert (Gt : Forall genuine (yield (PCmp l (Tok k o) t))) by (apply infix_genuine; assumption).
    split; [split; [apply (infix_yield l (Tok k o) t [y] _); assumption|split; [exact Gt|intros dflt; constructor; auto]]|split; [reflexivity|split; [discriminate|split]]].
    + intros k' next K _. eapply r_cmp; [exact C|apply comparator_level9, C|exact K|apply R2|apply R1].
    + intros dflt st. destruct (plain_walk dflt l st P2) as [lt0 [tc0 Wl]]. destruct (W1 dflt (LState (stack st) lt0 tc0)) as [junk [lt [tc [E [F [Cj _]]]]]].
      destruct (plain_types dflt l n P2 G2 (D2 dflt)) as [Al Ml]. destruct (comparator_kind k o op G Io) as [_ Oo].
      eexists _, junk, _. split; [|split; [|split; [exact F|split; [exact Cj|split]]]].
      * cbn [walk]. rewrite Wl. cbn [bind]. rewrite E. cbn [bind stack]. unfold push_context. cbn [map_context stack].
        rewrite steals_fit; [|discriminate|right; right; discriminate]. rewrite Al. cbn [bind pop fst snd kind]. rewrite Oo. reflexivity.
      * reflexivity.
      * constructor; auto.
      * reflexivity.
  - destruct (proj2 element_trees _ _ L) as [ts [Y [G [R [_ [_ [S0 [D W]]]]]]]]. exists (PIn (Tok T_FIELD f) None (Tok T_IN i) ts). pose proof (in_genuine i Ii) as Gi.
    assert (Ev : everywhere (PIn (Tok T_FIELD f) None (Tok T_IN i) ts)) by (intros m next; apply r_in; try reflexivity; apply R, N).
    split; [split; [|split]|split; [reflexivity|split; [discriminate|split; [intros; apply Ev|]]]].
    + rewrite yield_in. cbn [app map text]. do 2 f_equal. rewrite map_app, Y. reflexivity.
    + rewrite yield_in. apply (list_end [Tok T_FIELD f; Tok T_IN i]); [|exact G]. repeat (apply Forall_cons); try apply Forall_nil; [apply field_genuine, F|exact Gi].
    + intros dflt. apply (d_in dflt (Tok T_FIELD f)); [exact F|apply D].
    + intros dflt st. destruct (proj2 (simple_walk dflt) ts S0 ns G (D dflt)) as [M _]. destruct (W dflt st) as [junk [lt [tc [E [Fj [Cj _]]]]]].
      eexists _, junk, _. split; [|split; [|split; [exact Fj|split; [exact Cj|split]]]].
      * rewrite walk_in, E. cbn [bind]. unfold push_context. rewrite context_in. rewrite (named_ok dflt (Tok T_FIELD f) F). cbn [bind stack]. rewrite M. reflexivity.
      * reflexivity.
      * apply (d_in dflt (Tok T_FIELD f)); [exact F|apply D].
      * reflexivity.
  - destruct (proj2 element_trees _ _ L) as [ts [Y [G [R [_ [_ [S0 [D W]]]]]]]]. exists (PIn (Tok T_FIELD f) (Some (Tok T_NOT no)) (Tok T_IN i) ts).
    pose proof (in_genuine i Ii) as Gi. pose proof (not_genuine no In_) as Gn.
    assert (Ev : everywhere (PIn (Tok T_FIELD f) (Some (Tok T_NOT no)) (Tok T_IN i) ts)) by (intros m next; apply r_not_in; try reflexivity; apply R, N).
    split; [split; [|split]|split; [reflexivity|split; [discriminate|split; [intros; apply Ev|]]]].
    + rewrite yield_in. cbn [app map text]. do 3 f_equal. rewrite map_app, Y. reflexivity.
    + rewrite yield_in. apply (list_end [Tok T_FIELD f; Tok T_NOT no; Tok T_IN i]); [|exact G]. repeat (apply Forall_cons); try apply Forall_nil; [apply field_genuine, F|exact Gn|exact Gi].
    + intros dflt. apply (d_not_in dflt (Tok T_FIELD f)); [exact F|apply D].
    + intros dflt st. destruct (proj2 (simple_walk dflt) ts S0 ns G (D dflt)) as [M _]. destruct (W dflt st) as [junk [lt [tc [E [Fj [Cj _]]]]]].
      eexists _, junk, _. split; [|split; [|split; [exact Fj|split; [exact Cj|split]]]].
      * rewrite walk_in, E. cbn [bind]. unfold push_context. rewrite context_in. rewrite (named_ok dflt (Tok T_FIELD f) F). cbn [bind stack]. rewrite M. reflexivity.
      * reflexivity.
      * apply (d_not_in dflt (Tok T_FIELD f)); [exact F|apply D].
      * reflexivity.
  - destruct (proj2 element_trees _ _ L) as [ts [Y [G [R [_ [_ [S0 [D W]]]]]]]]. destruct (array_token c op Ic) as [k [Gk [K _]]]. exists (PArray (Tok T_FIELD f) (Tok k c) ts).
    assert (Ev : everywhere (PArray (Tok T_FIELD f) (Tok k c) ts)) by (intros m next; apply r_array; try reflexivity; [exact K|apply R, N]).
    split; [split; [|split]|split; [reflexivity|split; [discriminate|split; [intros; apply Ev|]]]].
    + rewrite yield_array. cbn [app map text]. do 2 f_equal. rewrite map_app, Y. reflexivity.
    + rewrite yield_array. apply (list_end [Tok T_FIELD f; Tok k c]); [|exact G]. repeat (apply Forall_cons); try apply Forall_nil; [apply field_genuine, F|exact Gk].
    + intros dflt. apply (d_array dflt (Tok T_FIELD f)); [exact F|exact Ic|apply D].
    + intros dflt st. destruct (proj2 (simple_walk dflt) ts S0 ns G (D dflt)) as [M _]. destruct (W dflt st) as [junk [lt [tc [E [Fj [Cj _]]]]]]. destruct (array_kind k c op Gk Ic) as [_ Ao].
      eexists _, junk, _. split; [|split; [|split; [exact Fj|split; [exact Cj|split]]]].
      * rewrite walk_array, E. cbn [bind]. unfold exit_array. rewrite (named_ok dflt (Tok T_FIELD f) F). cbn [bind stack kind]. rewrite M, Ao. reflexivity.
      * reflexivity.
      * apply (d_array dflt (Tok T_FIELD f)); [exact F|exact Ic|apply D].
      * reflexivity.
  - destruct IH as [t [B [So [NS [R Lv]]]]]. exists (PParen t). assert (Ev : everywhere (PParen t)) by (intros m next; constructor; apply R; [lia|apply open_rparen]).
    split; [apply brackets_built, B|split; [exact So|split; [exact NS|split; [intros; apply Ev|]]]].
    intros dflt st. destruct (Lv dflt st) as [n' [junk [st' [W [S [F [Cj [Dn K]]]]]]]]. exists n', junk, st'. split; [exact W|]. split; [exact S|]. split; [exact F|]. split; [exact Cj|].
    split; [constructor; exact Dn|exact K].
  - destruct IH as [t [B [So [NS [R Lv]]]]]. assert (Ev : everywhere (PParen t)) by (intros m next; constructor; apply R; [lia|apply open_rparen]).
    destruct (brackets_built _ _ _ B) as [Y [G D]]. exists (PNot (Tok T_NOT no) (PParen t)).
    split; [split; [|split]|split; [reflexivity|split; [discriminate|split]]].
    + change (map text (yield (PNot (Tok T_NOT no) (PParen t)))) with (no :: map text (yield (PParen t))). rewrite Y. reflexivity.
    + constructor; [apply not_genuine, Ino|exact G].
    + intros dflt. constructor. apply D.
    + intros k next _ _. apply r_not; [reflexivity|apply Ev].
    + intros dflt st. destruct (Lv dflt st) as [n' [junk [st' [W [S [F [Cj [Dn K]]]]]]]]. eexists _, junk, _. split; [|split; [|split; [exact F|split; [exact Cj|split]]]].
      * cbn [walk]. rewrite W. cbn [bind]. unfold exit_not. rewrite S. reflexivity.
      * reflexivity.
      * constructor. constructor. exact Dn.
      * reflexivity.
Qed.

(** ** Rows *)
(** The text is read as the tree, and handling the tree gives a condition with this answer. *)
Definition settles (E : env) (d : data) (dflt : option jstr) (ws : list jstr) (r : res bool) : Prop := exists t n junk lt tc,
  map text (yield t) = ws /\ Forall genuine (yield t) /\ (forall k next, k <= 1 -> open next -> reads k t next) /\
  walk dflt t (LState [] None 0) = Ok (LState (n :: junk) lt tc) /\ clean (n :: junk) /\ node_sort n = Logic /\ bool_eval E d n = r.
Lemma settles_value E d dflt ws r : settles E d dflt ws r -> evaluate_boolean E (unwords ws) d dflt = r.
Proof.
  intros [t [n [junk [lt [tc [<- [G [R [W [_ [_ B]]]]]]]]]]]. unfold evaluate_boolean, parse_expression. rewrite (unwords_lex _ G). cbn [bind].
  rewrite (parse_any_complete t (R 0 eof (le_S _ _ (le_n 0)) open_eof)). cbn [bind]. unfold listen. rewrite W. cbn [bind exit_parse stack]. exact B.
Qed.
Lemma settles_join E d dflt ws1 r o op ws2 : settles E d dflt ws1 r -> In (o, op) connectives -> following ws2 ->
  settles E d dflt (ws1 ++ o :: ws2) (go_on (fun w => evaluate_boolean E (unwords w) d dflt) r (o, op, ws2)).
Proof.
  intros [t [n [junk [lt [tc [Y [G [R [W [C [K B]]]]]]]]]]] I [s [n2 C2]]. destruct (proj1 clause_trees _ _ _ _ C2) as [t2 [[[Y2 [G2 D2]] [Rg2 [So2 R2]]] _]].
  destruct (connective_token o op I) as [k [Gk [Ck _]]]. destruct (walk_regular dflt _ t2 Rg2 n2 (LState (n :: junk) lt tc) G2 (D2 dflt) C K) as [m [[st lt' tc'] [W2 [S2 [Dm Km]]]]].
  cbn [stack] in S2. subst st. destruct (connective_kind k o op Gk I) as [_ Oo].
  exists (PBin t (Tok k o) t2), (NBool n (Some m) op), junk, lt', tc'. split; [apply infix_yield; assumption|]. split; [apply infix_genuine; assumption|]. split.
  { intros k' next K' O. eapply r_bin; [exact Ck|apply connective_level, Ck|exact K'|apply R; [lia|apply open_connective, Ck]|apply R2; [lia|exact O]]. }
  split; [cbn [walk]; rewrite W; cbn [bind]; rewrite W2; cbn [bind]; unfold exit_binary; cbn [stack kind]; rewrite Oo; reflexivity|].
  split; [constructor; [discriminate|inversion C; assumption]|]. split; [reflexivity|].
  pose proof (passage_clause _ _ _ _ (proj1 passage_first_both _ _ _ _ C2)) as C'. cbn [go_on]. rewrite (proj1 (passage_value E d dflt _ _ _ C')).
  rewrite (proj1 (denotes_same E d dflt t2 n2 m (D2 dflt) Dm)). cbn [bool_eval]. rewrite B.
  destruct op; [destruct r as [[]|]; reflexivity|destruct r as [[]|]; reflexivity|].
  exfalso. unfold connectives in I. cbn [In] in I. decompose [or] I; try discriminate; contradiction.
Qed.
Lemma settles_chain E d dflt ws r rest : settles E d dflt ws r -> followers rest ->
  settles E d dflt (chained ws rest) (fold_left (go_on (fun w => evaluate_boolean E (unwords w) d dflt)) rest r).
Proof.
  intros C. induction rest as [|[[o op] w] rest IH] using rev_ind; intros F.
  - unfold chained. cbn [map concat fold_left]. rewrite app_nil_r. exact C.
  - apply Forall_app in F as [F1 F2]. destruct (Forall_inv F2) as [I Fw]. cbn [fst snd] in I, Fw.
    rewrite fold_left_app. cbn [fold_left]. unfold chained in *. rewrite map_app, concat_app. cbn [map concat fst snd]. rewrite app_nil_r, app_assoc.
    apply settles_join; [apply IH, F1|exact I|exact Fw].
Qed.

(** ** Alone and first *)
Lemma laden_alone E d dflt s wss ws n : laden s wss ws n -> evaluate_boolean E (unwords ws) d dflt = bool_eval E d n.
Proof.
  intros L. destruct (laden_trees _ _ _ _ L) as [t [[<- [G D]] [So [NS [R Lv]]]]]. destruct (Lv dflt (LState [] None 0)) as [m [junk [[st lt tc] [W [S [_ [_ [Dm _]]]]]]]].
  unfold evaluate_boolean, parse_expression. rewrite (unwords_lex _ G). cbn [bind].
  rewrite (parse_any_complete t (R 0 eof ltac:(lia) open_eof)). cbn [bind]. unfold listen. rewrite W. cbn [stack] in S. subst st. cbn [bind exit_parse stack].
  apply (denotes_same E d dflt t m n Dm (D dflt)).
Qed.
Lemma laden_settles E d dflt wss ws n : laden Logic wss ws n -> settles E d dflt ws (evaluate_boolean E (unwords ws) d dflt).
Proof.
  intros L. rewrite (laden_alone E d dflt _ _ _ _ L). destruct (laden_trees _ _ _ _ L) as [t [[Y [G D]] [So [NS [R Lv]]]]].
  destruct (Lv dflt (LState [] None 0)) as [m [junk [[st lt tc] [W [S [F [_ [Dm K]]]]]]]]. cbn [stack] in S. subst st. rewrite app_nil_r in W.
  exists t, m, junk, lt, tc. split; [exact Y|]. split; [exact G|]. split; [intros k next Kk O; apply R; [lia|exact O]|]. split; [exact W|].
  split; [constructor; [congruence|apply silent_clean, F]|]. split; [exact K|]. apply (denotes_same E d dflt t m n Dm (D dflt)).
Qed.
Lemma laden_first E d dflt wss ws n rest : laden Logic wss ws n -> followers rest ->
  evaluate_boolean E (unwords (chained ws rest)) d dflt =
  fold_left (go_on (fun w => evaluate_boolean E (unwords w) d dflt)) rest (evaluate_boolean E (unwords ws) d dflt).
Proof. intros L F. apply settles_value, settles_chain; [eapply laden_settles; exact L|exact F]. Qed.

(** ** Later *)
(** What stands before: a text, or a condition with computed elements. *)
Lemma before_walk ws1 m : (exists s, passage Nothing s ws1 m) \/ (exists s wss, laden s wss ws1 m) -> exists t, map text (yield t) = ws1 /\ Forall genuine (yield t) /\
  (forall k next, k <= 1 -> open next -> reads k t next) /\ forall dflt, exists st lt tc, walk dflt t (LState [] None 0) = Ok (LState st lt tc) /\ clean st.
Proof.
  intros [[s P]|[s [wss L]]].
  - destruct (proj2 clause_trees _ _ _ _ P) as [t [[Y [G D]] [Rg [So R]]]]. exists t. split; [exact Y|]. split; [exact G|]. split; [exact R|]. intros dflt.
    destruct (walk_regular dflt _ t Rg m (LState [] None 0) G (D dflt)) as [n [[st lt tc] [W [S [_ K]]]]]; [constructor|reflexivity|]. exists st, lt, tc. split; [exact W|].
    cbn [stack] in S. subst st. constructor; [|constructor]. destruct (regular_sort _ _ Rg) as [NS _]. congruence.
  - destruct (laden_trees _ _ _ _ L) as [t [[Y [G D]] [So [NS [R Lv]]]]]. exists t. split; [exact Y|]. split; [exact G|]. split; [intros k next K O; apply R; [lia|exact O]|]. intros dflt.
    destruct (Lv dflt (LState [] None 0)) as [n [junk [[st lt tc] [W [S [F [_ [_ K]]]]]]]]. exists st, lt, tc. split; [exact W|]. cbn [stack] in S. subst st. rewrite app_nil_r.
    constructor; [congruence|apply silent_clean, F].
Qed.
Lemma laden_later E d dflt ws1 m o op s wss ws2 n rest : (exists s1, passage Nothing s1 ws1 m) \/ (exists s1 wss1, laden s1 wss1 ws1 m) ->
  In (o, op) connectives -> laden s wss ws2 n -> compound wss -> followers rest ->
  evaluate_boolean E (unwords (chained (ws1 ++ o :: ws2) rest)) d dflt =
  fold_left (go_on (fun w => evaluate_boolean E (unwords w) d dflt)) rest (match op with AND => Ok false | _ => evaluate_boolean E (unwords ws2) d dflt end).
Proof.
  intros Bf I L Cp F. apply settles_value, settles_chain; [|exact F]. rewrite (laden_alone E d dflt _ _ _ _ L).
  destruct (before_walk _ _ Bf) as [t [Y [G [R Wt]]]]. destruct (Wt dflt) as [st [lt [tc [W C]]]]. destruct (laden_trees _ _ _ _ L) as [t2 [[Y2 [G2 D2]] [So [NS [R2 Lv]]]]].
  destruct (Lv dflt (LState st lt tc)) as [n' [junk [[st' lt' tc'] [W2 [S [Fj [Nj [Dm K]]]]]]]]. cbn [stack] in S. subst st'. specialize (Nj Cp). destruct junk as [|j junk]; [contradiction|].
  destruct (connective_token o op I) as [k [Gk [Ck _]]]. destruct (connective_kind k o op Gk I) as [_ Oo]. pose proof (Forall_inv Fj) as Sj. pose proof (Forall_inv_tail Fj) as Fj'.
  exists (PBin t (Tok k o) t2), (NBool j (Some n') op), (junk ++ st), lt', tc'. split; [apply infix_yield; assumption|]. split; [apply infix_genuine; assumption|]. split.
  { intros k' next K' O. eapply r_bin; [exact Ck|apply connective_level, Ck|exact K'|apply R; [lia|apply open_connective, Ck]|apply R2; [lia|exact O]]. }
  split; [cbn [walk]; rewrite W; cbn [bind]; rewrite W2; cbn [bind]; unfold exit_binary; cbn [stack kind app]; rewrite Oo; reflexivity|].
  split; [constructor; [discriminate|apply Forall_app; split; [apply silent_clean, Fj'|exact C]]|]. split; [reflexivity|].
  cbn [bool_eval]. rewrite (silent_false E d j Sj), (proj1 (denotes_same E d dflt t2 n' n Dm (D2 dflt))).
  destruct op; [reflexivity|cbn [bind]; reflexivity|].
  exfalso. unfold connectives in I. cbn [In] in I. decompose [or] I; try discriminate; contradiction.
Qed.

(** ** In arithmetic *)
Lemma one_word ws m t : unit_tree ws m t -> length ws <> 1 -> ws <> [] -> forall b, regular b t.
Proof.
  intros [[Y _] [St _]] N NE. destruct St as [P|Rg]; [|exact Rg]. exfalso. destruct t; try discriminate P; subst ws; cbn in N, NE; congruence.
Qed.
Lemma computed_later E d ws1 m o op f fn before ws0 us nsb n0 nsu : term ws1 m -> length ws1 <> 1 -> In (o, op) arithmetic_symbols -> In (f, fn) function_names ->
  element_list before nsb -> element ws0 n0 -> length ws0 <> 1 -> Forall2 operand us nsu ->
  evaluate_arith E (unwords (ws1 ++ o :: f :: bracketed (listing (before ++ ws0 :: map (fun w => [w]) us)))) d =
  arith_eval E d (NArith n0 (Some (NFunc fn (nsb ++ n0 :: nsu))) op).
Proof.
  intros T N1 I If Lb L0 N0 Lu. assert (L : element_list (before ++ ws0 :: map (fun w => [w]) us) (nsb ++ n0 :: nsu)).
  { clear - Lb L0 Lu. induction Lb as [|w n wss ns Ew Lw IH]; cbn [app]; [|constructor; assumption]. constructor; [exact L0|].
    induction Lu as [|u nu us nsu Ou Lu IH]; cbn [map]; constructor; [constructor; exact Ou|exact IH]. }
  assert (Len : length before = length nsb) by (clear - Lb; induction Lb; cbn [length]; congruence).
  destruct (proj1 term_row _ _ T) as [t U]. assert (NE : ws1 <> []) by (intros ->; inversion T).
  pose proof (one_word _ _ _ U N1 NE Nothing) as Rg. destruct U as [[Y [G D]] [_ R]].
  assert (Nw : before ++ ws0 :: map (fun w => [w]) us <> []) by (destruct before; discriminate).
  destruct (call_tree f fn _ _ If Nw L) as [t2 [[Y2 [G2 D2]] [R2 [T2 [_ W2]]]]].
  destruct (symbol_level o op I) as [k [Gk [Ka Lv]]]. destruct (arithmetic_kind k o op Gk I) as [_ Oo].
  destruct (walk_regular None _ t Rg m (LState [] None 0) G (D None)) as [n [[st lt tc] [W [S [_ K]]]]]; [constructor|reflexivity|]. cbn [stack] in S. subst st.
  destruct (W2 None (LState [n] lt tc)) as [junk [lt' [tc' [E2 [_ [_ Hj]]]]]]. destruct (Hj before ws0 us nsb n0 nsu eq_refl eq_refl Len N0) as [j ->].
  assert (Rd : reads 0 (PArith t (Tok k o) t2) eof) by (eapply r_arith; [exact Ka|exact Lv|lia|apply R, open_arithmetic, Ka|apply R2]).
  assert (Gt : Forall genuine (yield (PArith t (Tok k o) t2))) by (apply infix_genuine; assumption).
  assert (Yt : map text (yield (PArith t (Tok k o) t2)) = ws1 ++ o :: f :: bracketed (listing (before ++ ws0 :: map (fun w => [w]) us))) by (apply infix_yield; assumption).
  rewrite <- Yt. unfold evaluate_arith, parse_expression. rewrite (unwords_lex _ Gt). cbn [bind]. rewrite (parse_any_complete _ Rd). cbn [bind].
  unfold listen. cbn [walk]. rewrite W. cbn [bind]. rewrite E2. cbn [bind stack]. unfold push_context. cbn [map_context stack app].
  rewrite (regular_types _ _ None Rg), (T2 None). cbn [bind fst snd kind]. rewrite Oo. reflexivity.
Qed.
