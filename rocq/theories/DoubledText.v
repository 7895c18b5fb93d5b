(** Conditions on a list whose first element has two operators. *)
From Verif Require Import RecoverFacts.
From Verif Require Import Base Values Ops Funcs Ast Eval Lexer Grammar Listener Api SpecArith SpecLex SpecGrammar SpecSyntax SpecText SpecChain SpecElements SpecDoubled
  LexFacts LexSplit LexWords SyntaxFacts ParseFacts ListenFacts TextFacts TextApi ChainFacts ChainText ListText ElementFacts ElementText.
Local Open Scope nat_scope.

Lemma long_tree ws ns : long_element ws ns -> exists ts, map text (sep_yield ts) = ws /\ Forall genuine (sep_yield ts) /\ reads_items ts /\
  (forall dflt st, exists n0 lt tc, walk_list dflt ts st = Ok (LState (n0 :: stack st) lt tc) /\ forall s, map_elements dflt ts (n0 :: s) = Ok (ns, s)).
Proof.
  intros [x o1 op1 y o2 op2 z w m n p ms X Y Z I1 I2 Ls].
  destruct (operand_token _ _ X) as [kx [Gx [Kx Mx]]]. destruct (operand_token _ _ Y) as [ky [Gy [Ky My]]]. destruct (operand_token _ _ Z) as [kz [Gz [Kz Mz]]].
  destruct (symbol_level _ _ I1) as [k1 [G1 [A1 L1]]]. destruct (symbol_level _ _ I2) as [k2 [G2 [A2 L2]]].
  pose proof (proj2 (arithmetic_kind k1 o1 op1 G1 I1)) as O1. pose proof (proj2 (arithmetic_kind k2 o2 op2 G2 I2)) as O2.
  destruct (listed_good _ _ Ls) as [items [Yi [Gi [Ri [Pi Di]]]]]. pose proof (reads_items_nonempty _ Ri) as NE.
  set (it := if tightness op1 <? tightness op2 then PArith (PTypes (Tok kx x)) (Tok k1 o1) (PArith (PTypes (Tok ky y)) (Tok k2 o2) (PTypes (Tok kz z)))
             else PArith (PArith (PTypes (Tok kx x)) (Tok k1 o1) (PTypes (Tok ky y))) (Tok k2 o2) (PTypes (Tok kz z))).
  exists (it :: items).
  assert (YT : sep_yield (it :: items) = [Tok kx x; Tok k1 o1; Tok ky y; Tok k2 o2; Tok kz z; comma] ++ sep_yield items).
  { rewrite sep_yield_cons by exact NE. unfold it. destruct (tightness op1 <? tightness op2); cbn [yield app]; reflexivity. }
  split; [rewrite YT, map_app, Yi; reflexivity|]. split; [rewrite YT; pose proof comma_genuine; apply Forall_app; split; [genuines|exact Gi]|]. split.
  { apply r_more; [|exact Ri]. unfold it. destruct (Nat.ltb_spec (tightness op1) (tightness op2)).
    - eapply r_arith; [exact A1|exact L1|lia|apply r_operand; exact Kx|]. eapply r_arith; [exact A2|exact L2|lia|apply r_operand; exact Ky|apply r_operand; exact Kz].
    - eapply r_arith; [exact A2|exact L2|lia| |apply r_operand; exact Kz]. eapply r_arith; [exact A1|exact L1|lia|apply r_operand; exact Kx|apply r_operand; exact Ky]. }
  intros dflt st. set (N1 := if tightness op1 <? tightness op2 then bin m op1 (bin n op2 p) else bin (bin m op1 n) op2 p).
  assert (W : exists lt tc, walk dflt it st = Ok (LState (N1 :: stack st) lt tc)).
  { unfold it, N1. destruct (tightness op1 <? tightness op2); cbn [walk]; unfold push_context;
      do 4 (cbn [bind exit_types map_context as_types stack last_token token_count fst snd pop kind]; rewrite ?Mx, ?My, ?Mz);
      cbn [bind exit_types map_context as_types stack last_token token_count fst snd pop kind]; rewrite ?O1, ?O2; eexists _, _; reflexivity. }
  assert (M : forall s, map_context dflt it (N1 :: s) = Ok (if tightness op1 <? tightness op2 then bin m op1 N1 else bin N1 op2 p, s)).
  { intros s. unfold it. destruct (tightness op1 <? tightness op2); cbn [map_context as_types]; rewrite ?Mx, ?My, ?Mz; cbn [bind fst snd pop kind]; rewrite ?O1, ?O2; reflexivity. }
  destruct W as [lt [tc W]]. destruct (plain_list dflt items ms Pi Gi (Di dflt)) as [Wl Ml]. destruct (Wl (LState (N1 :: stack st) lt tc)) as [lt' [tc' Wst]].
  exists N1, lt', tc'. split.
  - change (walk_list dflt (it :: items) st) with (st' <- walk dflt it st ;; walk_list dflt items st'). rewrite W. exact Wst.
  - intros s. cbn [map_elements]. rewrite M. cbn [bind fst snd]. rewrite Ml. cbn [bind fst snd]. unfold N1, twice. destruct (tightness op1 <? tightness op2); reflexivity.
Qed.

Lemma doubled_tree ws n : doubled ws n -> exists t, map text (yield t) = ws /\ Forall genuine (yield t) /\ everywhere t /\
  forall dflt st, exists lt tc, walk dflt t st = Ok (LState (n :: stack st) lt tc).
Proof.
  intros [f i w ns F Ii L|f no i w ns F In_ Ii L|f c op w ns F Ic L]; destruct (long_tree _ _ L) as [ts [Y [G [R W]]]].
  - exists (PIn (Tok T_FIELD f) None (Tok T_IN i) ts). pose proof (in_genuine i Ii) as Gi.
    split; [rewrite yield_in; cbn [app map text]; do 2 f_equal; rewrite map_app, Y; reflexivity|].
    split; [rewrite yield_in; apply (list_end [Tok T_FIELD f; Tok T_IN i]); [|exact G]; repeat (apply Forall_cons); try apply Forall_nil; [apply field_genuine, F|exact Gi]|].
    split; [intros m next; apply r_in; try reflexivity; exact R|]. intros dflt st. destruct (W dflt st) as [n0 [lt [tc [E M]]]]. exists lt, tc.
    rewrite walk_in, E. cbn [bind]. unfold push_context. rewrite context_in, (named_ok dflt (Tok T_FIELD f) F). cbn [bind stack]. rewrite M. reflexivity.
  - exists (PIn (Tok T_FIELD f) (Some (Tok T_NOT no)) (Tok T_IN i) ts). pose proof (in_genuine i Ii) as Gi. pose proof (not_genuine no In_) as Gn.
    split; [rewrite yield_in; cbn [app map text]; do 3 f_equal; rewrite map_app, Y; reflexivity|].
    split; [rewrite yield_in; apply (list_end [Tok T_FIELD f; Tok T_NOT no; Tok T_IN i]); [|exact G]; repeat (apply Forall_cons); try apply Forall_nil; [apply field_genuine, F|exact Gn|exact Gi]|].
    split; [intros m next; apply r_not_in; try reflexivity; exact R|]. intros dflt st. destruct (W dflt st) as [n0 [lt [tc [E M]]]]. exists lt, tc.
    rewrite walk_in, E. cbn [bind]. unfold push_context. rewrite context_in, (named_ok dflt (Tok T_FIELD f) F). cbn [bind stack]. rewrite M. reflexivity.
  - destruct (array_token c op Ic) as [k [Gk [K _]]]. exists (PArray (Tok T_FIELD f) (Tok k c) ts). destruct (array_kind k c op Gk Ic) as [_ Ao].
    split; [rewrite yield_array; cbn [app map text]; do 2 f_equal; rewrite map_app, Y; reflexivity|].
    split; [rewrite yield_array; apply (list_end [Tok T_FIELD f; Tok k c]); [|exact G]; repeat (apply Forall_cons); try apply Forall_nil; [apply field_genuine, F|exact Gk]|].
    split; [intros m next; apply r_array; try reflexivity; [exact K|exact R]|]. intros dflt st. destruct (W dflt st) as [n0 [lt [tc [E M]]]]. exists lt, tc.
    rewrite walk_array, E. cbn [bind]. unfold exit_array. rewrite (named_ok dflt (Tok T_FIELD f) F). cbn [bind stack kind]. rewrite M, Ao. reflexivity.
Qed.
Lemma doubled_alone E d dflt ws n : doubled ws n -> evaluate_boolean E (unwords ws) d dflt = bool_eval E d n.
Proof.
  intros D. destruct (doubled_tree ws n D) as [t [<- [G [R W]]]]. destruct (W dflt (LState [] None 0)) as [lt [tc E0]].
  unfold evaluate_boolean, parse_expression. rewrite (unwords_lex _ G). cbn [bind]. rewrite (parse_any_complete t (R 0 eof)). cbn [bind]. unfold listen. rewrite E0. reflexivity.
Qed.
Lemma doubled_later E d dflt ws1 m o op ws2 n rest : passage Nothing Logic ws1 m -> In (o, op) connectives -> doubled ws2 n -> followers rest ->
  evaluate_boolean E (unwords (chained ws1 ((o, op, ws2) :: rest))) d dflt =
  fold_left (go_on (fun w => evaluate_boolean E (unwords w) d dflt)) ((o, op, ws2) :: rest) (evaluate_boolean E (unwords ws1) d dflt).
Proof.
  intros P I D F. assert (Ch : chained ws1 ((o, op, ws2) :: rest) = chained (ws1 ++ o :: ws2) rest) by (unfold chained; cbn [map concat fst snd]; rewrite <- app_assoc; reflexivity).
  rewrite Ch. apply settles_value. cbn [fold_left]. apply settles_chain; [|exact F].
  destruct (proj2 clause_trees _ _ _ _ P) as [t [[Y [G Dt]] [Rg [So R]]]].
  destruct (walk_regular dflt _ t Rg m (LState [] None 0) G (Dt dflt)) as [n1 [[st lt tc] [W [S [Dn K]]]]]; [constructor|reflexivity|]. cbn [stack] in S. subst st.
  destruct (doubled_tree ws2 n D) as [t2 [Y2 [G2 [R2 W2]]]]. destruct (W2 dflt (LState [n1] lt tc)) as [lt' [tc' E2]]. cbn [stack] in E2.
  destruct (connective_token o op I) as [k [Gk [Ck _]]]. destruct (connective_kind k o op Gk I) as [_ Oo].
  exists (PBin t (Tok k o) t2), (NBool n1 (Some n) op), [], lt', tc'. split; [apply infix_yield; assumption|]. split; [apply infix_genuine; assumption|]. split.
  { intros k' next K' O. eapply r_bin; [exact Ck|apply connective_level, Ck|exact K'|apply R; [lia|apply open_connective, Ck]|apply R2]. }
  split; [cbn [walk]; rewrite W; cbn [bind]; rewrite E2; cbn [bind]; unfold exit_binary; cbn [stack kind]; rewrite Oo; reflexivity|].
  split; [constructor; [discriminate|constructor]|]. split; [reflexivity|].
  cbn [go_on]. rewrite (proj1 (passage_value E d dflt _ _ _ P)), (doubled_alone E d dflt ws2 n D).
  rewrite (proj1 (denotes_same E d dflt t m n1 (Dt dflt) Dn)). cbn [bool_eval].
  destruct op; [destruct (bool_eval E d n1) as [[]|]; reflexivity|destruct (bool_eval E d n1) as [[]|]; reflexivity|].
  exfalso. unfold connectives in I. cbn [In] in I. decompose [or] I; try discriminate; contradiction.
Qed.
