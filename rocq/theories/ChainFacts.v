(** Texts of any length: arithmetic expressions and joined conditions without superfluous parentheses. *)
From Verif Require Import RecoverFacts.
From Verif Require Import Base Values Ops Funcs Ast Eval Lexer Grammar Listener Api SpecLex SpecGrammar SpecSyntax SpecText SpecChain
  LexFacts LexSplit LexWords SyntaxFacts ParseFacts ListenFacts TextFacts TextApi.
Local Open Scope nat_scope.

(** ** The grouping is total and unique *)
Lemma last_loosest (rest : list (operator * node)) : rest <> [] -> exists before op n after, rest = before ++ (op, n) :: after /\
  Forall (fun p => tightness op <= tightness (fst p)) before /\ Forall (fun p => tightness op < tightness (fst p)) after.
Proof.
  induction rest as [|[op n] rest IH]; [contradiction|]. intros _. destruct rest as [|q rest].
  - exists [], op, n, []. repeat split; constructor.
  - destruct IH as [before [op' [n' [after [Eq [A B]]]]]]; [discriminate|]. destruct (Nat.le_gt_cases (tightness op') (tightness op)) as [L|L].
    + exists ((op, n) :: before), op', n', after. split; [rewrite Eq; reflexivity|]. split; [constructor; [exact L|exact A]|exact B].
    + exists [], op, n, (q :: rest). split; [reflexivity|]. split; [constructor|]. rewrite Eq. apply Forall_app. split.
      * eapply Forall_impl; [|exact A]. cbn beta. intros p H. lia.
      * constructor; [exact L|]. eapply Forall_impl; [|exact B]. cbn beta. intros p H. lia.
Qed.
Lemma grouped_total (rest : list (operator * node)) : forall m, exists n, grouped m rest n.
Proof.
  remember (length rest) as k eqn:K. revert rest K. induction k as [k IH] using (well_founded_induction lt_wf). intros rest -> m.
  destruct rest as [|p rest]; [exists m; constructor|]. destruct (last_loosest (p :: rest)) as [before [op [n [after [Eq [A B]]]]]]; [discriminate|].
  assert (Len : length (p :: rest) = length before + S (length after)) by (rewrite Eq, app_length; reflexivity).
  destruct (IH (length before) ltac:(lia) before eq_refl m) as [l L]. destruct (IH (length after) ltac:(lia) after eq_refl n) as [r R].
  exists (NArith l (Some r) op). rewrite Eq. constructor; assumption.
Qed.

Lemma two_splits {A} (l1 l2 : list A) x y r1 r2 : l1 ++ x :: r1 = l2 ++ y :: r2 ->
  (l1 = l2 /\ x = y /\ r1 = r2) \/ (In x l2 /\ In y r1) \/ (In y l1 /\ In x r2).
Proof.
  revert l2. induction l1 as [|a l1 IH]; intros [|b l2] H; cbn [app] in H.
  - left. injection H as -> ->. auto.
  - right; left. injection H as -> ->. split; [left; reflexivity|apply in_or_app; right; left; reflexivity].
  - right; right. injection H as -> <-. split; [left; reflexivity|apply in_or_app; right; left; reflexivity].
  - injection H as -> H. destruct (IH l2 H) as [[-> [-> ->]]|[[P Q]|[P Q]]]; [left; auto|right; left|right; right]; (split; [right; assumption|assumption]).
Qed.
Lemma grouped_unique m rest n : grouped m rest n -> forall n', grouped m rest n' -> n' = n.
Proof.
  induction 1 as [m|m before op n after l r GL IHL GR IHR A B]; intros n' G.
  - inversion G as [|? b ? ? a ? ? ? ? ? ? E1 E2]; [reflexivity|]. destruct b; discriminate.
  - remember (before ++ (op, n) :: after) as rest eqn:Eq. destruct G as [m|m before' op' n1 after' l' r' GL' GR' A' B'].
    + destruct before; discriminate.
    + symmetry in Eq. destruct (two_splits _ _ _ _ _ _ Eq) as [[-> [P ->]]|[[P Q]|[P Q]]].
      * injection P as -> ->. rewrite (IHL _ GL'), (IHR _ GR'). reflexivity.
      * rewrite Forall_forall in *. pose proof (A' _ P) as H1. pose proof (B _ Q) as H2. cbn [fst] in H1, H2. lia.
      * rewrite Forall_forall in *. pose proof (A _ P) as H1. pose proof (B' _ Q) as H2. cbn [fst] in H1, H2. lia.
Qed.

(** ** Trees of arithmetic expressions *)
(** A tree that is a plain operand or is handled after every other. *)
Definition settled (t : ptree) : Prop := plain t = true \/ forall b, regular b t.
Definition built (ws : list jstr) (n : node) (t : ptree) : Prop :=
  map text (yield t) = ws /\ Forall genuine (yield t) /\ (forall dflt, denotes dflt t n).
Definition unit_tree (ws : list jstr) (n : node) (t : ptree) : Prop := built ws n t /\ settled t /\ forall k next, open next -> reads k t next.

(** The trees of the operands in a row. *)
Inductive row : list jstr -> node -> list (operator * node) -> Prop :=
| row_first ws m t : unit_tree ws m t -> row ws m []
| row_next ws m rest o op ws' n t : row ws m rest -> In (o, op) arithmetic_symbols -> unit_tree ws' n t -> row (ws ++ o :: ws') m (rest ++ [(op, n)]).

Lemma row_split ws m rest : row ws m rest -> forall before op n after, rest = before ++ (op, n) :: after ->
  exists ws1 o ws2, ws = ws1 ++ o :: ws2 /\ row ws1 m before /\ In (o, op) arithmetic_symbols /\ row ws2 n after.
Proof.
  induction 1 as [ws m t U|ws m rest o op ws' n t R IH I U]; intros before op' n' after Eq; [destruct before; discriminate|].
  destruct (exists_last (l := (op', n') :: after)) as [init [z Z]]; [discriminate|]. rewrite Z, app_assoc in Eq. apply app_inj_tail in Eq as [Eq Ez].
  destruct init as [|i init].
  - cbn [app] in Z. injection Z as Z1 ->. subst z. injection Z1 as -> ->. rewrite app_nil_r in Eq. subst before. exists ws, o, ws'. repeat split; try assumption. eapply row_first. exact U.
  - cbn [app] in Z. injection Z as <- Z. destruct (IH before op' n' init Eq) as [w1 [o1 [w2 [W [R1 [I1 R2]]]]]]. exists w1, o1, (w2 ++ o :: ws'). subst after z.
    split; [rewrite W, <- app_assoc; reflexivity|]. split; [exact R1|]. split; [exact I1|]. eapply row_next; eassumption.
Qed.

Lemma open_arithmetic o : arithmetic_op (kind o) -> open o.
Proof. unfold arithmetic_op, open, comparator. cbn [In]. intros A C. decompose [or] A; decompose [or] C; congruence. Qed.
Lemma open_connective o : connective (kind o) -> open o.
Proof. unfold connective, open, comparator. cbn [In]. intros A C. decompose [or] A; decompose [or] C; congruence. Qed.

Lemma row_tree m rest n : grouped m rest n -> forall ws, row ws m rest -> exists t, built ws n t /\ settled t /\ (rest <> [] -> sort_of t = Arithmetic /\ forall b, regular b t) /\
  forall k next, Forall (fun p => k <= tightness (fst p)) rest -> open next -> reads k t next.
Proof.
  induction 1 as [m|m before op n after l r GL IHL GR IHR A B]; intros ws R.
  - inversion R as [? ? t U|? ? rest ? ? ? ? ? ? ? ? E1 E2 E3]; subst; [|destruct rest; discriminate]. destruct U as [Bt [St Rd]]. exists t. split; [exact Bt|]. split; [exact St|].
    split; [contradiction|]. intros k next _ O. apply Rd, O.
  - destruct (row_split _ _ _ R _ _ _ _ eq_refl) as [w1 [o [w2 [-> [R1 [I R2]]]]]]. destruct (IHL _ R1) as [tl [[Y1 [G1 D1]] [S1 [_ Rd1]]]]. destruct (IHR _ R2) as [tr [[Y2 [G2 D2]] [S2 [_ Rd2]]]].
    destruct (symbol_level o op I) as [k [G [Ka L]]]. exists (PArith tl (Tok k o) tr).
    assert (Rg : forall b, regular b (PArith tl (Tok k o) tr)).
    { intros b. destruct S1 as [P1|P1], S2 as [P2|P2]; [apply g_arith_plain|apply g_arith_right|apply g_arith_left|apply g_arith]; auto. }
    split; [|split; [right; exact Rg|split; [intros _; split; [reflexivity|exact Rg]|]]].
    + split; [apply infix_yield; assumption|]. split; [apply infix_genuine; assumption|]. intros dflt. constructor; auto.
    + intros k' next F O. apply Forall_app in F as [F1 F2]. inversion F2 as [|? ? F3 F4]; subst. cbn [fst] in F3.
      eapply r_arith; [exact Ka|exact L|exact F3| |].
      * apply Rd1; [exact A|apply open_arithmetic, Ka].
      * apply Rd2; [|exact O]. eapply Forall_impl; [|exact B]. cbn beta. intros p H. lia.
Qed.

Scheme term_terms := Induction for term Sort Prop with terms_term := Induction for terms Sort Prop.
Combined Scheme term_both from term_terms, terms_term.

Lemma brackets_built ws n t : built ws n t -> built (bracketed ws) n (PParen t).
Proof.
  intros [Y [G D]]. split; [|split].
  - cbn [yield map]. rewrite map_app, Y. reflexivity.
  - cbn [yield]. constructor; [exact lparen_genuine|]. apply Forall_app. split; [exact G|]. constructor; [exact rparen_genuine|constructor].
  - intros dflt. constructor. apply D.
Qed.
Lemma call_built f fn ws ns : In (f, fn) function_names -> listed ws ns -> exists t, built (f :: bracketed (commas ws)) (NFunc fn ns) t /\ (forall b, regular b t) /\ sort_of t = Function /\ everywhere t.
Proof.
  intros I L. destruct (listed_good _ _ L) as [items [Y [G [R [P D]]]]]. destruct (function_token f fn I) as [kf [Gf [Kf _]]]. exists (PFunc (Tok kf f) items).
  split; [split; [|split]|split; [|split; [reflexivity|]]].
  - rewrite yield_func. cbn [map text]. f_equal. apply list_words, Y.
  - rewrite yield_func. apply (list_end [Tok kf f]); [constructor; [exact Gf|constructor]|exact G].
  - intros dflt. apply d_func; [exact I|apply D].
  - intros b. apply g_func. exact P.
  - intros m next. apply r_func; assumption.
Qed.
Lemma term_row : (forall ws n, term ws n -> exists t, unit_tree ws n t) /\ (forall ws m rest, terms ws m rest -> row ws m rest).
Proof.
  apply (term_both (fun ws n _ => exists t, unit_tree ws n t) (fun ws m rest _ => row ws m rest)).
  - intros w n O. destruct (operand_good _ _ O) as [t [P [Y [G [R D]]]]]. exists t. split; [split; auto|]. split; [left; exact P|auto].
  - intros f fn ws ns I L. destruct (call_built f fn ws ns I L) as [t [Bt [Rg [_ R]]]]. exists t. split; [exact Bt|]. split; [right; exact Rg|]. intros; apply R.
  - intros ws m rest n _ R N G. destruct (row_tree m rest n G ws R) as [t [Bt [_ [Rg Rd]]]]. destruct (Rg N) as [_ Rg']. exists (PParen t).
    split; [apply brackets_built, Bt|]. split; [right; intros b; constructor; apply Rg'|]. intros k next _. constructor. apply Rd; [apply Forall_forall; intros; lia|apply open_rparen].
  - intros ws m rest n _ R N G. destruct (row_tree m rest n G ws R) as [t [Bt [_ [Rg Rd]]]]. destruct (Rg N) as [Sa Rg'].
    destruct (brackets_built _ _ _ Bt) as [Y [Gn D]]. exists (PNeg (PParen t)). split; [split; [|split]|split].
    + change (map text (yield (PNeg (PParen t)))) with (J "-" :: map text (yield (PParen t))). rewrite Y. reflexivity.
    + change (yield (PNeg (PParen t))) with (minus :: yield (PParen t)). constructor; [exact minus_genuine|exact Gn].
    + intros dflt. constructor. apply D.
    + right. intros b. apply g_neg; [constructor; apply Rg'|exact Sa].
    + intros k next O. constructor; [|exact O]. constructor. apply Rd; [apply Forall_forall; intros; lia|apply open_rparen].
  - intros ws m _ [t U]. eapply row_first. exact U.
  - intros ws m rest o op ws' n _ R I _ [t U]. eapply row_next; eassumption.
Qed.

(** The tree of an arithmetic expression. *)
Lemma formula_tree ws m rest n : terms ws m rest -> rest <> [] -> grouped m rest n ->
  exists t, built ws n t /\ sort_of t = Arithmetic /\ (forall b, regular b t) /\ forall k next, k <= 2 -> open next -> reads k t next.
Proof.
  intros T N G. pose proof (proj2 term_row _ _ _ T) as R. destruct (row_tree m rest n G ws R) as [t [Bt [_ [Rg Rd]]]]. destruct (Rg N) as [Sa Rg'].
  exists t. repeat split; try assumption; try apply Bt. intros k next K O. apply Rd; [|exact O].
  clear - R K. induction R as [|ws m rest o op ws' n t R IH I U]; [constructor|]. apply Forall_app. split; [exact IH|]. constructor; [|constructor]. cbn [fst].
  assert (2 <= tightness op); [|lia]. unfold arithmetic_symbols in I. cbn [In] in I. decompose [or] I; try contradiction; match goal with H : _ = (o, op) |- _ => injection H as <- <-; cbn; lia end.
Qed.
Lemma formula_value E d ws m rest n : terms ws m rest -> rest <> [] -> grouped m rest n ->
  evaluate_arith E (unwords ws) d = arith_eval E d n /\ forall dflt, evaluate_boolean E (unwords ws) d dflt = bool_eval E d n.
Proof.
  intros T N G. destruct (formula_tree _ _ _ _ T N G) as [t [[Y [Gn D]] [_ [Rg Rd]]]]. subst ws. split.
  - apply (meaning_arith E _ t n d); [apply unwords_lex, Gn|apply Rd; [lia|apply open_eof]|apply Rg|apply D].
  - intros dflt. apply (meaning_boolean E _ t n d dflt); [apply unwords_lex, Gn|apply Rd; [lia|apply open_eof]|apply Rg|apply D].
Qed.
