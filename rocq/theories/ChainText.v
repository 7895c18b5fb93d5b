(** Texts of any length: conditions joined by AND and OR. *)
From Verif Require Import RecoverFacts.
From Verif Require Import Base Values Ops Funcs Ast Eval Lexer Grammar Listener Api SpecLex SpecGrammar SpecSyntax SpecText SpecChain
  LexFacts LexSplit LexWords SyntaxFacts ParseFacts ListenFacts TextFacts TextApi ChainFacts.
Local Open Scope nat_scope.

Definition part (top : nat) (b s : sort) (ws : list jstr) (n : node) (t : ptree) : Prop :=
  built ws n t /\ regular b t /\ sort_of t = s /\ (forall k next, k <= top -> open next -> reads k t next).
(** The tree of a clause: an operand of AND and OR; IN, ranges, CONTAINS and what is in parentheses can stand everywhere. *)
Definition clause_part (b s : sort) (ws : list jstr) (n : node) (t : ptree) : Prop := part 9 b s ws n t /\ (s = Member -> everywhere t).

Scheme clause_passage := Induction for clause Sort Prop with passage_clause_ := Induction for passage Sort Prop.
Combined Scheme clause_both from clause_passage, passage_clause_.

Lemma cmp_part b l o op r a c dt ws1 ws2 : built ws1 a l -> built ws2 c r -> everywhere l -> everywhere r -> In (o, op) comparators ->
  (forall k, regular b (PCmp l (Tok k o) r)) -> exists t, clause_part b Logic (ws1 ++ o :: ws2) (NCmp a c op dt) t.
Proof.
  intros [Y1 [G1 D1]] [Y2 [G2 D2]] R1 R2 I Rg. destruct (comparator_genuine o op I) as [k [G C]]. exists (PCmp l (Tok k o) r).
  split; [|discriminate]. split; [split; [apply infix_yield; assumption|split; [apply infix_genuine; assumption|intros dflt; constructor; auto]]|].
  split; [apply Rg|]. split; [reflexivity|]. intros k' next K _. eapply r_cmp; [exact C|apply comparator_level9, C|exact K|apply R1|apply R2].
Qed.
Lemma operand_built x m : operand x m -> exists t, plain t = true /\ built [x] m t /\ everywhere t.
Proof. intros O. destruct (operand_good _ _ O) as [t [P [Y [G [R D]]]]]. exists t. split; [exact P|]. split; [split; auto|exact R]. Qed.
Lemma paren_everywhere top b s ws n t : part top b s ws n t -> everywhere (PParen t).
Proof. intros [_ [_ [_ R]]] m next. constructor. apply R; [lia|apply open_rparen]. Qed.
Lemma not_genuine no : In no not_words -> genuine (Tok T_NOT no).
Proof. intros H. apply (word_token T_NOT (J "NOT") (J "not")); [cbn; tauto|]. apply two_words, H. Qed.
Lemma in_genuine i : In i in_words -> genuine (Tok T_IN i).
Proof. intros H. apply (word_token T_IN (J "IN") (J "in")); [cbn; tauto|]. apply two_words, H. Qed.
Lemma not_part b no ws n t : In no not_words -> built ws n t -> regular b t -> everywhere t -> clause_part b Logic (no :: ws) (NBool n None NOT) (PNot (Tok T_NOT no) t).
Proof.
  intros I [Y [G D]] Rg R. split; [|discriminate]. split; [split; [|split]|split; [constructor; exact Rg|split; [reflexivity|]]].
  - change (map text (yield (PNot (Tok T_NOT no) t))) with (no :: map text (yield t)). rewrite Y. reflexivity.
  - constructor; [apply not_genuine, I|exact G].
  - intros dflt. constructor. apply D.
  - intros k next _ _. apply r_not; [reflexivity|apply R].
Qed.

Lemma clause_trees : (forall b s ws n, clause b s ws n -> exists t, clause_part b s ws n t) /\ (forall b s ws n, passage b s ws n -> exists t, part 1 b s ws n t).
Proof.
  apply (clause_both (fun b s ws n _ => exists t, clause_part b s ws n t) (fun b s ws n _ => exists t, part 1 b s ws n t)).
  - intros b s ws n _ [t H]. pose proof (paren_everywhere _ _ _ _ _ _ H) as Ev. destruct H as [Bt [Rg [So R]]]. exists (PParen t).
    split; [|intros _; exact Ev]. split; [apply brackets_built, Bt|]. split; [constructor; exact Rg|]. split; [exact So|]. intros; apply Ev.
  - intros b x o y m op n dt B X I Y. destruct (operand_built _ _ X) as [l [P1 [B1 R1]]]. destruct (operand_built _ _ Y) as [r [P2 [B2 R2]]].
    apply (cmp_part b l o op r m n dt [x] [y]); try assumption. intros k. apply g_cmp_plain; assumption.
  - intros b s x o ws m op n dt X I _ [t H]. pose proof (paren_everywhere _ _ _ _ _ _ H) as Ev. destruct H as [Bt [Rg [So R]]]. destruct (operand_built _ _ X) as [l [P1 [B1 R1]]].
    apply (cmp_part b l o op (PParen t) m n dt [x] (bracketed ws)); try assumption; [apply brackets_built, Bt|]. intros k. apply g_cmp_right; [exact P1|constructor; exact Rg|left; eauto].
    exists t; reflexivity.
  - intros b s ws o y m op n dt _ [t H] I Y. pose proof (paren_everywhere _ _ _ _ _ _ H) as Ev. destruct H as [Bt [Rg [So R]]]. destruct (operand_built _ _ Y) as [r [P1 [B1 R1]]].
    apply (cmp_part b (PParen t) o op r m n dt (bracketed ws) [y]); try assumption; [apply brackets_built, Bt|]. intros k. apply g_cmp_left; [constructor; exact Rg|exact P1|left; exists t; reflexivity].
  - intros b f fn ws ms o y op n dt If L I Y. destruct (call_built f fn ws ms If L) as [t [Bt [Rg [So Ev]]]]. destruct (operand_built _ _ Y) as [r [P1 [B1 R1]]].
    apply (cmp_part b t o op r (NFunc fn ms) n dt (f :: bracketed (commas ws)) [y]); try assumption. intros k. apply g_cmp_left; [apply Rg|exact P1|right; rewrite So; discriminate].
  - intros b f fn ws ms o y op n dt Y I If L. destruct (call_built f fn ws ms If L) as [t [Bt [Rg [So Ev]]]]. destruct (operand_built _ _ Y) as [l [P1 [B1 R1]]].
    apply (cmp_part b l o op t n (NFunc fn ms) dt [y] (f :: bracketed (commas ws))); try assumption. intros k. apply g_cmp_right; [exact P1|apply Rg|right; rewrite So; discriminate].
  - intros b f lo to hi x y tx ty F Ol Oh Tx Ty I. destruct (operand_token _ _ Ol) as [kl [Gl _]]. destruct (operand_token _ _ Oh) as [kh [Gh _]].
    exists (PTo (Tok T_FIELD f) (Tok kl lo) (Tok T_TO to) (Tok kh hi)).
    assert (Ev : everywhere (PTo (Tok T_FIELD f) (Tok kl lo) (Tok T_TO to) (Tok kh hi))).
    { intros m next. apply r_range; try reflexivity; [apply (kind_number kl lo tx x)|apply (kind_number kh hi ty y)]; assumption. }
    split; [|intros _; exact Ev]. split; [split; [reflexivity|split]|split; [constructor|split; [reflexivity|intros; apply Ev]]].
    + repeat (apply Forall_cons); try apply Forall_nil; try assumption; [apply field_genuine, F|]. apply (word_token T_TO (J "TO") (J "to")); [cbn; tauto|]; apply two_words, I.
    + intros dflt. apply (d_range dflt (Tok T_FIELD f)); assumption.
  - intros b f i ws ns F I L. destruct (listed_good _ _ L) as [items [Y [G [R [P D]]]]]. exists (PIn (Tok T_FIELD f) None (Tok T_IN i) items). pose proof (in_genuine i I) as Gi.
    assert (Ev : everywhere (PIn (Tok T_FIELD f) None (Tok T_IN i) items)) by (intros m next; apply r_in; try reflexivity; exact R).
    split; [|intros _; exact Ev]. split; [split; [|split]|split; [constructor; exact P|split; [reflexivity|intros; apply Ev]]].
    + rewrite yield_in. cbn [app map text]. do 2 f_equal. apply list_words, Y.
    + rewrite yield_in. apply (list_end [Tok T_FIELD f; Tok T_IN i]); [|exact G]. repeat (apply Forall_cons); try apply Forall_nil; [apply field_genuine, F|exact Gi].
    + intros dflt. apply (d_in dflt (Tok T_FIELD f)); [exact F|apply D].
  - intros b f no i ws ns F In_ I L. destruct (listed_good _ _ L) as [items [Y [G [R [P D]]]]]. exists (PIn (Tok T_FIELD f) (Some (Tok T_NOT no)) (Tok T_IN i) items).
    pose proof (in_genuine i I) as Gi. pose proof (not_genuine no In_) as Gn.
    split; [|discriminate]. split; [split; [|split]|split; [constructor; exact P|split; [reflexivity|]]].
    + rewrite yield_in. cbn [app map text]. do 3 f_equal. apply list_words, Y.
    + rewrite yield_in. apply (list_end [Tok T_FIELD f; Tok T_NOT no; Tok T_IN i]); [|exact G]. repeat (apply Forall_cons); try apply Forall_nil; [apply field_genuine, F|exact Gn|exact Gi].
    + intros dflt. apply (d_not_in dflt (Tok T_FIELD f)); [exact F|apply D].
    + intros k next _ _. apply r_not_in; try reflexivity. exact R.
  - intros b f c op ws ns F I L. destruct (listed_good _ _ L) as [items [Y [G [R [P D]]]]]. destruct (array_token c op I) as [k [Gk [K _]]]. exists (PArray (Tok T_FIELD f) (Tok k c) items).
    assert (Ev : everywhere (PArray (Tok T_FIELD f) (Tok k c) items)) by (intros m next; apply r_array; try reflexivity; assumption).
    split; [|intros _; exact Ev]. split; [split; [|split]|split; [constructor; exact P|split; [reflexivity|intros; apply Ev]]].
    + rewrite yield_array. cbn [app map text]. do 2 f_equal. apply list_words, Y.
    + rewrite yield_array. apply (list_end [Tok T_FIELD f; Tok k c]); [|exact G]. repeat (apply Forall_cons); try apply Forall_nil; [apply field_genuine, F|exact Gk].
    + intros dflt. apply (d_array dflt (Tok T_FIELD f)); [exact F|exact I|apply D].
  - intros b s no ws n I _ [t H]. pose proof (paren_everywhere _ _ _ _ _ _ H) as Ev. destruct H as [Bt [Rg [So R]]].
    eexists. apply not_part; [exact I|apply brackets_built, Bt|constructor; exact Rg|exact Ev].
  - intros b no ws n I _ [t [[Bt [Rg [So R]]] Ev]]. eexists. apply not_part; [exact I|exact Bt|exact Rg|apply Ev; reflexivity].
  - intros b s ws n _ [t [[Bt [Rg [So R]]] _]]. exists t. split; [exact Bt|]. split; [exact Rg|]. split; [exact So|]. intros k next K O. apply R; [lia|exact O].
  - intros b s1 s2 ws1 o ws2 m op n _ [t1 [[Y1 [G1 D1]] [Rg1 [So1 R1]]]] I _ [t2 [[[Y2 [G2 D2]] [Rg2 [So2 R2]]] _]].
    destruct (connective_token o op I) as [k [G [C _]]]. exists (PBin t1 (Tok k o) t2).
    split; [split; [apply infix_yield; assumption|split; [apply infix_genuine; assumption|intros dflt; constructor; auto]]|].
    split; [apply g_bin; [exact Rg1|rewrite So1; exact Rg2]|]. split; [reflexivity|]. intros k' next K O.
    eapply r_bin; [exact C|apply connective_level, C|exact K|apply R1; [lia|apply open_connective, C]|apply R2; [lia|exact O]].
  - intros b ws m rest n T N Gr. destruct (formula_tree _ _ _ _ T N Gr) as [t [Bt [So [Rg R]]]]. exists t. split; [exact Bt|]. split; [apply Rg|]. split; [exact So|].
    intros k next K O. apply R; [lia|exact O].
Qed.

Lemma passage_value E d dflt s ws n : passage Nothing s ws n -> evaluate_boolean E (unwords ws) d dflt = bool_eval E d n /\ evaluate_arith E (unwords ws) d = arith_eval E d n.
Proof.
  intros P. destruct (proj2 clause_trees _ _ _ _ P) as [t [[Y [G D]] [Rg [_ R]]]]. subst ws. split.
  - apply (meaning_boolean E _ t n d dflt); [apply unwords_lex, G|apply R; [lia|apply open_eof]|exact Rg|apply D].
  - apply (meaning_arith E _ t n d); [apply unwords_lex, G|apply R; [lia|apply open_eof]|exact Rg|apply D].
Qed.

(** ** Conditions joined from the left *)
Lemma passage_first_both : (forall b s ws n, clause b s ws n -> clause Nothing s ws n) /\ (forall b s ws n, passage b s ws n -> passage Nothing s ws n).
Proof.
  apply (clause_both (fun b s ws n _ => clause Nothing s ws n) (fun b s ws n _ => passage Nothing s ws n)); intros; try (econstructor; eauto; fail).
Qed.
Lemma join_last E d dflt s1 s2 ws1 o op ws2 m n : passage Nothing s1 ws1 m -> In (o, op) connectives -> clause s1 s2 ws2 n ->
  evaluate_boolean E (unwords (ws1 ++ o :: ws2)) d dflt = go_on (fun ws => evaluate_boolean E (unwords ws) d dflt) (evaluate_boolean E (unwords ws1) d dflt) (o, op, ws2).
Proof.
  intros P I C. rewrite (proj1 (passage_value E d dflt _ _ _ (passage_join _ _ _ _ _ _ _ _ _ P I C))), (proj1 (passage_value E d dflt _ _ _ P)).
  cbn [go_on]. pose proof (passage_clause _ _ _ _ (proj1 passage_first_both _ _ _ _ C)) as C'. rewrite (proj1 (passage_value E d dflt _ _ _ C')).
  cbn [bool_eval]. destruct op; cbn [bind]; [destruct (bool_eval E d m) as [[]|]; reflexivity|destruct (bool_eval E d m) as [[]|]; reflexivity|].
  exfalso. unfold connectives in I. cbn [In] in I. decompose [or] I; try discriminate; contradiction.
Qed.
Lemma chain_tree rest ws : opening ws -> followers rest -> exists m, passage Nothing Logic (chained ws rest) m.
Proof.
  intros [n C]. induction rest as [|[[o op] w] rest IH] using rev_ind; intros F.
  - exists n. unfold chained. cbn [map concat]. rewrite app_nil_r. apply passage_clause, C.
  - apply Forall_app in F as [F1 F2]. destruct (Forall_inv F2) as [I [s [n' C']]]. cbn [fst snd] in I, C'. destruct (IH F1) as [m P].
    exists (NBool m (Some n') op). unfold chained in *. rewrite map_app, concat_app. cbn [map concat fst snd]. rewrite app_nil_r, app_assoc.
    eapply passage_join; [exact P|exact I|exact C'].
Qed.
Lemma chain_value E d dflt ws rest : opening ws -> followers rest ->
  evaluate_boolean E (unwords (chained ws rest)) d dflt =
  fold_left (go_on (fun w => evaluate_boolean E (unwords w) d dflt)) rest (evaluate_boolean E (unwords ws) d dflt).
Proof.
  intros C. induction rest as [|[[o op] w] rest IH] using rev_ind; intros F.
  - unfold chained. cbn [map concat fold_left]. rewrite app_nil_r. reflexivity.
  - apply Forall_app in F as [F1 F2]. destruct (Forall_inv F2) as [I [s [n' C']]]. cbn [fst snd] in I, C'. destruct (chain_tree rest ws C F1) as [m P].
    rewrite fold_left_app. cbn [fold_left]. rewrite <- (IH F1). unfold chained in *. rewrite map_app, concat_app. cbn [map concat fst snd]. rewrite app_nil_r, app_assoc.
    apply (join_last E d dflt Logic s _ o op w m n' P I C').
Qed.

(** ** Only AND, only OR *)
Lemma fold_and (ask : list jstr -> res bool) rest : Forall (fun p : jstr * logop * list jstr => snd (fst p) = AND) rest -> forall r,
  fold_left (go_on ask) rest r = Ok true <-> r = Ok true /\ Forall (fun w => ask w = Ok true) (map snd rest).
Proof.
  induction rest as [|[[o op] w] rest IH]; intros F r; cbn [fold_left map snd].
  - split; [intros H; split; [exact H|constructor]|tauto].
  - inversion F as [|? ? P F']; subst. cbn [fst snd] in P. subst op. rewrite (IH F'), Forall_cons_iff. cbn [go_on]. destruct r as [[]|e]; [tauto| |]; split; intros [H _]; discriminate H.
Qed.
Lemma fold_or (ask : list jstr -> res bool) rest : Forall (fun p : jstr * logop * list jstr => snd (fst p) = OR) rest -> forall r,
  fold_left (go_on ask) rest r = Ok false <-> r = Ok false /\ Forall (fun w => ask w = Ok false) (map snd rest).
Proof.
  induction rest as [|[[o op] w] rest IH]; intros F r; cbn [fold_left map snd].
  - split; [intros H; split; [exact H|constructor]|tauto].
  - inversion F as [|? ? P F']; subst. cbn [fst snd] in P. subst op. rewrite (IH F'), Forall_cons_iff. cbn [go_on]. destruct r as [[]|e]; [|tauto|]; split; intros [H _]; discriminate H.
Qed.
Lemma all_and E d dflt ws rest : opening ws -> followers rest -> Forall (fun p => snd (fst p) = AND) rest ->
  (evaluate_boolean E (unwords (chained ws rest)) d dflt = Ok true <-> Forall (fun w => evaluate_boolean E (unwords w) d dflt = Ok true) (ws :: map snd rest)).
Proof. intros C F A. rewrite (chain_value E d dflt ws rest C F), fold_and by exact A. rewrite Forall_cons_iff. reflexivity. Qed.
Lemma none_or E d dflt ws rest : opening ws -> followers rest -> Forall (fun p => snd (fst p) = OR) rest ->
  (evaluate_boolean E (unwords (chained ws rest)) d dflt = Ok false <-> Forall (fun w => evaluate_boolean E (unwords w) d dflt = Ok false) (ws :: map snd rest)).
Proof. intros C F A. rewrite (chain_value E d dflt ws rest C F), fold_or by exact A. rewrite Forall_cons_iff. reflexivity. Qed.

(** ** Parentheses that change nothing *)
Lemma terms_app ws1 m before o op ws2 n after : terms ws1 m before -> In (o, op) arithmetic_symbols -> terms ws2 n after ->
  terms (ws1 ++ o :: ws2) m (before ++ (op, n) :: after).
Proof.
  intros T1 I T2. induction T2 as [ws n T|ws n after o' op' ws' n' T2 IH I' T'].
  - apply terms_next; assumption.
  - change (before ++ (op, n) :: after ++ [(op', n')]) with (before ++ ((op, n) :: after) ++ [(op', n')]). rewrite app_assoc.
    change (o :: ws ++ o' :: ws') with ((o :: ws) ++ o' :: ws'). rewrite app_assoc. apply terms_next; [apply IH; exact T1|assumption|assumption].
Qed.
Lemma superfluous E d dflt ws1 m before o op ws2 n after : terms ws1 m before -> In (o, op) arithmetic_symbols -> terms ws2 n after ->
  Forall (fun p => tightness op <= tightness (fst p)) before -> Forall (fun p => tightness op < tightness (fst p)) after ->
  let whole w1 w2 := unwords (w1 ++ o :: w2) in
  (before <> [] -> evaluate_arith E (whole (bracketed ws1) ws2) d = evaluate_arith E (whole ws1 ws2) d /\
     evaluate_boolean E (whole (bracketed ws1) ws2) d dflt = evaluate_boolean E (whole ws1 ws2) d dflt) /\
  (after <> [] -> evaluate_arith E (whole ws1 (bracketed ws2)) d = evaluate_arith E (whole ws1 ws2) d /\
     evaluate_boolean E (whole ws1 (bracketed ws2)) d dflt = evaluate_boolean E (whole ws1 ws2) d dflt).
Proof.
  intros T1 I T2 A B whole. unfold whole. destruct (grouped_total before m) as [l L]. destruct (grouped_total after n) as [r R].
  assert (V : forall w1 w2 m' b' n' a', terms w1 m' b' -> terms w2 n' a' -> grouped m' b' l -> grouped n' a' r -> Forall (fun p => tightness op <= tightness (fst p)) b' ->
    Forall (fun p => tightness op < tightness (fst p)) a' -> evaluate_arith E (unwords (w1 ++ o :: w2)) d = arith_eval E d (NArith l (Some r) op) /\
    evaluate_boolean E (unwords (w1 ++ o :: w2)) d dflt = bool_eval E d (NArith l (Some r) op)).
  { intros w1 w2 m' b' n' a' U1 U2 G1 G2 A' B'. destruct (formula_value E d _ _ _ _ (terms_app _ _ _ _ _ _ _ _ U1 I U2) ltac:(destruct b'; discriminate) (grouped_split _ _ _ _ _ _ _ G1 G2 A' B')) as [V1 V2].
    split; [exact V1|apply V2]. }
  destruct (V ws1 ws2 m before n after T1 T2 L R A B) as [Va Vb]. rewrite Va, Vb. split; intros N.
  - apply (V (bracketed ws1) ws2 l [] n after); try assumption; [apply terms_first; eapply term_brackets; eassumption|constructor|constructor].
  - apply (V ws1 (bracketed ws2) m before r []); try assumption; [apply terms_first; eapply term_brackets; eassumption|constructor|constructor].
Qed.
(** One operator, or operators of one text: from the left *)
Lemma same_operator op rest : Forall (fun p : operator * node => fst p = op) rest -> forall m, grouped m rest (fold_left (fun l p => NArith l (Some (snd p)) op) rest m).
Proof.
  induction rest as [|[op' n] rest IH] using rev_ind; intros F m; [constructor|]. apply Forall_app in F as [F1 F2]. pose proof (Forall_inv F2) as P. cbn [fst] in P. subst op'.
  rewrite fold_left_app. cbn [fold_left snd]. apply grouped_split; [apply IH, F1|constructor| |constructor]. eapply Forall_impl; [|exact F1]. cbn beta. intros p ->. lia.
Qed.
