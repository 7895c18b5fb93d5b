(** Comparisons of two compound sides. *)
From Coq Require Import QArith Lqa.
From Verif Require Import RecoverFacts.
From Verif Require Import Base JNum BigDec Dates Values Ops Funcs Ast Eval Lexer Grammar Listener Api SpecNum SpecCompare SpecArith SpecLex SpecGrammar SpecSyntax SpecText SpecChain SpecQuote SpecRepr
  NumFacts CompareFacts ExactFacts LexFacts LexSplit LexWords SyntaxFacts ParseFacts ListenFacts TextFacts TextApi ChainFacts ChainText TrendFacts GrowFacts ReprFacts TextCases LexCases LexApi.
Local Open Scope nat_scope.

Lemma compound_types dflt t : compound t -> as_types dflt t = None.
Proof. destruct t; cbn [compound]; intros H; try contradiction; reflexivity. Qed.
Lemma compare_rejected dflt l o r st : compound l -> compound r -> is_parent l = true \/ is_parent r = true -> exists e, walk dflt (PCmp l o r) st = Err e.
Proof.
  intros Cl Cr P. cbn [walk]. destruct (walk dflt l st) as [st1|e]; cbn [bind]; [|eauto]. destruct (walk dflt r st1) as [st2|e]; cbn [bind]; [|eauto].
  unfold push_context. cbn [map_context]. rewrite (compound_types _ _ Cl), (compound_types _ _ Cr).
  assert (M : exists e, (bs <- map_context dflt r (stack st2) ;; as_ <- map_context dflt l (snd bs) ;; Ok (NCmp (fst as_) (fst bs) (operator_of (kind o)) (token_data_type (start r)), snd as_)) = Err e).
  { destruct P as [P|P]; [destruct l; try discriminate P|destruct r; try discriminate P].
    - destruct (map_context dflt r (stack st2)) as [bs|e]; cbn [bind]; [|eauto]. cbn [map_context bind]. eauto.
    - cbn [map_context bind]. eauto. }
  destruct M as [e M]. destruct (steals l r (stack st2)); rewrite M; cbn [bind]; eauto.
Qed.
Lemma list_rejected dflt items i : In i items -> (forall st, exists e, walk dflt i st = Err e) -> forall st, exists e, walk_list dflt items st = Err e.
Proof.
  induction items as [|j items IH]; intros I H st; [contradiction|]. change (walk_list dflt (j :: items) st) with (st' <- walk dflt j st ;; walk_list dflt items st').
  destruct I as [-> | I]; [destruct (H st) as [e ->]; cbn [bind]; eauto|]. destruct (walk dflt j st) as [st'|e]; cbn [bind]; [apply IH; assumption|eauto].
Qed.
Lemma inside_rejected dflt u t : inside u t -> (forall st, exists e, walk dflt u st = Err e) -> forall st, exists e, walk dflt t st = Err e.
Proof.
  intros In_ H. induction In_ as [|t In_ IH|no t In_ IH|t In_ IH|f i items I In_ IH|f no w i items I In_ IH|f o i items I In_ IH|l o r In_ IH|l o r In_ IH|l o r In_ IH|l o r In_ IH|l o r In_ IH|l o r In_ IH];
    intros st; try (cbn [walk]; destruct (IH st) as [e ->]; cbn [bind]; eauto; fail);
    try (cbn [walk]; destruct (walk dflt l st) as [st'|e]; cbn [bind]; [|eauto]; destruct (IH st') as [e ->]; cbn [bind]; eauto; fail).
  - apply H.
  - rewrite walk_func. destruct (list_rejected dflt items i I IH st) as [e ->]. cbn [bind]. eauto.
  - rewrite walk_in. destruct (list_rejected dflt items i I IH st) as [e ->]. cbn [bind]. eauto.
  - rewrite walk_array. destruct (list_rejected dflt items i I IH st) as [e ->]. cbn [bind]. eauto.
Qed.
Lemma sides_rejected s t dflt l o r : lex s = Ok (yield t) -> reads 0 t eof -> inside (PCmp l o r) t -> compound l -> compound r ->
  (exists t', l = PParen t' \/ r = PParen t') -> exists e, parse_expression s dflt = Err e /\ forall E d, evaluate_boolean E s d dflt = Err e.
Proof.
  intros L R In_ Cl Cr [t' P]. assert (P' : is_parent l = true \/ is_parent r = true) by (destruct P as [-> | ->]; [left|right]; reflexivity).
  destruct (inside_rejected dflt _ _ In_ (fun st => compare_rejected dflt l o r st Cl Cr P') (LState [] None 0)) as [e W]. exists e.
  assert (X : parse_expression s dflt = Err e) by (unfold parse_expression; rewrite L; cbn [bind]; rewrite (parse_any_complete t R); cbn [bind]; unfold listen; rewrite W; reflexivity).
  split; [exact X|]. intros E d. unfold evaluate_boolean. rewrite X. reflexivity.
Qed.

(** ** As a difference *)
Lemma difference_question op p q : question op (p - q)%Q 0%Q = question op p q.
Proof.
  assert (A : Qeq_bool (p - q) 0 = Qeq_bool p q) by (apply Bool.eq_true_iff_eq; rewrite !Qeq_bool_iff; split; intros; lra).
  assert (B : Qle_bool (p - q) 0 = Qle_bool p q) by (apply Bool.eq_true_iff_eq; rewrite !Qle_bool_iff; split; intros; lra).
  assert (C : Qle_bool 0 (p - q) = Qle_bool q p) by (apply Bool.eq_true_iff_eq; rewrite !Qle_bool_iff; split; intros; lra).
  unfold question. rewrite A, B, C. reflexivity.
Qed.
Lemma zero_operand : operand (J "0") (NUnary INTEGER (VInt 0)).
Proof. intop (J "0"). Qed.
Lemma as_difference E d dflt ws1 m1 r1 n1 ws2 m2 r2 n2 c op v w p q b : terms ws1 m1 r1 -> r1 <> [] -> grouped m1 r1 n1 -> terms ws2 m2 r2 -> r2 <> [] -> grouped m2 r2 n2 ->
  In (c, op) comparators -> evaluate_arith E (unwords ws1) d = Ok v -> evaluate_arith E (unwords ws2) d = Ok w -> number v p -> number w q -> room v SUBTRACT w -> question op p q = Some b ->
  evaluate_boolean E (unwords (bracketed (bracketed ws1 ++ J "-" :: bracketed ws2) ++ [c; J "0"])) d dflt = Ok b.
Proof.
  intros T1 N1 G1 T2 N2 G2 I V W Pv Qw Rm Qn. rewrite (proj1 (formula_value E d ws1 m1 r1 n1 T1 N1 G1)) in V. rewrite (proj1 (formula_value E d ws2 m2 r2 n2 T2 N2 G2)) in W.
  assert (Ps : passage Nothing Arithmetic (bracketed ws1 ++ J "-" :: bracketed ws2) (bin n1 SUBTRACT n2)).
  { apply (passage_formula Nothing _ n1 ([] ++ [(SUBTRACT, n2)])); [|discriminate|].
    - apply (terms_next (bracketed ws1) n1 [] (J "-") SUBTRACT (bracketed ws2) n2); [|sym|eapply term_brackets; eassumption]. apply terms_first. eapply term_brackets; eassumption.
    - apply (grouped_split n1 [] SUBTRACT n2 []); constructor. }
  pose proof (clause_left Nothing Arithmetic _ c (J "0") _ op _ INTEGER Ps I zero_operand) as C.
  rewrite (proj1 (passage_value E d dflt _ _ _ (passage_clause _ _ _ _ C))).
  destruct (room_number E d n1 n2 SUBTRACT v w p q V W Pv Qw (or_intror (or_introl eq_refl)) Rm) as [x [X Nx]]. cbn [rational_op] in Nx.
  assert (Z0 : number (VInt 0) 0%Q) by (constructor; [unfold fits32; lia|reflexivity]).
  apply (compare_number_operands E d _ _ op INTEGER x (VInt 0) (p - q)%Q 0%Q b); [| |exact Nx|exact Z0|rewrite difference_question; exact Qn].
  - exact (not_field E d _ x _ (bin_word _ _ _) X Nx).
  - apply (not_field E d _ (VInt 0) 0%Q); [intros [g [G _]]; discriminate|reflexivity|exact Z0].
Qed.
