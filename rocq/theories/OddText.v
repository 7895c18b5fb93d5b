(** Texts in any layout, and forms of text that do not mean what they seem to. *)
From Coq Require Import QArith.
From Verif Require Import RecoverFacts RecoverTexts RecoverOrigin ListenAny SpecRecover AnyText.
From Verif Require Import Base JNum BigDec Dates Values Ops Funcs Ast Eval Lexer Grammar Listener Api SpecNum SpecBool SpecCompare SpecPath SpecArith SpecLex SpecTight SpecDate
  SpecGrammar SpecSyntax SpecText SpecOdd JNumFacts NumFacts CacheFacts BoolFacts CompareFacts ArithFacts ValuesFacts FieldFacts LexFacts LexSplit LexWords LexTight LexApi LexCases SyntaxFacts ParseFuel ParseFacts
  ParseShapes ListenFacts TextFacts TextApi ListText CompareWitness.
Local Open Scope nat_scope.

(** ** Layout *)
Lemma layout_irrelevant s s' ts dflt : lex s = Ok ts -> laid_out (map text ts) s' ->
  lex s' = Ok ts /\ parse_expression s' dflt = parse_expression s dflt /\
  forall E d, evaluate_boolean E s' d dflt = evaluate_boolean E s d dflt /\ evaluate_arith E s' d = evaluate_arith E s d.
Proof.
  intros L O. pose proof (laid_out_lex ts s' (lex_genuine _ _ L) O) as L'. split; [exact L'|].
  assert (P : forall df, parse_expression s' df = parse_expression s df) by (intros df; unfold parse_expression; rewrite L, L'; reflexivity).
  split; [apply P|]. intros E d. unfold evaluate_boolean, evaluate_arith. rewrite !P. auto.
Qed.
Lemma layout_words ts ws s : map text ts = ws -> Forall genuine ts -> laid_out ws s -> lex s = Ok ts.
Proof. intros <- G O. apply laid_out_lex; assumption. Qed.
Lemma layout_condition E d dflt s ws n t : written Nothing s ws n -> laid_out ws t ->
  evaluate_boolean E t d dflt = bool_eval E d n /\ evaluate_arith E t d = arith_eval E d n.
Proof.
  intros W O. destruct (written_good _ _ _ _ W) as [p [Y [G [R [Rg [S D]]]]]]. pose proof (layout_words (yield p) ws t Y G O) as L.
  pose proof (unwords_lex (yield p) G) as L0. rewrite Y in L0.
  assert (P : forall df, parse_expression t df = parse_expression (unwords ws) df) by (intros df; unfold parse_expression; rewrite L, L0; reflexivity).
  rewrite <- (written_boolean E d dflt _ _ _ W), <- (written_arith E d _ _ _ W). unfold evaluate_boolean, evaluate_arith. rewrite !P. auto.
Qed.
(** The one place where leaving out white space changes the tokens unexpectedly: four, two and two digits joined by "-". *)
Lemma date_not_difference y m d0 : Forall (fun c => is_digit c = true) (y ++ m ++ d0) -> length y = 4 -> length m = 2 -> length d0 = 2 ->
  lex (y ++ J "-" ++ m ++ J "-" ++ d0) = Ok [Tok T_DATE (y ++ J "-" ++ m ++ J "-" ++ d0)] /\
  lex (unwords [y; J "-"; m; J "-"; d0]) = Ok [Tok T_INTEGER y; minus; Tok T_INTEGER m; minus; Tok T_INTEGER d0].
Proof.
  intros F Ly Lm Ld. apply Forall_app in F. destruct F as [Fy F]. apply Forall_app in F. destruct F as [Fm Fd].
  assert (NN : forall l : jstr, l <> [] -> Forall (fun c => is_digit c = true) l -> genuine (Tok T_INTEGER l)) by (intros l N H; apply integer_genuine; split; assumption).
  split.
  - apply (genuine_lex (Tok T_DATE _)). 
    destruct y as [|a [|b [|c [|e [|? y]]]]]; try discriminate. destruct m as [|f [|g [|? m]]]; try discriminate. destruct d0 as [|h [|i [|? d0]]]; try discriminate.
    repeat match goal with H : Forall _ (_ :: _) |- _ => inversion H; clear H; subst end.
    split; cbn [kind text]; [|discriminate].
    assert (L : lexicon = firstn 37 lexicon ++ (T_DATE, date_re) :: skipn 38 lexicon) by reflexivity.
    match goal with |- picks ?w _ _ => assert (N : w <> []) by discriminate end. eapply (self_picks _ _ _ _ _ N L).
    + apply (matches_cat_classes _ date_classes); [apply date_single|]. split; [|reflexivity]. change (J "-") with [ch "-"]. cbn [app matches_classes date_classes].
      repeat match goal with H : is_digit _ = true |- _ => rewrite H end. reflexivity.
    + intros k r I. eapply before_date; [|reflexivity|eassumption|exact I]. change (J "-") with [ch "-"]. cbn [app In]. tauto.
  - apply (unwords_lex [Tok T_INTEGER y; minus; Tok T_INTEGER m; minus; Tok T_INTEGER d0]). pose proof minus_genuine.
    assert (genuine (Tok T_INTEGER y)) by (apply NN; [intros ->; discriminate|exact Fy]).
    assert (genuine (Tok T_INTEGER m)) by (apply NN; [intros ->; discriminate|exact Fm]).
    assert (genuine (Tok T_INTEGER d0)) by (apply NN; [intros ->; discriminate|exact Fd]). genuines.
Qed.

(** ** Reading a tree in any layout *)
Lemma layout_listen t ws s dflt : map text (yield t) = ws -> Forall genuine (yield t) -> reads 0 t eof -> laid_out ws s -> parse_expression s dflt = listen dflt t.
Proof.
  intros Y G R O. unfold parse_expression. rewrite (layout_words _ _ _ Y G O). cbn [bind]. rewrite (parse_any_complete t R). reflexivity.
Qed.
Lemma layout_meaning E s t ws n d dflt : map text (yield t) = ws -> Forall genuine (yield t) -> reads 0 t eof -> regular Nothing t -> denotes dflt t n -> laid_out ws s ->
  evaluate_boolean E s d dflt = bool_eval E d n.
Proof. intros Y G R Rg D O. apply (meaning_boolean E s t); try assumption. apply (layout_words _ _ _ Y G O). Qed.

(** ** Negative literals *)
Lemma negative_right E d dflt x m o op y n s : operand x m -> In (o, op) comparators -> operand y n -> laid_out [x; o; J "-"; y] s ->
  evaluate_boolean E s d dflt = bool_eval E d (NCmp m (NArith n None UNARY) op STRING).
Proof.
  intros X C Y O. destruct (operand_words _ _ X) as [kx [Gx Kx]]. destruct (operand_words _ _ Y) as [ky [Gy Ky]]. destruct (comparator_genuine _ _ C) as [kc [Gc Kc]].
  pose proof minus_genuine as GM.
  apply (layout_meaning E s (PCmp (PTypes (Tok kx x)) (Tok kc o) (PNeg (PTypes (Tok ky y)))) [x; o; J "-"; y]); [reflexivity|cbn [yield app]; genuines| | | |exact O].
  - eapply r_cmp; [exact Kc|apply comparator_level9, Kc|lia|apply r_operand; exact Kx|]. apply r_neg; [apply r_operand; exact Ky|].
    cbn. intros H. decompose [or] H; try discriminate; assumption.
  - apply g_cmp_right; [reflexivity| |right; discriminate]. apply g_neg_plain; [reflexivity|discriminate].
  - repeat (constructor; try assumption).
Qed.
Lemma natural_nonneg ds : digits ds -> (0 <= natural ds)%Z.
Proof. intros D. rewrite natural_val. apply (digits_val_nonneg ds). apply digits_all, D. Qed.
Lemma negated_literal E d y ty w q : operand y (NUnary ty w) -> In ty [INTEGER; LONG; DECIMAL] -> number w q ->
  exists w', arith_eval E d (NArith (NUnary ty w) None UNARY) = Ok w' /\ number w' (- q)%Q.
Proof.
  intros O I N.
  assert (INT : forall z q0, (0 <= z)%Z -> q0 == inject_Z z -> - q0 == inject_Z (- z)) by (intros z q0 _ E0; rewrite E0, inject_Z_opp; reflexivity).
  inversion O as [|ds D F|ds D F1 F2|a b0 A B| | | | | | ]; subst; try (exfalso; cbn in I; decompose [or] I; discriminate || contradiction).
  - inversion N as [z q0 Z0 Q0| | |]; subst. destruct (negate_whole E d (NUnary INTEGER (VInt (natural y))) (natural y)) as [[r [V [_ H]]] _]; [reflexivity|assumption|].
    pose proof (natural_nonneg y D). assert (G : fits32 (- natural y)) by (unfold fits32 in *; lia). rewrite (H G) in V. exists (VInt (- natural y)). split; [exact V|].
    apply number_int; [lia|]. apply INT; assumption.
  - inversion N as [|z q0 Z0 Q0| |]; subst. destruct (negate_whole E d (NUnary LONG (VLong (natural y))) (natural y)) as [_ [r [V [_ H]]]]; [reflexivity|assumption|].
    pose proof (natural_nonneg y D). assert (G : fits64 (- natural y)) by (unfold fits64 in *; lia). rewrite (H G) in V. exists (VLong (- natural y)). split; [exact V|].
    apply number_long; [lia|]. apply INT; assumption.
  - inversion N as [| |b q0 Q0|]; subst. destruct (negate_decimal E d (NUnary DECIMAL (VDec (BD (natural (a ++ b0)) (Z.of_nat (length b0))))) _ eq_refl) as [c [V Q1]].
    exists (VDec c). split; [exact V|]. apply number_dec. rewrite Q1, Q0. reflexivity.
Qed.
Lemma negative_number E d dflt x m o op y ty w v p q b s : operand x m -> In (o, op) comparators -> operand y (NUnary ty w) -> In ty [INTEGER; LONG; DECIMAL] ->
  laid_out [x; o; J "-"; y] s -> yields E d m v -> number v p -> number w q -> question op p (- q)%Q = Some b ->
  evaluate_boolean E s d dflt = Ok b.
Proof.
  intros X C Y I O Yv Np Nq Q. rewrite (negative_right E d dflt _ _ _ _ _ _ _ X C Y O). destruct (negated_literal E d y ty w q Y I Nq) as [w' [V Nw]].
  apply (compare_number_operands E d m (NArith (NUnary ty w) None UNARY) op STRING v w' p (- q)%Q b); try assumption.
  split; [exact V|]. split; [intros ->; inversion Nw|]. intros [f [H _]]. discriminate.
Qed.

(** ** Lists with odd elements *)
Lemma element_tree e b : element b e -> exists t, map text (yield t) = e /\ Forall genuine (yield t) /\ (forall next, ~ comparator (kind next) -> reads 0 t next) /\
  (forall dflt st, exists st', walk dflt t st = Ok st') /\
  (forall dflt s, if b then map_context dflt t s = Err InvalidExpression else exists n, map_context dflt t s = Ok (n, s)).
Proof.
  destruct 1 as [x n O|x n O|x n O]; destruct (operand_token _ _ O) as [k [G [K M]]].
  - exists (PTypes (Tok k x)). repeat split; [cbn [yield]; genuines|intros; apply r_operand; exact K|intros; eexists; reflexivity|].
    intros dflt s. exists n. cbn [map_context]. rewrite (M dflt). reflexivity.
  - pose proof minus_genuine. exists (PNeg (PTypes (Tok k x))). repeat split; [cbn [yield]; genuines|intros next NC; apply r_neg; [apply r_operand; exact K|exact NC]|].
    intros dflt st. cbn [walk bind]. unfold exit_unary. cbn [as_types]. rewrite (M dflt). cbn [bind]. destruct (stack (exit_types (Tok k x) st)) as [|[]]; eexists; reflexivity.
  - pose proof lparen_genuine. pose proof rparen_genuine. exists (PParen (PTypes (Tok k x))).
    repeat split; [cbn [yield app]; genuines|intros; apply r_paren, r_operand; exact K|intros; eexists; reflexivity].
Qed.
Lemma elements_tree es : es <> [] -> Forall (fun e => exists b, element b e) es -> exists items, map text (sep_yield items) = separated es /\ Forall genuine (sep_yield items) /\ reads_items items /\
  (forall dflt st, exists st', walk_list dflt items st = Ok st') /\
  (Exists (element true) es -> forall dflt s, map_elements dflt items s = Err InvalidExpression).
Proof.
  assert (NC1 : ~ comparator (kind comma)) by (cbn; intros X; decompose [or] X; try discriminate; assumption).
  assert (NC2 : ~ comparator (kind rparen)) by (cbn; intros X; decompose [or] X; try discriminate; assumption).
  induction es as [|e es IH]; [contradiction|]. intros _ F. inversion F as [|? ? [b El] F']; subst. destruct (element_tree e b El) as [t [Y [G [R [W M]]]]].
  assert (B : element true e -> b = true).
  { intros T. clear -El T. inversion El; subst; inversion T; subst; try reflexivity. }
  destruct es as [|e' es].
  - exists [t]. cbn [sep_yield separated]. split; [exact Y|]. split; [exact G|]. split; [apply r_last, R, NC2|]. split.
    + intros dflt st. destruct (W dflt st) as [st' E]. exists st'. cbn [walk_list]. rewrite E. reflexivity.
    + intros Ex dflt s. inversion Ex as [? ? T|? ? T]; subst; [|inversion T]. specialize (M dflt s). rewrite (B T) in M. cbn [map_elements]. rewrite M. reflexivity.
  - destruct IH as [items [Yi [Gi [Ri [Wi Mi]]]]]; [discriminate|exact F'|]. exists (t :: items).
    assert (SY : sep_yield (t :: items) = yield t ++ comma :: sep_yield items).
    { destruct items; [inversion Ri|]. reflexivity. }
    rewrite SY. split; [rewrite map_app, Y; cbn [map]; rewrite Yi; reflexivity|]. split; [apply Forall_app; split; [exact G|apply Forall_cons; [exact comma_genuine|exact Gi]]|].
    split; [apply r_more; [apply R, NC1|exact Ri]|]. split.
    + intros dflt st. destruct (W dflt st) as [st' E]. destruct (Wi dflt st') as [st2 E2]. exists st2. cbn [walk_list]. rewrite E. exact E2.
    + intros Ex dflt s. cbn [map_elements]. specialize (M dflt s). inversion Ex as [? ? T|? ? T]; subst.
      * rewrite (B T) in M. rewrite M. reflexivity.
      * destruct b; [rewrite M; reflexivity|]. destruct M as [n M]. rewrite M. cbn [bind fst snd]. rewrite (Mi T). reflexivity.
Qed.
Lemma list_brackets items ws : map text (sep_yield items) = ws -> map text (lparen :: sep_yield items ++ [rparen]) = bracketed ws.
Proof. intros <-. cbn [map]. rewrite map_app. reflexivity. Qed.
Lemma odd_function E d dflt f fn es s : In (f, fn) function_names -> es <> [] -> Forall (fun e => exists b, element b e) es -> Exists (element true) es ->
  laid_out (f :: bracketed (separated es)) s -> evaluate_boolean E s d dflt = Err InvalidExpression /\ evaluate_arith E s d = Err InvalidExpression.
Proof.
  intros I N F Ex O. destruct (elements_tree es N F) as [items [Y [G [R [W M]]]]]. destruct (function_token _ _ I) as [k [Gk [Kk Fk]]].
  assert (P : forall df, parse_expression s df = Err InvalidExpression).
  { intros df. rewrite (layout_listen (PFunc (Tok k f) items) (f :: bracketed (separated es)) s df); [| | |apply r_func; [exact Kk|exact R]|exact O].
    - unfold listen. rewrite walk_func. destruct (W df (LState [] None 0)) as [st' E0]. rewrite E0. cbn [bind]. unfold push_context. rewrite context_func. cbn [kind]. rewrite Fk.
      rewrite (M Ex). reflexivity.
    - change (f :: map text (lparen :: sep_yield items ++ [rparen]) = f :: bracketed (separated es)). f_equal. apply (list_brackets items), Y.
    - apply (list_end [Tok k f]); [genuines|exact G]. }
  unfold evaluate_boolean, evaluate_arith. rewrite !P. auto.
Qed.
Lemma odd_in E d dflt f no i es s : field_name f -> no = [] \/ (exists w, In w not_words /\ no = [w]) -> In i in_words -> es <> [] -> Forall (fun e => exists b, element b e) es -> Exists (element true) es ->
  laid_out (f :: no ++ i :: bracketed (separated es)) s -> evaluate_boolean E s d dflt = Err InvalidExpression.
Proof.
  intros Ff NO I N F Ex O. destruct (elements_tree es N F) as [items [Y [G [R [W M]]]]]. pose proof (field_genuine f Ff) as Gf.
  assert (Gi : genuine (Tok T_IN i)) by (apply (word_token T_IN (J "IN") (J "in")); [cbn; tauto|]; apply two_words, I).
  assert (X : exists neg, map text (match neg with Some n => [n] | None => [] end) = no /\ Forall genuine (match neg with Some n => [n] | None => [] end) /\
    forall next, reads 0 (PIn (Tok T_FIELD f) neg (Tok T_IN i) items) next).
  { destruct NO as [->|[w [Iw ->]]].
    - exists None. split; [reflexivity|]. split; [constructor|]. intros next. apply r_in; try reflexivity. exact R.
    - assert (Gn : genuine (Tok T_NOT w)) by (apply (word_token T_NOT (J "NOT") (J "not")); [cbn; tauto|]; apply two_words, Iw).
      exists (Some (Tok T_NOT w)). split; [reflexivity|]. split; [genuines|]. intros next. apply r_not_in; try reflexivity. exact R. }
  destruct X as [neg [Yn [Gn Rn]]]. unfold evaluate_boolean.
  rewrite (layout_listen (PIn (Tok T_FIELD f) neg (Tok T_IN i) items) (f :: no ++ i :: bracketed (separated es)) s dflt); [| | |apply Rn|exact O].
  - unfold listen. rewrite walk_in. destruct (W dflt (LState [] None 0)) as [st' E0]. rewrite E0. cbn [bind]. unfold push_context. rewrite context_in.
    rewrite (named_ok dflt (Tok T_FIELD f) Ff). cbn [bind]. rewrite (M Ex). reflexivity.
  - change (f :: map text (match neg with Some n => [n] | None => [] end ++ Tok T_IN i :: lparen :: sep_yield items ++ [rparen]) = f :: no ++ i :: bracketed (separated es)).
    f_equal. rewrite map_app, Yn. f_equal. cbn [map text]. f_equal. apply (list_brackets items), Y.
  - change (Forall genuine (Tok T_FIELD f :: match neg with Some n => [n] | None => [] end ++ Tok T_IN i :: lparen :: sep_yield items ++ [rparen])).
    apply Forall_cons; [exact Gf|]. apply Forall_app. split; [exact Gn|]. apply (list_end [Tok T_IN i]); [genuines|exact G].
Qed.
Lemma odd_array E d dflt f c op es s : field_name f -> In (c, op) array_operators -> es <> [] -> Forall (fun e => exists b, element b e) es -> Exists (element true) es ->
  laid_out (f :: c :: bracketed (separated es)) s -> evaluate_boolean E s d dflt = Err InvalidExpression.
Proof.
  intros Ff C N F Ex O. destruct (elements_tree es N F) as [items [Y [G [R [W M]]]]]. pose proof (field_genuine f Ff) as Gf.
  destruct (array_token _ _ C) as [k [Gk [Kk _]]]. unfold evaluate_boolean.
  rewrite (layout_listen (PArray (Tok T_FIELD f) (Tok k c) items) (f :: c :: bracketed (separated es)) s dflt); [| | |apply r_array; [reflexivity|exact Kk|exact R]|exact O].
  - unfold listen. rewrite walk_array. destruct (W dflt (LState [] None 0)) as [st' E0]. rewrite E0. cbn [bind]. unfold exit_array.
    rewrite (named_ok dflt (Tok T_FIELD f) Ff). cbn [bind]. rewrite (M Ex). reflexivity.
  - change (f :: c :: map text (lparen :: sep_yield items ++ [rparen]) = f :: c :: bracketed (separated es)). do 2 f_equal. apply (list_brackets items), Y.
  - apply (list_end [Tok T_FIELD f; Tok k c]); [genuines|exact G].
Qed.

(** ** A negative bound of a range *)
Lemma range_negative E d dflt x m y ty n to z p s : operand x m -> operand y (NUnary ty n) -> In to to_words -> operand z p -> laid_out [x; J "-"; y; to; z] s ->
  evaluate_boolean E s d dflt = Ok false.
Proof.
  intros X Y T Z O. destruct (operand_words _ _ X) as [kx [Gx Kx]]. destruct (operand_token _ _ Y) as [ky [Gy [Ky My]]]. destruct (operand_words _ _ Z) as [kz [Gz Kz]].
  assert (NF : ky <> T_FIELD) by (intros ->; specialize (My None); discriminate My).
  pose proof minus_genuine as GM. assert (GT : genuine (Tok T_TO to)) by (apply (word_token T_TO (J "TO") (J "to")); [cbn; tauto|]; apply two_words, T).
  set (ts := [Tok kx x; minus; Tok ky y]). assert (Gt : Forall genuine ts) by (unfold ts; genuines).
  destruct (trailing_accepted (unwords (map text ts)) s ts [Tok T_TO to; Tok kz z] dflt) as [_ P].
  - apply unwords_lex, Gt.
  - exists (PArith (PTypes (Tok kx x)) minus (PTypes (Tok ky y))). split; [reflexivity|].
    eapply r_arith; [cbn; tauto|reflexivity|lia|apply r_operand; exact Kx|apply r_operand; exact Ky].
  - exists [Tok kx x; minus], (Tok ky y). split; [reflexivity|]. cbn [kind]. right. cbn in Ky |- *. intuition congruence.
  - discriminate.
  - intros u us E0. injection E0 as <- _. reflexivity.
  - apply (layout_words _ [x; J "-"; y; to; z]); [reflexivity|unfold ts; cbn [app]; genuines|exact O].
  - unfold evaluate_boolean. rewrite P. change (evaluate_boolean E (unwords [x; J "-"; y]) d dflt = Ok false).
    rewrite (written_boolean E d dflt Arithmetic [x; J "-"; y] (NArith m (Some (NUnary ty n)) SUBTRACT)); [reflexivity|]. apply w_arith; [exact X|cbn; tauto|exact Y].
Qed.

(** ** A minus sign before a comparison *)
Lemma negated_left E d dflt x m o op y n s : operand x m -> In (o, op) comparators -> operand y n -> laid_out [J "-"; x; o; y] s ->
  evaluate_boolean E s d dflt = Err ClassCast.
Proof.
  intros X C Y O. destruct (operand_token _ _ X) as [kx [Gx [Kx Mx]]]. destruct (operand_token _ _ Y) as [ky [Gy [Ky My]]]. destruct (comparator_genuine _ _ C) as [kc [Gc Kc]].
  pose proof minus_genuine as GM. unfold evaluate_boolean.
  rewrite (layout_listen (PNeg (PCmp (PTypes (Tok kx x)) (Tok kc o) (PTypes (Tok ky y)))) [J "-"; x; o; y] s dflt); [|reflexivity|cbn [yield app]; genuines| |exact O].
  - unfold listen. cbn [walk bind]. unfold push_context, exit_types. cbn [stack map_context steals as_types]. rewrite (Mx dflt), (My dflt). reflexivity.
  - apply r_neg; [|cbn; intros H; decompose [or] H; try discriminate; assumption].
    eapply r_cmp; [exact Kc|apply comparator_level9, Kc|unfold negation_level; lia|apply r_operand; exact Kx|apply r_operand; exact Ky].
Qed.

(** ** NOT before a comparison *)
Lemma last_converted x m k : operand x m -> genuine (Tok k x) -> exists v, convert_value x (token_data_type (Tok k x)) = Ok v.
Proof.
  intros O G. inversion O; subst; try (edestruct literal_converted as [_ V]; [exact G|exact O|eauto]; fail).
  rewrite (genuine_kind _ _ _ G (field_genuine x H)). exists (VStr x). unfold token_data_type. cbn [kind].
  destruct H as [W _]. unfold convert_value, quoted_by. destruct x as [|c f]; [reflexivity|]. inversion W as [|? ? Wc _]; subst.
  assert (NC : (c =? ch "'")%N = false /\ (c =? 34)%N = false).
  { split; apply N.eqb_neq; intros ->; vm_compute in Wc; discriminate. }
  destruct NC as [-> ->]. reflexivity.
Qed.
Lemma not_comparison E d dflt no x m o op y n s : In no not_words -> operand x m -> In (o, op) comparators -> operand y n -> laid_out [no; x; o; y] s ->
  evaluate_boolean E s d dflt = Err InvalidExpression.
Proof.
  intros I X C Y O. destruct (operand_token _ _ X) as [kx [Gx [Kx Mx]]]. destruct (operand_token _ _ Y) as [ky [Gy [Ky My]]]. destruct (comparator_genuine _ _ C) as [kc [Gc Kc]].
  assert (Gn : genuine (Tok T_NOT no)) by (apply (word_token T_NOT (J "NOT") (J "not")); [cbn; tauto|]; apply two_words, I).
  destruct (last_converted x m kx X Gx) as [v V]. unfold evaluate_boolean.
  rewrite (layout_listen (PCmp (PNot (Tok T_NOT no) (PTypes (Tok kx x))) (Tok kc o) (PTypes (Tok ky y))) [no; x; o; y] s dflt); [|reflexivity|cbn [yield app]; genuines| |exact O].
  - unfold listen. cbn [walk bind]. unfold exit_not, exit_types. cbn [stack last_token text]. rewrite V. cbn [bind stack]. unfold push_context.
    cbn [stack map_context steals as_types is_parent orb negb top_is_cmp_or_bool]. rewrite (My dflt). reflexivity.
  - eapply r_cmp; [exact Kc|apply comparator_level9, Kc|lia| |apply r_operand; exact Ky]. apply r_not; [reflexivity|apply r_operand; exact Kx].
Qed.

(** ** Each evaluator and the expressions of the other *)
Lemma written_sort b s ws n : written b s ws n -> node_sort n = s.
Proof. induction 1; try reflexivity. assumption. Qed.
Lemma arithmetic_as_condition E d dflt s ws n t : written Nothing s ws n -> s = Arithmetic \/ s = Function -> laid_out ws t -> evaluate_boolean E t d dflt = Ok false.
Proof.
  intros W B O. rewrite (proj1 (layout_condition E d dflt _ _ _ _ W O)). apply written_sort in W. destruct n; cbn in W; destruct B; subst; try discriminate; reflexivity.
Qed.
Lemma condition_as_arithmetic E d s ws n t : written Nothing s ws n -> s = Logic \/ s = Member -> laid_out ws t -> evaluate_arith E t d = Err UnsupportedToken.
Proof.
  intros W B O. rewrite (proj2 (layout_condition E d None _ _ _ _ W O)). apply written_sort in W. destruct n; cbn in W; destruct B; subst; try discriminate; reflexivity.
Qed.

(** ** Redundant parentheses around a plain operand *)
Lemma bracket_compare E d dflt x m o op y n s (l r : bool) : operand x m -> In (o, op) comparators -> operand y n -> l || r = true ->
  laid_out ((if l then bracketed [x] else [x]) ++ o :: (if r then bracketed [y] else [y])) s -> evaluate_boolean E s d dflt = Err InvalidExpression.
Proof.
  intros X C Y B O. destruct (operand_token _ _ X) as [kx [Gx [Kx Mx]]]. destruct (operand_token _ _ Y) as [ky [Gy [Ky My]]]. destruct (comparator_genuine _ _ C) as [kc [Gc Kc]].
  pose proof lparen_genuine. pose proof rparen_genuine. unfold evaluate_boolean.
  set (tx := PTypes (Tok kx x)) in *. set (ty := PTypes (Tok ky y)) in *.
  rewrite (layout_listen (PCmp (if l then PParen tx else tx) (Tok kc o) (if r then PParen ty else ty)) ((if l then bracketed [x] else [x]) ++ o :: (if r then bracketed [y] else [y])) s dflt);
    [|destruct l, r; reflexivity|destruct l, r; unfold tx, ty; cbn [yield app]; genuines| |exact O].
  2: { eapply r_cmp; [exact Kc|apply comparator_level9, Kc|lia|destruct l; [apply r_paren|]; apply r_operand; exact Kx|destruct r; [apply r_paren|]; apply r_operand; exact Ky]. }
  unfold listen, tx, ty. destruct l, r; try discriminate; cbn [walk bind]; unfold push_context, exit_types; cbn [stack map_context steals as_types]; rewrite ?(My dflt); reflexivity.
Qed.
Lemma bracket_arith E d x m o op y n s (l r : bool) : operand x m -> In (o, op) arithmetic_symbols -> operand y n -> l || r = true ->
  laid_out ((if l then bracketed [x] else [x]) ++ o :: (if r then bracketed [y] else [y])) s ->
  evaluate_arith E s d = Err (if l && r then InvalidExpression else EmptyStack).
Proof.
  intros X C Y B O. destruct (operand_token _ _ X) as [kx [Gx [Kx Mx]]]. destruct (operand_token _ _ Y) as [ky [Gy [Ky My]]]. destruct (symbol_level _ _ C) as [kc [Gc [Kc Lc]]].
  pose proof lparen_genuine. pose proof rparen_genuine. unfold evaluate_arith.
  set (tx := PTypes (Tok kx x)) in *. set (ty := PTypes (Tok ky y)) in *.
  rewrite (layout_listen (PArith (if l then PParen tx else tx) (Tok kc o) (if r then PParen ty else ty)) ((if l then bracketed [x] else [x]) ++ o :: (if r then bracketed [y] else [y])) s None);
    [|destruct l, r; reflexivity|destruct l, r; unfold tx, ty; cbn [yield app]; genuines| |exact O].
  2: { eapply r_arith; [exact Kc|exact Lc|lia|destruct l; [apply r_paren|]; apply r_operand; exact Kx|destruct r; [apply r_paren|]; apply r_operand; exact Ky]. }
  unfold listen, tx, ty. destruct l, r; try discriminate; cbn [walk bind]; unfold push_context, exit_types; cbn [stack map_context as_types]; rewrite ?(Mx None), ?(My None); reflexivity.
Qed.

(** ** Words of digits and dots *)
Lemma part_digits w : matches ver_part w -> exists p, digits p /\ w = J "." ++ p.
Proof.
  intros M. apply matches_ver_part in M. destruct M as [d [ds [-> [D DS]]]]. exists (d :: ds). split; [|reflexivity].
  split; [discriminate|]. apply all_digits. cbn [forallb]. rewrite D, DS. reflexivity.
Qed.
Lemma star_parts w : matches (Star ver_part) w -> exists ps, Forall digits ps /\ w = concat (map (fun p => J "." ++ p) ps).
Proof.
  intros M. remember (Star ver_part) as r eqn:R. induction M; try discriminate.
  - exists []. split; [constructor|reflexivity].
  - injection R as ->. destruct (part_digits _ M1) as [p [P ->]]. destruct (IHM2 eq_refl) as [ps [PS ->]]. exists (p :: ps). split; [constructor; assumption|reflexivity].
Qed.
Lemma version_parts v : ver_ok WantDot v = true -> exists ps, ps <> [] /\ Forall digits ps /\ v = concat (map (fun p => J "." ++ p) ps).
Proof.
  intros V. apply ver_ok_sound in V. inversion V as [| |a b s t A B| | | |]; subst. destruct (part_digits _ A) as [p [P ->]]. destruct (star_parts _ B) as [ps [PS ->]].
  exists (p :: ps). split; [discriminate|]. split; [constructor; assumption|reflexivity].
Qed.
Lemma numeral_genuine w : numeral_like w -> genuine (Tok T_FIELD w).
Proof.
  intros [N [C [NI [ND NV]]]]. assert (NC : forallb numeric_char w = true).
  { apply forallb_forall. rewrite Forall_forall in C. intros c I. unfold numeric_char. destruct (C c I) as [D|D]; rewrite D; [reflexivity|apply orb_true_r]. }
  pose proof (forallb_impl _ _ w numeric_field NC) as FC. split; cbn [kind text]; [|discriminate].
  eapply (self_picks _ _ _ _ _ N field_position); [apply field_matches; assumption|]. intros k r I M.
  change (firstn 43 lexicon) with (firstn 34 lexicon ++ [(T_DECIMAL, cat [Plus digit; one "."; Plus digit]); (T_APP_VERSION, Cat digit (Plus (Cat (one ".") (Plus digit)))); (T_INTEGER, Plus digit)] ++ skipn 37 (firstn 43 lexicon)) in I.
  apply in_app_or in I. destruct I as [I|I]; [exact (before_decimal w k r N NC I M)|]. apply in_app_or in I. destruct I as [I|I].
  - cbn [In] in I. destruct I as [I|[I|[I|[]]]]; injection I as <- <-.
    + apply matches_decimal in M. destruct M as [a [b [E [NA [DA [NB DB]]]]]]. apply (ND a b); [split; [assumption|apply all_digits; assumption]|split; [assumption|apply all_digits; assumption]|exact E].
    + change (Cat (one ".") (Plus digit)) with ver_part in M. apply matches_version in M. destruct M as [c [v [-> [D V]]]]. destruct (version_parts v V) as [ps [Np [Fp ->]]].
      apply (NV c ps D Np Fp). reflexivity.
    + apply (matches_plus _ _ _ single_digit) in M. apply NI. split; [exact N|apply all_digits, M].
  - assert (AT : forall i c, nth_error w i = Some c -> is_field_char c = true) by (intros i c Ic; apply nth_error_In in Ic; rewrite forallb_forall in FC; apply FC, Ic).
    unfold lexicon in I. cbn [firstn skipn In] in I. destruct I as [I|[I|[I|[I|[I|[I|[]]]]]]]; injection I as <- <-.
    + apply (matches_cat_classes _ date_classes _ date_single) in M. destruct M as [M _]. destruct (matches_classes_nth _ _ 4 _ M eq_refl) as [c [E Cc]]. apply N.eqb_eq in Cc. subst c. discriminate (AT _ _ E).
    + apply (matches_cat_classes _ datetime_classes _ datetime_single) in M. destruct M as [M _]. destruct (matches_classes_nth _ _ 4 _ M eq_refl) as [c [E Cc]]. apply N.eqb_eq in Cc. subst c. discriminate (AT _ _ E).
    + apply (matches_plus _ _ _ (single_any blank)) in M. destruct M as [_ M]. destruct w as [|c w]; [contradiction|].
      cbn [forallb] in M. apply andb_true_iff in M. destruct M as [M _]. rewrite blank_is_ws in M. apply ws_not_field in M. rewrite (AT 0 c eq_refl) in M. discriminate.
    + apply matches_or in M. destruct M as [M|M]; apply matches_quoted in M; destruct M as [b [-> _]]; discriminate.
    + apply matches_quoted in M. destruct M as [b [-> _]]. discriminate.
    + apply matches_quoted in M. destruct M as [b [-> _]]. discriminate.
Qed.
Lemma numeral_looked_up E d w : numeral_like w -> evaluate_arith E w d = arith_eval E d (NField (Some w)).
Proof. intros F. unfold evaluate_arith. rewrite (bare_parse T_FIELD w None (numeral_genuine w F)) by (cbn; tauto). reflexivity. Qed.
Lemma numeral_compared E d dflt x m o op w s : operand x m -> In (o, op) comparators -> numeral_like w -> laid_out [x; o; w] s ->
  evaluate_boolean E s d dflt = bool_eval E d (NCmp m (NField (Some w)) op STRING).
Proof.
  intros X C F O. destruct (operand_token _ _ X) as [kx [Gx [Kx Mx]]]. destruct (comparator_genuine _ _ C) as [kc [Gc Kc]]. pose proof (numeral_genuine w F) as Gw.
  destruct (comparator_kind _ _ _ Gc C) as [_ Oc].
  unfold evaluate_boolean. rewrite (layout_listen (PCmp (PTypes (Tok kx x)) (Tok kc o) (PTypes (Tok T_FIELD w))) [x; o; w] s dflt); [|reflexivity|cbn [yield app]; genuines| |exact O].
  - assert (Mw : map_types_token dflt (Tok T_FIELD w) = Ok (NField (Some w))) by (unfold map_types_token; cbn [kind]; rewrite (genuine_not_blank _ Gw); reflexivity).
    unfold listen. cbn [walk bind]. unfold push_context, exit_types. cbn [stack map_context steals as_types]. rewrite (Mx dflt), Mw. cbn [bind fst snd stack exit_parse kind].
    rewrite Oc, !cmp_unfold. reflexivity.
  - eapply r_cmp; [exact Kc|apply comparator_level9, Kc|lia|apply r_operand; exact Kx|apply r_operand; cbn; tauto].
Qed.
