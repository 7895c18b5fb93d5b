(** Texts and trees. *)
From Verif Require Import RecoverFacts.
From Verif Require Import Base JNum BigDec Dates Values Ops Funcs Ast Eval Lexer Grammar Listener Api SpecBool SpecCompare SpecPath SpecArith SpecLex SpecDate
  SpecGrammar SpecSyntax SpecText NumFacts CacheFacts BoolFacts CompareFacts ValuesFacts FieldFacts LexFacts LexSplit LexWords LexApi LexCases SyntaxFacts ParseFuel ParseFacts ListenFacts.

(** ** Trees and evaluation *)
Lemma listen_regular dflt t n0 : regular Nothing t -> Forall genuine (yield t) -> denotes dflt t n0 -> exists n, listen dflt t = Ok n /\ denotes dflt t n.
Proof.
  intros R G D. destruct (walk_regular dflt Nothing t R n0 (LState [] None 0) G D) as [n [st [W [S [Dn _]]]]]; [constructor|reflexivity|].
  exists n. split; [|exact Dn]. unfold listen. rewrite W. cbn [bind]. unfold exit_parse. rewrite S. reflexivity.
Qed.
Lemma meaning_boolean E s t n d dflt : lex s = Ok (yield t) -> reads 0 t eof -> regular Nothing t -> denotes dflt t n ->
  evaluate_boolean E s d dflt = bool_eval E d n.
Proof.
  intros L R Rg D. destruct (listen_regular dflt t n Rg (lex_genuine _ _ L) D) as [n' [Ls D']].
  unfold evaluate_boolean, parse_expression. rewrite L. cbn [bind]. rewrite (parse_any_complete t R). cbn [bind]. rewrite Ls. cbn [bind].
  apply (denotes_same E d dflt t n' n D' D).
Qed.
Lemma meaning_arith E s t n d : lex s = Ok (yield t) -> reads 0 t eof -> regular Nothing t -> denotes None t n ->
  evaluate_arith E s d = arith_eval E d n.
Proof.
  intros L R Rg D. destruct (listen_regular None t n Rg (lex_genuine _ _ L) D) as [n' [Ls D']].
  unfold evaluate_arith, parse_expression. rewrite L. cbn [bind]. rewrite (parse_any_complete t R). cbn [bind]. rewrite Ls. cbn [bind].
  apply (denotes_same E d None t n' n D' D).
Qed.

(** ** Words *)
Lemma unwords_spaced ts : spaced ts (unwords (map text ts)).
Proof.
  induction ts as [|t ts IH]; [constructor; constructor|]. destruct ts as [|t' ts].
  - cbn [map unwords]. rewrite <- (app_nil_r (text t)). apply (sp_one [] t []); constructor.
  - change (unwords (map text (t :: t' :: ts))) with ([] ++ text t ++ 32%N :: unwords (map text (t' :: ts))). apply sp_more; [constructor|reflexivity|discriminate|exact IH].
Qed.
Lemma unwords_lex ts : Forall genuine ts -> lex (unwords (map text ts)) = Ok ts.
Proof. intros G. apply spaced_lex; [exact G|apply unwords_spaced]. Qed.

Definition open (next : token) : Prop := ~ comparator (kind next).
Definition good (b s : sort) (ws : list jstr) (n : node) (t : ptree) : Prop :=
  map text (yield t) = ws /\ Forall genuine (yield t) /\ (forall next, open next -> reads 0 t next) /\ regular b t /\ sort_of t = s /\
  forall dflt, denotes dflt t n.

Lemma lparen_genuine : genuine lparen.
Proof. apply (lex_one_genuine T_LPAREN). vm_compute. reflexivity. Qed.
Lemma rparen_genuine : genuine rparen.
Proof. apply (lex_one_genuine T_RPAREN). vm_compute. reflexivity. Qed.
Lemma comma_genuine : genuine comma.
Proof. apply (lex_one_genuine T_COMMA). vm_compute. reflexivity. Qed.
Lemma minus_genuine : genuine minus.
Proof. apply (lex_one_genuine T_SUBTRACT). vm_compute. reflexivity. Qed.
Lemma word_token k up lo w : In (k, up, lo) keywords -> w = up \/ w = lo -> genuine (Tok k w).
Proof.
  intros I H. apply lex_one_genuine. destruct (keyword_lex k up lo I) as [A B]. destruct H as [-> | ->]; assumption.
Qed.
Lemma two_words (w a b : jstr) : In w [a; b] -> w = a \/ w = b.
Proof. intros [H|[H|[]]]; auto. Qed.
Lemma open_rparen : open rparen.
Proof. intros H. cbn in H. decompose [or] H; try discriminate; contradiction. Qed.
Lemma open_eof : open eof.
Proof. intros H. cbn in H. decompose [or] H; try discriminate; contradiction. Qed.

Lemma paren_good b s ws n t : good b s ws n t -> good b s (bracketed ws) n (PParen t) /\ forall m next, reads m (PParen t) next.
Proof.
  intros [Y [G [R [Rg [S D]]]]]. assert (RP : forall m next, reads m (PParen t) next) by (intros; constructor; apply R, open_rparen).
  split; [|exact RP]. split; [|split; [|split; [|split; [|split]]]].
  - cbn [yield]. cbn [map]. rewrite map_app, Y. reflexivity.
  - cbn [yield]. constructor; [exact lparen_genuine|]. apply Forall_app. split; [exact G|]. constructor; [exact rparen_genuine|constructor].
  - auto.
  - constructor; exact Rg.
  - exact S.
  - intros dflt. constructor. apply D.
Qed.

Lemma listed_good ws ns : listed ws ns -> exists items, map text (sep_yield items) = commas ws /\ Forall genuine (sep_yield items) /\ reads_items items /\
  forallb plain items = true /\ forall dflt, denotes_list dflt items ns.
Proof.
  intros [N F]. induction F as [|w n ws ns O F IH]; [contradiction|]. destruct (operand_token w n O) as [k [Gk [K _]]].
  destruct F as [|w' n' ws ns O' F].
  - exists [PTypes (Tok k w)]. split; [reflexivity|]. split; [constructor; [exact Gk|constructor]|]. split; [constructor; constructor; exact K|]. split; [reflexivity|].
    intros dflt. constructor; [constructor; exact O|constructor].
  - destruct IH as [items [Y [G [R [P D]]]]]; [discriminate|]. exists (PTypes (Tok k w) :: items). pose proof (reads_items_nonempty _ R) as NI.
    split; [|split; [|split; [|split]]].
    + rewrite sep_yield_cons by exact NI. cbn [yield map app]. rewrite Y. reflexivity.
    + rewrite sep_yield_cons by exact NI. cbn [yield app]. constructor; [exact Gk|]. constructor; [exact comma_genuine|exact G].
    + apply r_more; [constructor; exact K|exact R].
    + cbn [forallb plain]. exact P.
    + intros dflt. constructor; [constructor; exact O|apply D].
Qed.
Lemma list_end f items : Forall genuine f -> Forall genuine (sep_yield items) -> Forall genuine (f ++ lparen :: sep_yield items ++ [rparen]).
Proof. intros F G. apply Forall_app. split; [exact F|]. constructor; [exact lparen_genuine|]. apply Forall_app. split; [exact G|]. constructor; [exact rparen_genuine|constructor]. Qed.
Lemma list_words items ws : map text (sep_yield items) = commas ws -> map text (lparen :: sep_yield items ++ [rparen]) = bracketed (commas ws).
Proof. intros Y. cbn [map]. rewrite map_app, Y. reflexivity. Qed.

Lemma operand_good x m : operand x m -> exists t, plain t = true /\ map text (yield t) = [x] /\ Forall genuine (yield t) /\ (forall k next, reads k t next) /\ forall dflt, denotes dflt t m.
Proof.
  intros O. destruct (operand_token x m O) as [k [Gk [K _]]]. exists (PTypes (Tok k x)). split; [reflexivity|]. split; [reflexivity|].
  split; [constructor; [exact Gk|constructor]|]. split; [intros; constructor; exact K|]. intros dflt. constructor; exact O.
Qed.
Lemma kind_number k x tx v : genuine (Tok k x) -> operand x (NUnary tx v) -> In tx [INTEGER; LONG; DECIMAL] -> number_kind k.
Proof.
  intros G O I. destruct (literal_converted k x tx v G O) as [T _]. destruct (operand_mapped k x _ None G O) as [K M].
  unfold number_kind. cbn in K. decompose [or] K; subst; try contradiction; cbn; try tauto; cbn in I; exfalso; cbn in *;
    decompose [or] I; try discriminate; contradiction.
Qed.

Lemma infix_yield l o r ws1 ws2 : map text (yield l) = ws1 -> map text (yield r) = ws2 -> map text (yield l ++ o :: yield r) = ws1 ++ text o :: ws2.
Proof. intros <- <-. rewrite map_app. reflexivity. Qed.
Lemma infix_genuine l o r : Forall genuine (yield l) -> genuine o -> Forall genuine (yield r) -> Forall genuine (yield l ++ o :: yield r).
Proof. intros. apply Forall_app. split; [assumption|constructor; assumption]. Qed.

Lemma comparator_level9 k : comparator k -> level k = Some 9.
Proof. apply comparator_level. Qed.
Lemma arithmetic_level k : arithmetic_op k -> exists m, level k = Some m.
Proof. intros H. cbn in H. decompose [or] H; subst; try contradiction; cbn; eauto. Qed.
Lemma connective_level k : connective k -> level k = Some 1.
Proof. intros H. cbn in H. decompose [or] H; subst; try contradiction; reflexivity. Qed.
Lemma comparator_genuine o op : In (o, op) comparators -> exists k, genuine (Tok k o) /\ comparator k.
Proof. intros I. destruct (comparator_token o op I) as [k [G _]]. exists k. split; [exact G|]. apply (comparator_kind k o op G I). Qed.

Definition everywhere (t : ptree) : Prop := forall m next, reads m t next.
Lemma cmp_good b l o op r a c dt ws1 ws2 : map text (yield l) = ws1 -> map text (yield r) = ws2 -> Forall genuine (yield l) -> Forall genuine (yield r) -> everywhere l -> everywhere r ->
  In (o, op) comparators -> (forall dflt, denotes dflt l a) -> (forall dflt, denotes dflt r c) -> (forall k, regular b (PCmp l (Tok k o) r)) ->
  exists t, good b Logic (ws1 ++ o :: ws2) (NCmp a c op dt) t.
Proof.
  intros Y1 Y2 G1 G2 R1 R2 I D1 D2 Rg. destruct (comparator_genuine o op I) as [k [G C]]. exists (PCmp l (Tok k o) r).
  split; [apply infix_yield; assumption|]. split; [apply infix_genuine; assumption|]. split; [|split; [apply Rg|split; [reflexivity|]]].
  - intros next _. eapply r_cmp; [exact C|apply comparator_level9, C|lia|apply R1|apply R2].
  - intros dflt. constructor; auto.
Qed.
Lemma arith_good b l o op r a c ws1 ws2 : map text (yield l) = ws1 -> map text (yield r) = ws2 -> Forall genuine (yield l) -> Forall genuine (yield r) -> everywhere l -> everywhere r ->
  In (o, op) arithmetic_symbols -> (forall dflt, denotes dflt l a) -> (forall dflt, denotes dflt r c) -> (forall k, regular b (PArith l (Tok k o) r)) ->
  exists t, good b Arithmetic (ws1 ++ o :: ws2) (NArith a (Some c) op) t.
Proof.
  intros Y1 Y2 G1 G2 R1 R2 I D1 D2 Rg. destruct (arithmetic_token o op I) as [k [G [C _]]]. destruct (arithmetic_level k C) as [m L]. exists (PArith l (Tok k o) r).
  split; [apply infix_yield; assumption|]. split; [apply infix_genuine; assumption|]. split; [|split; [apply Rg|split; [reflexivity|]]].
  - intros next _. eapply r_arith; [exact C|exact L|lia|apply R1|apply R2].
  - intros dflt. constructor; auto.
Qed.

Lemma written_good b s ws n : written b s ws n -> exists t, good b s ws n t.
Proof.
  induction 1 as [b s ws n W [t IH]|b x o y m op n dt B Ox I Oy|b s x o ws m op n dt Ox I W [t IH]|b s ws o y m op n dt W [t IH] I Oy
    |b f fn ws ms o y op n dt If L I Oy|b f lo to hi x y tx ty F Ol Oh Tx Ty I|b f i ws ns F I L|b f no i ws ns F In_ I L|b f c op ws ns F I L
    |b s no ws n I W [t IH]|b s1 s2 ws1 o ws2 m op n W1 [t1 IH1] I W2 [t2 IH2]|b x o y m op n Ox I Oy|b s x o ws m op n Ox I W [t IH]
    |b s ws o y m op n W [t IH] I Oy|b s1 s2 ws1 o ws2 m op n W1 [t1 IH1] I W2 [t2 IH2]|b x m B O|b ws m W [t IH]|b f fn ws ns If L].
  - exists (PParen t). apply paren_good, IH.
  - destruct (operand_good _ _ Ox) as [l [P1 [Y1 [G1 [R1 D1]]]]]. destruct (operand_good _ _ Oy) as [r [P2 [Y2 [G2 [R2 D2]]]]].
    apply (cmp_good b l o op r m n dt [x] [y]); try assumption. intros k. apply g_cmp_plain; assumption.
  - destruct (operand_good _ _ Ox) as [l [P1 [Y1 [G1 [R1 D1]]]]]. destruct (paren_good _ _ _ _ _ IH) as [[Y2 [G2 [_ [Rg [_ D2]]]]] R2].
    apply (cmp_good b l o op (PParen t) m n dt [x] (bracketed ws)); try assumption. intros k. apply g_cmp_right; [exact P1|exact Rg|left; exists t; reflexivity].
  - destruct (operand_good _ _ Oy) as [r [P1 [Y1 [G1 [R1 D1]]]]]. destruct (paren_good _ _ _ _ _ IH) as [[Y2 [G2 [_ [Rg [_ D2]]]]] R2].
    apply (cmp_good b (PParen t) o op r m n dt (bracketed ws) [y]); try assumption. intros k. apply g_cmp_left; [exact Rg|exact P1|left; exists t; reflexivity].
  - destruct (listed_good _ _ L) as [items [Y [G [R [P D]]]]]. destruct (function_token f fn If) as [kf [Gf [Kf _]]]. destruct (operand_good _ _ Oy) as [r [P1 [Y1 [G1 [R1 D1]]]]].
    change (f :: bracketed (commas ws) ++ [o; y]) with ((f :: bracketed (commas ws)) ++ [o; y]).
    apply (cmp_good b (PFunc (Tok kf f) items) o op r (NFunc fn ms) n dt (f :: bracketed (commas ws)) [y]); try assumption.
    + rewrite yield_func. cbn [map text]. f_equal. apply list_words, Y.
    + rewrite yield_func. apply (list_end [Tok kf f]); [constructor; [exact Gf|constructor]|exact G].
    + intros k next. apply r_func; assumption.
    + intros dflt. apply d_func; [exact If|apply D].
    + intros k. apply g_cmp_left; [apply g_func; exact P|exact P1|right; discriminate].
  - destruct (operand_token _ _ Ol) as [kl [Gl _]]. destruct (operand_token _ _ Oh) as [kh [Gh _]].
    exists (PTo (Tok T_FIELD f) (Tok kl lo) (Tok T_TO to) (Tok kh hi)). split; [reflexivity|]. split; [|split; [|split; [constructor|split; [reflexivity|]]]].
    + repeat (apply Forall_cons); try apply Forall_nil; try assumption; [apply field_genuine, F|]. apply (word_token T_TO (J "TO") (J "to")); [cbn; tauto|]; apply two_words, I.
    + intros next _. apply r_range; try reflexivity; [apply (kind_number kl lo tx x)|apply (kind_number kh hi ty y)]; assumption.
    + intros dflt. apply (d_range dflt (Tok T_FIELD f)); assumption.
  - destruct (listed_good _ _ L) as [items [Y [G [R [P D]]]]]. exists (PIn (Tok T_FIELD f) None (Tok T_IN i) items).
    assert (Gi : genuine (Tok T_IN i)) by (apply (word_token T_IN (J "IN") (J "in")); [cbn; tauto|]; apply two_words, I).
    split; [|split; [|split; [|split; [constructor; exact P|split; [reflexivity|]]]]].
    + rewrite yield_in. cbn [app map text]. do 2 f_equal. apply list_words, Y.
    + rewrite yield_in. apply (list_end [Tok T_FIELD f; Tok T_IN i]); [|exact G]. repeat (apply Forall_cons); try apply Forall_nil; [apply field_genuine, F|exact Gi].
    + intros next _. apply r_in; try reflexivity. exact R.
    + intros dflt. apply (d_in dflt (Tok T_FIELD f)); [exact F|apply D].
  - destruct (listed_good _ _ L) as [items [Y [G [R [P D]]]]]. exists (PIn (Tok T_FIELD f) (Some (Tok T_NOT no)) (Tok T_IN i) items).
    assert (Gi : genuine (Tok T_IN i)) by (apply (word_token T_IN (J "IN") (J "in")); [cbn; tauto|]; apply two_words, I).
    assert (Gn : genuine (Tok T_NOT no)) by (apply (word_token T_NOT (J "NOT") (J "not")); [cbn; tauto|]; apply two_words, In_).
    split; [|split; [|split; [|split; [constructor; exact P|split; [reflexivity|]]]]].
    + rewrite yield_in. cbn [app map text]. do 3 f_equal. apply list_words, Y.
    + rewrite yield_in. apply (list_end [Tok T_FIELD f; Tok T_NOT no; Tok T_IN i]); [|exact G]. repeat (apply Forall_cons); try apply Forall_nil; [apply field_genuine, F|exact Gn|exact Gi].
    + intros next _. apply r_not_in; try reflexivity. exact R.
    + intros dflt. apply (d_not_in dflt (Tok T_FIELD f)); [exact F|apply D].
  - destruct (listed_good _ _ L) as [items [Y [G [R [P D]]]]]. destruct (array_token c op I) as [k [Gk [K _]]]. exists (PArray (Tok T_FIELD f) (Tok k c) items).
    split; [|split; [|split; [|split; [constructor; exact P|split; [reflexivity|]]]]].
    + rewrite yield_array. cbn [app map text]. do 2 f_equal. apply list_words, Y.
    + rewrite yield_array. apply (list_end [Tok T_FIELD f; Tok k c]); [|exact G]. repeat (apply Forall_cons); try apply Forall_nil; [apply field_genuine, F|exact Gk].
    + intros next _. apply r_array; try reflexivity; assumption.
    + intros dflt. apply (d_array dflt (Tok T_FIELD f)); [exact F|exact I|apply D].
  - destruct (paren_good _ _ _ _ _ IH) as [[Y2 [G2 [_ [Rg [_ D2]]]]] R2]. exists (PNot (Tok T_NOT no) (PParen t)).
    assert (Gn : genuine (Tok T_NOT no)) by (apply (word_token T_NOT (J "NOT") (J "not")); [cbn; tauto|]; apply two_words, I).
    split; [|split; [|split; [|split; [constructor; exact Rg|split; [reflexivity|]]]]].
    + change (map text (yield (PNot (Tok T_NOT no) (PParen t)))) with (no :: map text (yield (PParen t))). rewrite Y2. reflexivity.
    + constructor; assumption.
    + intros next _. apply r_not; [reflexivity|apply R2].
    + intros dflt. constructor. apply D2.
  - destruct (paren_good _ _ _ _ _ IH1) as [[Y1 [G1 [_ [Rg1 [S1 D1]]]]] R1]. destruct (paren_good _ _ _ _ _ IH2) as [[Y2 [G2 [_ [Rg2 [_ D2]]]]] R2].
    destruct (connective_token o op I) as [k [G [C _]]]. exists (PBin (PParen t1) (Tok k o) (PParen t2)).
    split; [apply infix_yield; assumption|]. split; [apply infix_genuine; assumption|]. split; [|split; [|split; [reflexivity|]]].
    + intros next _. eapply r_bin; [exact C|apply connective_level, C|lia|apply R1|apply R2].
    + apply g_bin; [exact Rg1|rewrite S1; exact Rg2].
    + intros dflt. constructor; auto.
  - destruct (operand_good _ _ Ox) as [l [P1 [Y1 [G1 [R1 D1]]]]]. destruct (operand_good _ _ Oy) as [r [P2 [Y2 [G2 [R2 D2]]]]].
    apply (arith_good b l o op r m n [x] [y]); try assumption. intros k. apply g_arith_plain; assumption.
  - destruct (operand_good _ _ Ox) as [l [P1 [Y1 [G1 [R1 D1]]]]]. destruct (paren_good _ _ _ _ _ IH) as [[Y2 [G2 [_ [Rg [_ D2]]]]] R2].
    apply (arith_good b l o op (PParen t) m n [x] (bracketed ws)); try assumption. intros k. apply g_arith_right; assumption.
  - destruct (operand_good _ _ Oy) as [r [P1 [Y1 [G1 [R1 D1]]]]]. destruct (paren_good _ _ _ _ _ IH) as [[Y2 [G2 [_ [Rg [_ D2]]]]] R2].
    apply (arith_good b (PParen t) o op r m n (bracketed ws) [y]); try assumption. intros k. apply g_arith_left; assumption.
  - destruct (paren_good _ _ _ _ _ IH1) as [[Y1 [G1 [_ [Rg1 [S1 D1]]]]] R1]. destruct (paren_good _ _ _ _ _ IH2) as [[Y2 [G2 [_ [Rg2 [_ D2]]]]] R2].
    apply (arith_good b (PParen t1) o op (PParen t2) m n (bracketed ws1) (bracketed ws2)); try assumption. intros k. apply g_arith; [assumption|rewrite S1; assumption].
  - destruct (operand_good _ _ O) as [l [P1 [Y1 [G1 [R1 D1]]]]]. exists (PNeg l). split; [|split; [|split; [|split; [apply g_neg_plain; assumption|split; [reflexivity|]]]]].
    + change (map text (yield (PNeg l))) with (J "-" :: map text (yield l)). rewrite Y1. reflexivity.
    + constructor; [exact minus_genuine|assumption].
    + intros next N. apply r_neg; [apply R1|exact N].
    + intros dflt. constructor. apply D1.
  - destruct (paren_good _ _ _ _ _ IH) as [[Y2 [G2 [_ [Rg [S D2]]]]] R2]. exists (PNeg (PParen t)).
    split; [|split; [|split; [|split; [apply g_neg; assumption|split; [reflexivity|]]]]].
    + change (map text (yield (PNeg (PParen t)))) with (J "-" :: map text (yield (PParen t))). rewrite Y2. reflexivity.
    + constructor; [exact minus_genuine|assumption].
    + intros next N. apply r_neg; [apply R2|exact N].
    + intros dflt. constructor. apply D2.
  - destruct (listed_good _ _ L) as [items [Y [G [R [P D]]]]]. destruct (function_token f fn If) as [kf [Gf [Kf _]]]. exists (PFunc (Tok kf f) items).
    split; [|split; [|split; [|split; [constructor; exact P|split; [reflexivity|]]]]].
    + rewrite yield_func. cbn [map text]. f_equal. apply list_words, Y.
    + rewrite yield_func. apply (list_end [Tok kf f]); [constructor; [exact Gf|constructor]|exact G].
    + intros next _. apply r_func; assumption.
    + intros dflt. apply d_func; [exact If|apply D].
Qed.

Lemma written_boolean E d dflt s ws n : written Nothing s ws n -> evaluate_boolean E (unwords ws) d dflt = bool_eval E d n.
Proof.
  intros W. destruct (written_good _ _ _ _ W) as [t [Y [G [R [Rg [_ D]]]]]]. subst ws.
  apply (meaning_boolean E _ t n d dflt); [apply unwords_lex, G|apply R, open_eof|exact Rg|apply D].
Qed.
Lemma written_arith E d s ws n : written Nothing s ws n -> evaluate_arith E (unwords ws) d = arith_eval E d n.
Proof.
  intros W. destruct (written_good _ _ _ _ W) as [t [Y [G [R [Rg [_ D]]]]]]. subst ws.
  apply (meaning_arith E _ t n d); [apply unwords_lex, G|apply R, open_eof|exact Rg|apply D].
Qed.
