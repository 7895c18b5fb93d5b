(** The exact tree of a text in any layout, with an example. *)
From Verif Require Import Recover RecoverFacts ListText.
From Verif Require Import Base JNum BigDec Values Ops Funcs Ast Eval Lexer Grammar Listener Api SpecArith SpecLex SpecDate SpecTight SpecGrammar SpecSyntax SpecText SpecRecord
  LexSplit LexWords LexApi LexTight LexCases SyntaxFacts TextFacts TextCases OddText OddCases RecordFacts.
Local Open Scope nat_scope.

Lemma layout_exact s ws n t dflt : written Nothing s ws n -> recorded n -> laid_out ws t -> parse_expression t dflt = Ok n.
Proof.
  intros W R O. rewrite <- (written_exact s ws n dflt W R). destruct (written_good _ _ _ _ W) as [p [Y [G _]]].
  pose proof (layout_words (yield p) ws t Y G O) as L. pose proof (unwords_lex (yield p) G) as L0. rewrite Y in L0.
  unfold parse_expression. rewrite L, L0. reflexivity.
Qed.

(** ** One operand *)
Lemma not_quoted c w : (c =? ch "'")%N = false -> (c =? 34)%N = false -> convert_value (c :: w) STRING = Ok (VStr (c :: w)).
Proof. intros A B. unfold convert_value, quoted_by. rewrite A, B. reflexivity. Qed.
Lemma digit_not_quoted c w : is_digit c = true -> convert_value (c :: w) STRING = Ok (VStr (c :: w)).
Proof. intros D. apply not_quoted; apply N.eqb_neq; intros ->; vm_compute in D; discriminate. Qed.
Lemma digits_not_quoted ds w : digits ds -> convert_value (ds ++ w) STRING = Ok (VStr (ds ++ w)).
Proof. intros [N F]. destruct ds as [|c ds]; [contradiction|]. apply digit_not_quoted. inversion F. assumption. Qed.
Lemma operand_as_text x m : operand x m -> match m with NField _ => True | _ => exists s, convert_value x STRING = Ok (VStr s) /\ word_tree x m = NUnary STRING (VStr s) end.
Proof.
  intros O. destruct O as [f F|ds D _|ds D _ _|a b Da Db|q s Q N|w Iw|w Iw|c ps D L Fs|s a L W|s x L W]; [exact I| | | | | | | | |];
    cbn [word_tree]; try (eexists; split; [|reflexivity]).
  - rewrite <- (app_nil_r ds). apply digits_not_quoted, D.
  - rewrite <- (app_nil_r ds). apply digits_not_quoted, D.
  - apply digits_not_quoted, Da.
  - apply convert_quoted, Q.
  - cbn [In] in Iw. destruct Iw as [<-|[<-|[]]]; reflexivity.
  - cbn [In] in Iw. destruct Iw as [<-|[<-|[]]]; reflexivity.
  - apply digit_not_quoted, D.
  - destruct (date_classes_text s a L W) as [_ [_ [c [-> Dc]]]]. apply digit_not_quoted, Dc.
  - destruct W as (p & q & a & h & mi & se & E & W & (ha & mb & sc & H1 & H2 & H3 & ->) & _).
    destruct (numeral2 _ _ H1) as (h1 & h2 & -> & _). destruct (numeral2 _ _ H2) as (m1 & m2 & -> & _). destruct (numeral2 _ _ H3) as (s1 & s2 & -> & _).
    assert (Lp : length p = 10) by (rewrite E, !app_length in L; cbn in L; lia). destruct (date_classes_text p a Lp W) as [_ [_ [c [Ep Dc]]]].
    rewrite E, Ep. apply digit_not_quoted, Dc.
Qed.
Fixpoint wrapped (k : nat) (t : ptree) : ptree := match k with O => t | S k' => PParen (wrapped k' t) end.
Lemma wrapped_yield k t : yield (wrapped k t) = repeat lparen k ++ yield t ++ repeat rparen k.
Proof.
  induction k as [|k IH]; [cbn; rewrite app_nil_r; reflexivity|]. cbn [wrapped yield repeat app]. rewrite IH. f_equal. rewrite <- !app_assoc. do 2 f_equal.
  change [rparen] with (repeat rparen 1). rewrite <- repeat_app. replace (k + 1) with (S k) by lia. reflexivity.
Qed.
Lemma wrapped_reads k tok : operand_kind (kind tok) -> forall n next, reads n (wrapped k (PTypes tok)) next.
Proof. intros K. induction k as [|k IH]; intros n next; [apply r_operand, K|apply r_paren, IH]. Qed.
Lemma wrapped_walk dflt k t st : walk dflt (wrapped k t) st = walk dflt t st.
Proof. induction k as [|k IH]; [reflexivity|exact IH]. Qed.
Lemma repeated t k : map text (repeat t k) = repeat (text t) k.
Proof. induction k as [|k IH]; [reflexivity|]. cbn. rewrite IH. reflexivity. Qed.
Lemma operand_parsed x m k s dflt : operand x m -> laid_out (nested k x) s -> parse_expression s dflt = Ok (word_tree x m).
Proof.
  intros O La. destruct (operand_token x m O) as [kd [G [K M]]].
  rewrite (layout_listen (wrapped k (PTypes (Tok kd x))) (nested k x) s dflt); [|rewrite wrapped_yield|rewrite wrapped_yield|apply wrapped_reads, K|exact La].
  2:{ rewrite !map_app, !repeated. reflexivity. }
  2:{ apply Forall_app; split; [apply Forall_forall; intros t T; apply repeat_spec in T; subst; apply lparen_genuine|].
      apply Forall_app; split; [constructor; [exact G|constructor]|apply Forall_forall; intros t T; apply repeat_spec in T; subst; apply rparen_genuine]. }
  unfold listen. rewrite wrapped_walk. cbn [walk bind]. unfold exit_parse, exit_types. cbn [stack token_count last_token kind text].
  pose proof (operand_as_text x m O) as T. specialize (M dflt).
  destruct (tkind_eq_dec kd T_FIELD) as [->|NF].
  - unfold map_types_token in M. cbn [kind text] in M. pose proof (genuine_not_blank _ G) as B. cbn [text] in B. rewrite B in M. injection M as <-. reflexivity.
  - destruct m as [f|dt v| | | | | | |]; try (exfalso; inversion O; fail).
    + rewrite (map_literal dflt kd x G NF) in M. destruct (convert_value x _); discriminate M.
    + destruct T as [t [C ->]]. rewrite C. destruct kd; try reflexivity. contradiction NF; reflexivity.
Qed.

Definition typed_words : list jstr :=
  bracketed [J "a"; J ">="; J "'x'"] ++ J "AND" :: bracketed (J "5" :: J "<" :: bracketed [J "b"; J "+"; J "1"]).
Definition typed_tree : node :=
  NBool (NCmp (NField (Some (J "a"))) (NUnary STRING (VStr (J "x"))) GREATER_THAN_EQUAL STRING)
    (Some (NCmp (NUnary INTEGER (VInt 5)) (NArith (NField (Some (J "b"))) (Some (NUnary INTEGER (VInt 1))) ADD) LESS_THAN INTEGER)) AND.
Lemma typed_case : written Nothing Logic typed_words typed_tree /\ recorded typed_tree /\ laid_out typed_words (J "(a >= 'x') AND (5<(b+1))") /\
  parse_expression (J "(a >= 'x') AND (5<(b+1))") None = Ok typed_tree /\
  (exists n, parse_expression (J "5 = f NOT IN (1) b") None = Ok (NCmp (NUnary INTEGER (VInt 5)) n EQUALS STRING)) /\
  laid_out (nested 2 (J "7")) (J "((7) )") /\ word_tree (J "7") (NUnary INTEGER (VInt 7)) = NUnary STRING (VStr (J "7")) /\ operand (J "7") (NUnary INTEGER (VInt 7)).
Proof.
  split.
  { unfold typed_words, typed_tree. eapply w_connect; [|sym|].
    - apply w_compare; [left; reflexivity|fieldop|sym|]. apply (o_string (ch "'") (J "x")); [left; reflexivity|cbn; intros [X|[]]; discriminate X].
    - eapply w_compare_right; [intop (J "5")|sym|]. apply w_arith; [fieldop|sym|intop (J "1")]. }
  split; [repeat split|]. split.
  { laidout [(J "(", []); (J "a", J " "); (J ">=", J " "); (J "'x'", []); (J ")", J " "); (J "AND", J " "); (J "(", []); (J "5", []); (J "<", []); (J "(", []); (J "b", []); (J "+", []); (J "1", []); (J ")", []); (J ")", [])]. }
  split; [vm_compute; reflexivity|]. split; [eexists; vm_compute; reflexivity|].
  split; [laidout [(J "(", []); (J "(", []); (J "7", []); (J ")", J " "); (J ")", [])]|]. split; [reflexivity|intop (J "7")].
Qed.
