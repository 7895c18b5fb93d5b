(** Each default locale, on texts. *)
From Coq Require Import Lia.
From Verif Require Import RecoverFacts RecoverTexts RecoverOrigin ListenAny TreeKinds LocaleFacts AnyText.
From Verif Require Import Base JNum Values Ops Funcs Ast Eval Lexer Grammar Recover Listener Api Locale SpecLex SpecGrammar SpecRecover SpecLocale FieldFacts LexSplit LexWords ParseFacts ParseShapes ListenFacts.

(** ** The words of the operators and functions *)
Definition table : list (tkind * jstr) :=
  [ (T_GT, J ">"); (T_GE, J ">="); (T_LT, J "<"); (T_LE, J "<="); (T_EQ, J "="); (T_NE, J "!=");
    (T_ADD, J "+"); (T_SUBTRACT, J "-"); (T_MULTIPLY, J "*"); (T_DIVIDE, J "/"); (T_MODULUS, J "%"); (T_EXPONENT, J "^");
    (T_CONTAINS_ALL, J "CONTAINS_ALL"); (T_CONTAINS_ALL, J "contains_all"); (T_CONTAINS_ANY, J "CONTAINS_ANY"); (T_CONTAINS_ANY, J "contains_any");
    (T_MIN, J "MIN"); (T_MIN, J "min"); (T_MAX, J "MAX"); (T_MAX, J "max"); (T_AVG, J "AVG"); (T_AVG, J "avg"); (T_SUM, J "SUM"); (T_SUM, J "sum");
    (T_MEAN, J "MEAN"); (T_MEAN, J "mean"); (T_MODE, J "MODE"); (T_MODE, J "mode"); (T_MEDIAN, J "MEDIAN"); (T_MEDIAN, J "median");
    (T_LEN, J "LEN"); (T_LEN, J "len"); (T_INT, J "INT"); (T_INT, J "int"); (T_DAYS_ELAPSED, J "DAYS_ELAPSED"); (T_DAYS_ELAPSED, J "days_elapsed") ].
Definition operation (k : tkind) : Prop :=
  (comparator k \/ arithmetic_op k) \/ is_function k = true \/ (k = T_CONTAINS_ALL \/ k = T_CONTAINS_ANY).
Lemma one_word a w : matches (one a) w -> w = J a.
Proof. unfold one. intro M. inversion M. reflexivity. Qed.
Lemma two_words a b w : matches (two a b) w -> w = J a \/ w = J b.
Proof. unfold two. intro M. inversion M as [| | |? ? ? M'|? ? ? M'| |]; subst; [left|right]; inversion M'; reflexivity. Qed.
Lemma word_in_table t : genuine t -> operation (kind t) -> In (kind t, text t) table.
Proof.
  intros [[_ [_ [[before [r [after [E [M _]]]]] _]]] _] O. destruct t as [k w]. cbn [kind text] in *.
  assert (I : In (k, r) lexicon) by (rewrite E; apply in_or_app; right; left; reflexivity). clear E.
  cbn [lexicon In] in I.
  repeat (destruct I as [I|I]; [injection I as <- <-;
    try (exfalso; unfold operation, comparator, arithmetic_op in O; cbn in O; intuition discriminate);
    try (apply one_word in M; subst w; cbn; tauto);
    try (apply two_words in M; destruct M as [-> | ->]; cbn; tauto)|]).
  contradiction.
Qed.

Definition same_lookup (L : locale) (p : tkind * jstr) : Prop :=
  if is_function (fst p) then function_in L (snd p) = function_of (fst p) else operator_in L (snd p) = operator_of (fst p).
Lemma lookup_common : Forall (same_lookup Common) table.
Proof. repeat constructor. Qed.
Definition small : list jstr := small_functions ++ small_containments.
Lemma lookup_turkic : Forall (fun p => In (snd p) small \/ same_lookup Turkic p) table.
Proof. repeat (apply Forall_cons; [first [right; vm_compute; reflexivity|left; vm_compute; tauto]|]). constructor. Qed.
Lemma lookup_lost : Forall (fun p => In (fst p) [T_CONTAINS_ALL; T_CONTAINS_ANY] -> In (snd p) capital_containments \/ operator_in Turkic (snd p) = EQUALS) table.
Proof. repeat (apply Forall_cons; [intro K; first [exfalso; cbn in K; intuition discriminate|right; vm_compute; reflexivity|left; vm_compute; tauto]|]). constructor. Qed.
Lemma lookup_small : Forall (fun p => is_function (fst p) = true -> In (snd p) small_functions /\ function_in Turkic (snd p) = None \/ ~ In (snd p) small /\ function_in Turkic (snd p) = function_of (fst p)) table.
Proof.
  repeat (apply Forall_cons; [intro K; first [discriminate K|left; split; [vm_compute; tauto|vm_compute; reflexivity]|right; split; [vm_compute; intuition discriminate|vm_compute; reflexivity]]|]). constructor.
Qed.
Lemma operation_not_function t : genuine t -> comparator (kind t) \/ arithmetic_op (kind t) -> is_function (kind t) = false.
Proof. intros _ K. unfold comparator, arithmetic_op in K. cbn [In] in K. destruct (kind t); try reflexivity; intuition discriminate. Qed.
Lemma contains_not_function k : k = T_CONTAINS_ALL \/ k = T_CONTAINS_ANY -> is_function k = false.
Proof. intros [-> | ->]; reflexivity. Qed.

Lemma looked_same L t : genuine t -> (L = Turkic -> ~ In (text t) small) -> looked_up L False (fun op => operator_in L (text op) = operator_of (kind op)) t.
Proof.
  intros G N.
  assert (S : operation (kind t) -> same_lookup L (kind t, text t)).
  { intro O. apply (word_in_table t G) in O. destruct L.
    - exact (proj1 (Forall_forall _ _) lookup_common _ O).
    - destruct (proj1 (Forall_forall _ _) lookup_turkic _ O) as [K|K]; [destruct (N eq_refl K)|exact K]. }
  unfold same_lookup in S. cbn [fst snd] in S. split; [|split].
  - intros K. pose proof (operation_not_function t G K) as F. rewrite F in S. apply S. left. exact K.
  - intros K. rewrite K in S. left. apply S. right. left. exact K.
  - intros K. rewrite (contains_not_function _ K) in S. apply S. right. right. exact K.
Qed.
Lemma looked_lost t : genuine t -> ~ In (text t) small_functions -> ~ In (text t) capital_containments -> looked_up Turkic False (fun op => operator_in Turkic (text op) = EQUALS) t.
Proof.
  intros G N C.
  assert (O : operation (kind t) -> In (kind t, text t) table) by (apply word_in_table; exact G). split; [|split].
  - intros K. pose proof (operation_not_function t G K) as F. destruct (proj1 (Forall_forall _ _) lookup_turkic _ (O (or_introl K))) as [S|S].
    + exfalso. specialize (O (or_introl K)). destruct t as [k w]. cbn [kind text] in *. unfold comparator, arithmetic_op in K. cbn in S, O, K.
      repeat (destruct O as [O|O]; [injection O as <- <-; first [discriminate F|intuition discriminate]|]). contradiction.
    + unfold same_lookup in S. cbn [fst snd] in S. rewrite F in S. exact S.
  - intros K. left. destruct (proj1 (Forall_forall _ _) lookup_small _ (O (or_intror (or_introl K))) K) as [[S _]|[_ S]]; [contradiction|exact S].
  - intros K. destruct (proj1 (Forall_forall _ _) lookup_lost _ (O (or_intror (or_intror K)))) as [S|S]; [cbn; destruct K as [-> | ->]; auto|contradiction|exact S].
Qed.
Lemma looked_any t : genuine t -> looked_up Turkic True (fun _ => True) t.
Proof.
  intros G. assert (O : operation (kind t) -> In (kind t, text t) table) by (apply word_in_table; exact G). split; [|split; [|intros; exact Logic.I]].
  - intros K. pose proof (operation_not_function t G K) as F. destruct (proj1 (Forall_forall _ _) lookup_turkic _ (O (or_introl K))) as [S|S].
    + exfalso. specialize (O (or_introl K)). destruct t as [k w]. cbn [kind text] in *. unfold comparator, arithmetic_op in K. cbn in S, O, K.
      repeat (destruct O as [O|O]; [injection O as <- <-; first [discriminate F|intuition discriminate]|]). contradiction.
    + unfold same_lookup in S. cbn [fst snd] in S. rewrite F in S. exact S.
  - intros K. destruct (proj1 (Forall_forall _ _) lookup_small _ (O (or_intror (or_introl K))) K) as [[_ S]|[_ S]]; auto.
Qed.
Lemma looked_eof L bail A : looked_up L bail A eof.
Proof. split; [|split]; cbn; [intros [K|K]; unfold comparator, arithmetic_op in K; cbn in K; intuition discriminate|discriminate|intros [K|K]; discriminate K]. Qed.

(** ** Texts *)
Lemma text_fit L bail A ts t : (forall x, In x ts -> looked_up L bail A x) -> parse_any ts = Ok t -> fit L bail A t.
Proof.
  intros H E. split; [|apply (parse_any_kinds _ _ E)]. apply (parse_any_from _ (looked_eof _ _ _) ts); [apply Forall_forall; exact H|exact E].
Qed.
Lemma text_sim L (R : node -> node -> Prop) bail (A : token -> Prop) s dflt :
  (forall f, R (NField f) (NField f)) -> (forall dt v, R (NUnary dt v) (NUnary dt v)) -> (forall f a b x y, R (NRange f a b x y) (NRange f a b x y)) ->
  (forall a a' b b' o, R a a' -> both_opt R b b' -> R (NArith a b o) (NArith a' b' o)) ->
  (forall f l l', Forall2 R l l' -> R (NFunc f l) (NFunc f l')) ->
  (forall a a' b b' o dt, R a a' -> R b b' -> R (NCmp a b o dt) (NCmp a' b' o dt)) ->
  (forall f l l', Forall2 R l l' -> R (NIn f l) (NIn f l')) ->
  (forall a a' b b' o, R a a' -> both_opt R b b' -> R (NBool a b o) (NBool a' b' o)) ->
  (forall f op l l', A op -> Forall2 R l l' -> R (NArray f (operator_of (kind op)) l) (NArray f (operator_in L (text op)) l')) ->
  (forall a b, R a b -> class a = class b) ->
  (forall ps x, splits s ps -> In x (tokens_of ps) -> genuine x -> looked_up L bail A x) ->
  sim bail R (parse_expression s dflt) (parse_expression_in L s dflt).
Proof.
  intros R1 R2 R3 R4 R5 R6 R7 R8 R9 R10 H. unfold parse_expression, parse_expression_in. destruct (lex_total s) as [ps [Sp E]]. rewrite E. cbn [bind].
  destruct (parse_any_total (tokens_of ps)) as [t Et]. rewrite Et. cbn [bind]. apply (listen_sim L R bail A); try assumption.
  apply (text_fit L bail A (tokens_of ps) t); [|exact Et]. intros x I. apply (H ps x Sp I). exact (proj1 (Forall_forall _ _) (lex_genuine _ _ E) x I).
Qed.

Lemma forall2_eq {X} (l l' : list X) : Forall2 eq l l' -> l = l'.
Proof. induction 1; congruence. Qed.
Lemma opt_eq a b : both_opt eq a b -> a = b.
Proof. destruct a, b; cbn; try contradiction; congruence. Qed.
Lemma sim_eq {X} (a b : res X) : sim False eq a b -> b = a.
Proof. intros [[[] _]|H]. destruct a, b; try contradiction; congruence. Qed.
Lemma same_text L s dflt : (L = Turkic -> ~ uses small s) -> parse_expression_in L s dflt = parse_expression s dflt.
Proof.
  intros N. apply sim_eq. apply text_sim with (A := fun op => operator_in L (text op) = operator_of (kind op)); try reflexivity.
  - intros a a' b b' o -> H. rewrite (opt_eq _ _ H). reflexivity.
  - intros f l l' H. rewrite (forall2_eq _ _ H). reflexivity.
  - intros a a' b b' o dt -> ->. reflexivity.
  - intros f l l' H. rewrite (forall2_eq _ _ H). reflexivity.
  - intros a a' b b' o -> H. rewrite (opt_eq _ _ H). reflexivity.
  - intros f op l l' -> H. rewrite (forall2_eq _ _ H). reflexivity.
  - intros a b ->. reflexivity.
  - intros ps x Sp I G. apply (looked_same L x G). intros E K. apply (N E). exists ps, x. auto.
Qed.
Lemma common_text s dflt : parse_expression_in Common s dflt = parse_expression s dflt.
Proof. apply same_text. discriminate. Qed.
Lemma same_anywhere L s dflt : ~ uses small s -> parse_expression_in L s dflt = parse_expression_in Common s dflt.
Proof. intro N. rewrite common_text. apply same_text. auto. Qed.

Lemma forall2_lost l l' : Forall2 (fun a b => b = lost a) l l' -> l' = map lost l.
Proof. induction 1; cbn; congruence. Qed.
Lemma opt_lost a b : both_opt (fun a b => b = lost a) a b -> b = option_map lost a.
Proof. destruct a, b; cbn; try contradiction; congruence. Qed.
Lemma lost_text s dflt : ~ uses small_functions s -> ~ uses capital_containments s ->
  parse_expression_in Turkic s dflt = (n <- parse_expression_in Common s dflt ;; Ok (lost n)).
Proof.
  intros N C. rewrite common_text.
  assert (Sm : sim False (fun a b => b = lost a) (parse_expression s dflt) (parse_expression_in Turkic s dflt)).
  { apply text_sim with (A := fun op => operator_in Turkic (text op) = EQUALS); try reflexivity.
    - intros a a' b b' o -> H. rewrite (opt_lost _ _ H). reflexivity.
    - intros f l l' H. rewrite (forall2_lost _ _ H). reflexivity.
    - intros a a' b b' o dt -> ->. reflexivity.
    - intros f l l' H. rewrite (forall2_lost _ _ H). reflexivity.
    - intros a a' b b' o -> H. rewrite (opt_lost _ _ H). reflexivity.
    - intros f op l l' -> H. rewrite (forall2_lost _ _ H). reflexivity.
    - intros a b ->. destruct a; reflexivity.
    - intros ps x Sp I G. apply (looked_lost x G); intro K; [apply N|apply C]; exists ps, x; auto. }
  destruct Sm as [[[] _]|H]. destruct (parse_expression s dflt), (parse_expression_in Turkic s dflt); cbn in *; try contradiction; congruence.
Qed.

(** ** Calls that are not found *)
Lemma class_text s dflt : sim True (fun a b => class a = class b) (parse_expression s dflt) (parse_expression_in Turkic s dflt).
Proof.
  apply text_sim with (A := fun _ => True); try reflexivity; auto. intros ps x _ _ G. apply looked_any. exact G.
Qed.
Definition missing (x : token) : Prop := is_function (kind x) = true /\ function_in Turkic (text x) = None.
Definition stuck (dflt : option jstr) (t : ptree) : Prop := forall st, exists e, walk_locale Turkic dflt t st = Err e.
Lemma bind_stuck {X Y} (a : res X) (k : X -> res Y) : (exists e, a = Err e) -> exists e, bind a k = Err e.
Proof. intros [e ->]. exists e. reflexivity. Qed.
Lemma bind_then {X Y} (a : res X) (k : X -> res Y) : (forall x, exists e, k x = Err e) -> exists e, bind a k = Err e.
Proof. intros H. destruct a; cbn; [apply H|eexists; reflexivity]. Qed.
Lemma list_stuck dflt items : Exists (stuck dflt) items -> forall st, exists e, walk_list_in Turkic dflt items st = Err e.
Proof.
  induction 1 as [i l H|i l H IH]; intro st; cbn [walk_list_in]; [apply bind_stuck, H|apply bind_then; exact IH].
Qed.
Lemma sep_in x items : In x (sep_yield items) -> x = comma \/ Exists (fun t => In x (yield t)) items.
Proof.
  induction items as [|i l IH]; [intros []|]. destruct l as [|j l]; [intro H; right; left; exact H|]. intro H.
  change (sep_yield (i :: j :: l)) with (yield i ++ comma :: sep_yield (j :: l)) in H. apply in_app_or in H. destruct H as [H|[H|H]]; [right; left; exact H|left; auto|].
  destruct (IH H) as [K|K]; [left; exact K|right; right; exact K].
Qed.
