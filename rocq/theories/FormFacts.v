(** Numbers that reach the data as text answer like numbers where they are only compared with numbers. *)
From Coq Require Import QArith.
From Verif Require Import RecoverFacts.
From Verif Require Import Base JNum BigDec Dates Values Ops Funcs Ast Eval Api SpecNum SpecBool SpecCompare SpecArith SpecFunc SpecLex SpecPath SpecSyntax SpecText SpecChain SpecTrend SpecRepr SpecMixed SpecForm
  VersionFacts NumFacts JNumFacts BoolFacts CompareFacts FieldFacts ArithFacts MemberFacts MixedFacts ListTests ChainFacts ChainText TrendFacts ReprFacts.
Local Open Scope Z_scope.

Lemma number_stands w p : number w p -> stands w (get_data_type w) /\ number_like (get_data_type w) = true /\ get_data_type w <> VERSION /\ valued w p.
Proof.
  intros N. inversion N as [z x R X|z x R X|b x X|b t x X]; subst; cbn [get_data_type number_like valued].
  - split; [constructor; exact R|]. repeat split; [discriminate|exact N].
  - split; [constructor; exact R|]. repeat split; [discriminate|exact N].
  - split; [constructor|]. repeat split; [discriminate|exact N].
  - split; [econstructor; exact X|]. repeat split; [discriminate|exact N].
Qed.
Lemma written_ext s p q : (p == q)%Q -> written_number s p -> written_number s q.
Proof. intros H W. apply number_parses in W. destruct W as [b [P X]]. apply number_parses. exists b. split; [exact P|]. rewrite <- H. exact X. Qed.
Lemma number_readings s q w p : number w p -> good_text s q w ->
  exists p' q', (p' == p)%Q /\ (q' == q)%Q /\ read_as (VStr s) (get_data_type w) (ANumber q') /\ read_as w (get_data_type w) (ANumber p').
Proof.
  intros N [W G]. pose proof (number_stands w p N) as (_ & _ & _ & V).
  inversion N as [z x R X|z x R X|b x X|b t x X]; subst; cbn [get_data_type] in *.
  - destruct G as [a [A B]]. exists (inject_Z z), (inject_Z a). split; [symmetry; exact X|]. split; [symmetry; exact A|]. split; constructor; try assumption.
    + cbn [valued show]. exact (written_ext s q _ A W).
    + cbn [valued]. constructor; [exact R|reflexivity].
  - destruct G as [a [A B]]. exists (inject_Z z), (inject_Z a). split; [symmetry; exact X|]. split; [symmetry; exact A|]. split; constructor; try assumption.
    + cbn [valued show]. exact (written_ext s q _ A W).
    + cbn [valued]. constructor; [exact R|reflexivity].
  - exists p, q. split; [reflexivity|]. split; [reflexivity|]. split; constructor; assumption.
  - exists p, q. split; [reflexivity|]. split; [reflexivity|]. split; constructor; assumption.
Qed.
Lemma question_compare op p q p' q' b : In op [GREATER_THAN; GREATER_THAN_EQUAL; LESS_THAN; LESS_THAN_EQUAL] -> (p' == p)%Q -> (q' == q)%Q ->
  question op p q = Some b -> accepts op (p' ?= q')%Q = Some b.
Proof.
  intros O P R H. assert (C : (p' ?= q')%Q = (p ?= q)%Q) by (rewrite P, R; reflexivity). rewrite C. clear C P R.
  cbn [In] in O. decompose [or] O; subst; try contradiction; cbn [question] in H; injection H as <-; rewrite ?Qle_bool_compare; try rewrite <- (Qcompare_antisym p q); destruct (p ?= q)%Q; reflexivity.
Qed.
Lemma orders op : In op [GREATER_THAN; GREATER_THAN_EQUAL; LESS_THAN; LESS_THAN_EQUAL] -> accepts op Eq <> None.
Proof. intros O. cbn [In] in O. decompose [or] O; subst; try contradiction; discriminate. Qed.
Lemma meet_left op t : In op [GREATER_THAN; GREATER_THAN_EQUAL; LESS_THAN; LESS_THAN_EQUAL] -> number_like t = true -> t <> VERSION -> meeting op STRING t = Some t.
Proof. intros O H V. cbn [In] in O. decompose [or] O; subst; try contradiction; destruct t; try discriminate H; reflexivity. Qed.
Lemma meet_right op t : In op [GREATER_THAN; GREATER_THAN_EQUAL; LESS_THAN; LESS_THAN_EQUAL] -> number_like t = true -> t <> VERSION -> meeting op t STRING = Some t.
Proof. intros O H V. cbn [In] in O. decompose [or] O; subst; try contradiction; destruct t; try discriminate H; reflexivity. Qed.
Lemma text_against E d l r op t s q w p b : In op [GREATER_THAN; GREATER_THAN_EQUAL; LESS_THAN; LESS_THAN_EQUAL] -> yields E d l (VStr s) -> yields E d r w -> number w p -> good_text s q w ->
  question op q p = Some b -> bool_eval E d (NCmp l r op t) = Ok b.
Proof.
  intros O Yl Yr N G H. change (bool_eval E d (cond l op r) = Ok b). destruct (number_stands w p N) as (Sw & L & V & _).
  destruct (number_readings s q w p N G) as (p' & q' & P & R & R1 & R2).
  refine (proj1 (mixed_comparison E d l r op Eq _ _ _ _ (orders op O) Yl Yr (stands_number_text s q (proj1 G)) Sw) _ _ _ _ b (meet_left op _ O L V) R1 R2 (by_value q' p') _).
  apply (question_compare op q p); assumption.
Qed.
Lemma against_text E d l r op t s q w p b : In op [GREATER_THAN; GREATER_THAN_EQUAL; LESS_THAN; LESS_THAN_EQUAL] -> yields E d r (VStr s) -> yields E d l w -> number w p -> good_text s q w ->
  question op p q = Some b -> bool_eval E d (NCmp l r op t) = Ok b.
Proof.
  intros O Yr Yl N G H. change (bool_eval E d (cond l op r) = Ok b). destruct (number_stands w p N) as (Sw & L & V & _).
  destruct (number_readings s q w p N G) as (p' & q' & P & R & R1 & R2).
  refine (proj1 (mixed_comparison E d l r op Eq _ _ _ _ (orders op O) Yl Yr Sw (stands_number_text s q (proj1 G))) _ _ _ _ b (meet_right op _ O L V) R2 R1 (by_value p' q') _).
  apply (question_compare op p q); assumption.
Qed.
Lemma numeral_text a : written_number (print_Z a) (inject_Z a).
Proof. apply number_parses. exists (BD a 0). split; [apply parse_bigdec_print_Z|]. unfold dec_value. cbn. rewrite Qmult_1_r. reflexivity. Qed.
Lemma numeral_inj a b : print_Z a = print_Z b -> a = b.
Proof. intros H. pose proof (parse_print_Z a) as A. rewrite H, parse_print_Z in A. congruence. Qed.
Lemma whole_text w b : whole w b -> show w = print_Z b /\ w <> VNull.
Proof. intros [z F|z F]; split; try reflexivity; discriminate. Qed.
Lemma numerals_compare a b c : text_order (print_Z a) (print_Z b) c -> (c = Eq <-> a = b).
Proof.
  intros H. split; [intros ->|intros ->].
  - cbn in H. apply numeral_inj, H.
  - apply text_order_compare in H. subst c. apply jstr_compare_refl.
Qed.
Lemma equal_accepts op c x y : op = EQUALS \/ op = NOT_EQUAL -> (c = Eq <-> x = y) -> accepts op c = question op (inject_Z x) (inject_Z y).
Proof.
  intros O C. assert (B : Qeq_bool (inject_Z x) (inject_Z y) = match c with Eq => true | _ => false end).
  { destruct (Qeq_bool (inject_Z x) (inject_Z y)) eqn:B.
    - apply Qeq_bool_iff in B. unfold Qeq in B. cbn in B. assert (x = y) by lia. rewrite (proj2 C H). reflexivity.
    - apply Qeq_bool_neq in B. destruct c; auto. exfalso. apply B. rewrite (proj1 C eq_refl). reflexivity. }
  destruct O as [-> | ->]; cbn [question]; rewrite B; destruct c; reflexivity.
Qed.
Lemma whole_stands w b : whole w b -> stands w (get_data_type w) /\ first_of STRING (get_data_type w) = Some STRING /\ first_of (get_data_type w) STRING = Some STRING.
Proof. intros [z F|z F]; (split; [constructor; exact F|split; reflexivity]). Qed.
Lemma numeral_equal E d l r op t a w b x : op = EQUALS \/ op = NOT_EQUAL -> yields E d l (VStr (print_Z a)) -> yields E d r w -> whole w b ->
  question op (inject_Z a) (inject_Z b) = Some x -> bool_eval E d (NCmp l r op t) = Ok x.
Proof.
  intros O Yl Yr W H. change (bool_eval E d (cond l op r) = Ok x). destruct (whole_stands w b W) as (Sw & F & _). destruct (text_order_total (print_Z a) (print_Z b)) as [c [C _]].
  assert (A0 : accepts op Eq <> None) by (destruct O as [-> | ->]; discriminate).
  refine (proj1 (mixed_comparison E d l r op Eq _ _ _ _ A0 Yl Yr (stands_number_text _ _ (numeral_text a)) Sw) STRING (AText (print_Z a)) (AText (print_Z b)) c x _ _ _ (by_units _ _ c C) _).
  - destruct O as [-> | ->]; exact F.
  - apply (read_text (VStr (print_Z a))).
  - rewrite <- (proj1 (whole_text w b W)). constructor.
  - rewrite <- H. apply equal_accepts; [exact O|]. apply numerals_compare, C.
Qed.
Lemma equal_numeral E d l r op t a w b x : op = EQUALS \/ op = NOT_EQUAL -> yields E d r (VStr (print_Z a)) -> yields E d l w -> whole w b ->
  question op (inject_Z b) (inject_Z a) = Some x -> bool_eval E d (NCmp l r op t) = Ok x.
Proof.
  intros O Yr Yl W H. change (bool_eval E d (cond l op r) = Ok x). destruct (whole_stands w b W) as (Sw & _ & F). destruct (text_order_total (print_Z b) (print_Z a)) as [c [C _]].
  assert (A0 : accepts op Eq <> None) by (destruct O as [-> | ->]; discriminate).
  refine (proj1 (mixed_comparison E d l r op Eq _ _ _ _ A0 Yl Yr Sw (stands_number_text _ _ (numeral_text a))) STRING (AText (print_Z b)) (AText (print_Z a)) c x _ _ _ (by_units _ _ c C) _).
  - destruct O as [-> | ->]; exact F.
  - rewrite <- (proj1 (whole_text w b W)). constructor.
  - apply (read_text (VStr (print_Z a))).
  - rewrite <- H. apply equal_accepts; [exact O|]. apply numerals_compare, C.
Qed.
Lemma in_numerals E d f a items ms zs : yields E d (NField (Some f)) (VStr (print_Z a)) -> list_members E d items ms -> Forall2 whole ms zs ->
  bool_eval E d (NIn (Some f) items) = Ok (existsb (Qeq_bool (inject_Z a)) (map inject_Z zs)).
Proof.
  intros Y L F. destruct ms as [|m ms].
  - inversion F; subst. destruct L as [vs [H [Em Hn]]]. rewrite in_unfold. assert (Y0 := Y). destruct Y0 as [Y0 _]. cbn [arith_eval] in Y0. rewrite Y0. cbn [bind].
    rewrite (item_values _ _ _ _ H). cbn [bind]. rewrite in_logical.
    assert (T : get_data_type (VStr (print_Z a)) = STRING) by (apply (stands_type (VStr (print_Z a)) STRING); exact (stands_number_text _ _ (numeral_text a))). rewrite T. cbn [is_valid bind].
    unfold map_to_evaluated. rewrite flatten_members, <- Em. reflexivity.
  - rewrite (in_disjunction E d f _ items m ms Y L). clear L items.
    assert (T : forall m z, whole m z -> bool_eval E d (test_of f m) = Ok (Qeq_bool (inject_Z a) (inject_Z z))).
    { intros m' z W. unfold test_of, cond. eapply numeral_equal; [auto|exact Y|apply yields_lit, (whole_text m' z W)|exact W|reflexivity]. }
    revert m zs F. induction ms as [|m' ms IH]; intros m zs F; inversion F as [|? z ? zs' Wz F']; subst.
    + inversion F'; subst. cbn [map or_chain]. rewrite (T m z Wz). cbn [map existsb]. rewrite orb_false_r. reflexivity.
    + cbn [map or_chain]. rewrite eval_or. rewrite (T m z Wz). cbn [map existsb]. destruct (Qeq_bool (inject_Z a) (inject_Z z)); [reflexivity|]. exact (IH m' zs' F').
Qed.

Lemma received_answer E d d' n : received E d d' n -> bool_eval E d n = bool_eval E d' n.
Proof.
  induction 1 as [l r op t q s w p O [[v [Yv Nv]] Ys] [K K'] N G|l r op t q s w p O [[v [Yv Nv]] Ys] [K K'] N G|l r op t a w b O [[v [Yv Wv]] Ys] [K K'] W|l r op t a w b O [[v [Yv Wv]] Ys] [K K'] W
    |f lo hi t1 t2 x y q s B1 B2 [[v [Yv Nv]] Ys] G1 G2|f items a ms zs [[v [Yv Wv]] Ys] L L' F|n M|n _ IH|l r op O _ IH1 _ IH2].
  - destruct (asked op q p O) as [b B]. rewrite (compare_number_operands E d l r op t v w q p b Yv K Nv N B). symmetry. eapply text_against; eassumption.
  - destruct (asked op p q O) as [b B]. rewrite (compare_number_operands E d l r op t w v p q b K Yv N Nv B). symmetry. eapply against_text; eassumption.
  - assert (Q : exists c, question op (inject_Z a) (inject_Z b) = Some c) by (destruct O as [-> | ->]; cbn; eauto). destruct Q as [c C].
    rewrite (compare_number_operands E d l r op t v w _ _ c Yv K (whole_number _ _ Wv) (whole_number _ _ W) C). symmetry. eapply numeral_equal; eassumption.
  - assert (Q : exists c, question op (inject_Z b) (inject_Z a) = Some c) by (destruct O as [-> | ->]; cbn; eauto). destruct Q as [c C].
    rewrite (compare_number_operands E d l r op t w v _ _ c K Yv (whole_number _ _ W) (whole_number _ _ Wv) C). symmetry. eapply equal_numeral; eassumption.
  - rewrite (range_numeric E d f lo hi t1 t2 x y v q B1 B2 (proj1 Yv) Nv). rewrite (range_both E d' f _ lo hi t1 t2 x y (proj1 Ys) B1 B2).
    assert (NL : lo <> VNull) by (destruct B1 as [X _]; intros ->; inversion X). assert (NH : hi <> VNull) by (destruct B2 as [X _]; intros ->; inversion X).
    unfold cond. rewrite (text_against E d' _ _ GREATER_THAN_EQUAL _ s q lo x (Qle_bool x q)); [|cbn; tauto|exact Ys|apply yields_lit, NL|apply B1|exact G1|reflexivity].
    rewrite (text_against E d' _ _ LESS_THAN_EQUAL _ s q hi y (Qle_bool q y)); [|cbn; tauto|exact Ys|apply yields_lit, NH|apply B2|exact G2|reflexivity]. reflexivity.
  - rewrite (in_numerals E d' f a items ms zs Ys L' F). eapply in_numbers; [exact Yv|apply whole_number, Wv|exact L|]. clear L L'. induction F; constructor; auto. apply whole_number; assumption.
  - apply measured_answer, M.
  - cbn [bool_eval]. rewrite IH. reflexivity.
  - destruct O as [-> | ->]; cbn [bool_eval]; rewrite IH1, IH2; reflexivity.
Qed.
Lemma received_text E d d' dflt s ws n : passage Nothing s ws n -> received E d d' n -> evaluate_boolean E (unwords ws) d dflt = evaluate_boolean E (unwords ws) d' dflt.
Proof. intros P M. rewrite (proj1 (passage_value E d dflt _ _ _ P)), (proj1 (passage_value E d' dflt _ _ _ P)). apply received_answer, M. Qed.
