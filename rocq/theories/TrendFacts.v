(** Conditions that can only turn true, or only false, when numbers rise. *)
From Coq Require Import QArith.
From Verif Require Import RecoverFacts.
From Verif Require Import Base JNum BigDec Dates Values Ops Funcs Ast Eval Api SpecNum SpecBool SpecCompare SpecArith SpecLex SpecPath SpecSyntax SpecText SpecChain SpecTrend
  NumFacts BoolFacts CompareFacts MemberFacts ValuesFacts FieldFacts ArithFacts ChainFacts ChainText.
Local Open Scope Q_scope.

Lemma asked op p q : In op [GREATER_THAN; GREATER_THAN_EQUAL; LESS_THAN; LESS_THAN_EQUAL] -> exists b, question op p q = Some b.
Proof. intros H. cbn [In] in H. decompose [or] H; subst; try contradiction; cbn; eauto. Qed.
Lemma more_follows op p q p' q' b b' : op = GREATER_THAN \/ op = GREATER_THAN_EQUAL -> p <= p' -> q' <= q ->
  question op p q = Some b -> question op p' q' = Some b' -> b = true -> b' = true.
Proof.
  intros O P R H H' ->. destruct O as [-> | ->]; cbn [question] in H, H'; injection H as H; injection H' as <-.
  - apply negb_true_iff in H. apply negb_true_iff. apply not_true_is_false. intros T. apply Qle_bool_iff in T. apply not_true_iff_false in H. apply H. apply Qle_bool_iff.
    eapply Qle_trans; [exact P|]. eapply Qle_trans; [exact T|exact R].
  - apply Qle_bool_iff in H. apply Qle_bool_iff. eapply Qle_trans; [exact R|]. eapply Qle_trans; [exact H|exact P].
Qed.
Lemma less_follows op p q p' q' b b' : op = LESS_THAN \/ op = LESS_THAN_EQUAL -> p' <= p -> q <= q' ->
  question op p q = Some b -> question op p' q' = Some b' -> b = true -> b' = true.
Proof.
  intros O P R H H' ->. destruct O as [-> | ->]; cbn [question] in H, H'; injection H as H; injection H' as <-.
  - apply negb_true_iff in H. apply negb_true_iff. apply not_true_is_false. intros T. apply Qle_bool_iff in T. apply not_true_iff_false in H. apply H. apply Qle_bool_iff.
    eapply Qle_trans; [exact R|]. eapply Qle_trans; [exact T|exact P].
  - apply Qle_bool_iff in H. apply Qle_bool_iff. eapply Qle_trans; [exact P|]. eapply Qle_trans; [exact H|exact R].
Qed.

Lemma compare_two E d l r op t v w p q : In op [GREATER_THAN; GREATER_THAN_EQUAL; LESS_THAN; LESS_THAN_EQUAL] -> yields E d l v -> number v p -> yields E d r w -> number w q ->
  exists b, question op p q = Some b /\ bool_eval E d (NCmp l r op t) = Ok b.
Proof. intros O Yl Nl Yr Nr. destruct (asked op p q O) as [b B]. exists b. split; [exact B|]. eapply compare_number_operands; eassumption. Qed.
Lemma more_op op : op = GREATER_THAN \/ op = GREATER_THAN_EQUAL -> In op [GREATER_THAN; GREATER_THAN_EQUAL; LESS_THAN; LESS_THAN_EQUAL].
Proof. intros [-> | ->]; cbn; tauto. Qed.
Lemma less_op op : op = LESS_THAN \/ op = LESS_THAN_EQUAL -> In op [GREATER_THAN; GREATER_THAN_EQUAL; LESS_THAN; LESS_THAN_EQUAL].
Proof. intros [-> | ->]; cbn; tauto. Qed.

(** ** Collections and lists *)
Lemma same_types ms : (exists t, forall m, In m ms -> get_data_type m = t) \/ exists a b, In a ms /\ In b ms /\ get_data_type a <> get_data_type b.
Proof.
  destruct ms as [|m ms]; [left; exists STRING; intros m []|].
  induction ms as [|x ms IH]; [left; exists (get_data_type m); intros y [<-|[]]; reflexivity|].
  destruct IH as [[t T]|[a [b [A [B N]]]]].
  - assert (De : {get_data_type x = t} + {get_data_type x <> t}) by decide equality. destruct De as [X|X].
    + left. exists t. intros y [<-|[<-|Y]]; [apply T; left; reflexivity|exact X|apply T; right; exact Y].
    + right. exists x, m. split; [right; left; reflexivity|]. split; [left; reflexivity|]. rewrite (T m (or_introl eq_refl)). exact X.
  - right. exists a, b. split; [|split; [|exact N]]; cbn [In] in *; tauto.
Qed.
Lemma held_in have m : existsb (same_text m) have = true <-> exists h, In h have /\ same_text m h = true.
Proof. apply existsb_exists. Qed.
Lemma held_more have have' m : incl have have' -> existsb (same_text m) have = true -> existsb (same_text m) have' = true.
Proof. intros H X. apply held_in in X. destruct X as [h [A B]]. apply held_in. exists h. split; [apply H, A|exact B]. Qed.
Lemma contains_answer E d f have items ms op b : arith_eval E d (NField (Some f)) = Ok (VColl true have) -> ~ In VNull have -> list_members E d items ms ->
  op = CONTAINS_ANY \/ op = CONTAINS_ALL -> bool_eval E d (NArray (Some f) op items) = Ok b ->
  b = match op with CONTAINS_ANY => existsb (fun m => existsb (same_text m) have) ms | _ => forallb (fun m => existsb (same_text m) have) ms end.
Proof.
  intros F H L O B. destruct (same_types ms) as [[t T]|[x [y [X [Y N]]]]].
  - destruct (contains_both E d f have items ms t F H L T) as [Al An]. destruct O as [-> | ->]; congruence.
  - rewrite (contains_heterogeneous E d f op items ms _ x y F L X Y N) in B. discriminate.
Qed.
Lemma any_follows have have' ms ms' : incl have have' -> incl ms ms' ->
  existsb (fun m => existsb (same_text m) have) ms = true -> existsb (fun m => existsb (same_text m) have') ms' = true.
Proof. intros H M X. apply existsb_exists in X. destruct X as [m [A B]]. apply existsb_exists. exists m. split; [apply M, A|exact (held_more _ _ _ H B)]. Qed.
Lemma all_follows have have' ms ms' : incl have have' -> incl ms' ms ->
  forallb (fun m => existsb (same_text m) have) ms = true -> forallb (fun m => existsb (same_text m) have') ms' = true.
Proof. intros H M X. rewrite forallb_forall in *. intros m Y. exact (held_more _ _ _ H (X m (M m Y))). Qed.
Lemma anyM_true {A} (f : A -> res bool) l : anyM f l = Ok true -> exists a, In a l /\ f a = Ok true.
Proof. induction l as [|a l IH]; cbn; [discriminate|]. destruct (f a) as [[]|] eqn:X; cbn [bind]; intros H; [eauto| |discriminate]. destruct (IH H) as [x [A1 A2]]; eauto. Qed.
Lemma anyM_false {A} (f : A -> res bool) l : anyM f l = Ok false -> forall a, In a l -> f a = Ok false.
Proof. induction l as [|a l IH]; cbn; [intros _ a []|]. destruct (f a) as [[]|] eqn:X; cbn [bind]; intros H; try discriminate. intros x [<-|Y]; auto. Qed.
Lemma in_answer E d f v items ms b : yields E d (NField (Some f)) v -> list_members E d items ms -> bool_eval E d (NIn (Some f) items) = Ok b ->
  anyM (fun m => eval_equals v (get_data_type v) (m, get_data_type m)) ms = Ok b.
Proof.
  intros Y [vs [H [Em Hn]]]. rewrite in_unfold. destruct Y as [Y _]. cbn [arith_eval] in Y. rewrite Y. cbn [bind]. rewrite (item_values _ _ _ _ H). cbn [bind].
  rewrite in_logical. unfold map_to_evaluated. rewrite flatten_members, <- Em. destruct (is_valid _ v) as [[]|]; cbn [bind]; try discriminate.
  unfold eval_in. intros X. rewrite <- X. clear. induction ms as [|m ms IH]; [reflexivity|]. cbn [map anyM]. rewrite IH. reflexivity.
Qed.
Lemma in_follows v ms ms' b b' : incl ms ms' -> anyM (fun m => eval_equals v (get_data_type v) (m, get_data_type m)) ms = Ok b ->
  anyM (fun m => eval_equals v (get_data_type v) (m, get_data_type m)) ms' = Ok b' -> b = true -> b' = true.
Proof.
  intros I B B' ->. destruct b'; [reflexivity|]. destruct (anyM_true _ _ B) as [m [M X]]. pose proof (anyM_false _ _ B' m (I m M)) as Y. cbn beta in X, Y. congruence.
Qed.

(** Where both answer, the answer follows the trend. *)
Lemma trend_follows E d d' up n : trend E d d' up n -> forall b b', bool_eval E d n = Ok b -> bool_eval E d' n = Ok b' -> if up then b = true -> b' = true else b' = true -> b = true.
Proof.
  induction 1 as [l r op t O [v [p [v' [p' [Y [N [Y' [N' L]]]]]]]] [w' [q' [w [q [Z' [M' [Z [M R]]]]]]]]
    |l r op t O [v' [p' [v [p [Y' [N' [Y [N L]]]]]]]] [w [q [w' [q' [Z [M [Z' [M' R]]]]]]]]
    |l r op t O [v' [p' [v [p [Y' [N' [Y [N L]]]]]]]] [w [q [w' [q' [Z [M [Z' [M' R]]]]]]]]
    |l r op t O [v [p [v' [p' [Y [N [Y' [N' L]]]]]]]] [w' [q' [w [q [Z' [M' [Z [M R]]]]]]]]
    |up n F|up f items have have' ms ms' F F' H H' L L' G M|up f items have have' ms ms' F F' H H' L L' G M|up f items v ms ms' Y Y' L L' M|up n T IH|up l r op O T1 IH1 T2 IH2]; intros b b' B B'.
  1-4: (match type of O with context [GREATER_THAN] => pose proof (more_op op O) as I | _ => pose proof (less_op op O) as I end).
  - destruct (compare_two E d l r op t v w p q I Y N Z M) as [c [C1 C2]]. destruct (compare_two E d' l r op t v' w' p' q' I Y' N' Z' M') as [c' [C1' C2']].
    assert (c = b) by congruence. assert (c' = b') by congruence. subst. eapply (more_follows op p q p' q'); eassumption.
  - destruct (compare_two E d l r op t v w p q I) as [c [C1 C2]]; try eassumption.
    destruct (compare_two E d' l r op t v' w' p' q' I) as [c' [C1' C2']]; try eassumption.
    assert (c = b) by congruence. assert (c' = b') by congruence. subst. eapply (more_follows op p' q' p q); eassumption.
  - destruct (compare_two E d l r op t v w p q I) as [c [C1 C2]]; try eassumption. destruct (compare_two E d' l r op t v' w' p' q' I) as [c' [C1' C2']]; try eassumption.
    assert (c = b) by congruence. assert (c' = b') by congruence. subst. eapply (less_follows op p q p' q'); eassumption.
  - destruct (compare_two E d l r op t v w p q I) as [c [C1 C2]]; try eassumption. destruct (compare_two E d' l r op t v' w' p' q' I) as [c' [C1' C2']]; try eassumption.
    assert (c = b) by congruence. assert (c' = b') by congruence. subst. eapply (less_follows op p' q' p q); eassumption.
  - rewrite (bool_same E d d' n F) in B. assert (b = b') by congruence. subst. destruct up; auto.
  - rewrite (contains_answer E d f have items ms CONTAINS_ANY b F H L (or_introl eq_refl) B), (contains_answer E d' f have' items ms' CONTAINS_ANY b' F' H' L' (or_introl eq_refl) B').
    destruct up; apply any_follows; assumption.
  - rewrite (contains_answer E d f have items ms CONTAINS_ALL b F H L (or_intror eq_refl) B), (contains_answer E d' f have' items ms' CONTAINS_ALL b' F' H' L' (or_intror eq_refl) B').
    destruct up; apply all_follows; assumption.
  - apply (in_answer E d f v items ms b Y L) in B. apply (in_answer E d' f v items ms' b' Y' L') in B'.
    destruct up; [exact (in_follows v ms ms' b b' M B B')|exact (in_follows v ms' ms b' b M B' B)].
  - cbn [bool_eval] in B, B'. destruct (bool_eval E d n) as [c|]; [|discriminate]. destruct (bool_eval E d' n) as [c'|]; [|discriminate]. cbn [bind] in B, B'.
    injection B as <-. injection B' as <-. specialize (IH c c' eq_refl eq_refl). destruct up; cbn [negb] in IH; destruct c, c'; cbn [negb]; auto.
  - destruct O as [-> | ->]; cbn [bool_eval] in B, B'; destruct (bool_eval E d l) as [c|]; try discriminate; destruct (bool_eval E d' l) as [c'|]; try discriminate; cbn [bind] in B, B';
      specialize (IH1 c c' eq_refl eq_refl); destruct (bool_eval E d r) as [e|]; destruct (bool_eval E d' r) as [e'|]; try specialize (IH2 _ _ eq_refl eq_refl);
      destruct up, c, c'; try discriminate; try (injection B as <-); try (injection B' as <-); intuition congruence.
Qed.
Lemma numeric_answers E d n : numeric E d n -> exists b, bool_eval E d n = Ok b.
Proof.
  induction 1 as [l r op t v w p q O Yl Nl Yr Nr|n _ [b IH]|l r op O _ [b IH1] _ [c IH2]].
  - destruct (compare_two E d l r op t v w p q O Yl Nl Yr Nr) as [b [_ B]]. eauto.
  - cbn [bool_eval]. rewrite IH. cbn [bind]. eauto.
  - destruct O as [-> | ->]; cbn [bool_eval]; rewrite IH1; cbn [bind]; destruct b; eauto.
Qed.
Lemma trend_text E d d' dflt s ws n : passage Nothing s ws n -> trend E d d' true n -> numeric E d' n ->
  evaluate_boolean E (unwords ws) d dflt = Ok true -> evaluate_boolean E (unwords ws) d' dflt = Ok true.
Proof.
  intros P T N. rewrite (proj1 (passage_value E d dflt _ _ _ P)), (proj1 (passage_value E d' dflt _ _ _ P)). intros B.
  destruct (numeric_answers E d' n N) as [b' B']. rewrite B'. f_equal. exact (trend_follows E d d' true n T true b' B B' eq_refl).
Qed.
Lemma trend_text_both E d d' dflt s ws n up b b' : passage Nothing s ws n -> trend E d d' up n ->
  evaluate_boolean E (unwords ws) d dflt = Ok b -> evaluate_boolean E (unwords ws) d' dflt = Ok b' -> if up then b = true -> b' = true else b' = true -> b = true.
Proof. intros P T. rewrite (proj1 (passage_value E d dflt _ _ _ P)), (proj1 (passage_value E d' dflt _ _ _ P)). apply trend_follows, T. Qed.

(** ** What rises *)
Lemma field_rises E d d' f v p v' p' : to_lower f <> J "null" -> arith_eval E d (NField (Some f)) = Ok v -> number v p -> arith_eval E d' (NField (Some f)) = Ok v' -> number v' p' -> p <= p' ->
  rises E d d' (NField (Some f)).
Proof.
  intros F H N H' N' L. exists v, p, v', p'. assert (W : ~ null_word (NField (Some f))) by (intros [g [G W]]; injection G as <-; contradiction).
  repeat split; try assumption; intros ->; [inversion N|inversion N'].
Qed.
Lemma literal_rises E d d' t v p : number v p -> rises E d d' (NUnary t v).
Proof.
  intros N. exists v, p, v, p. assert (V : v <> VNull) by (intros ->; inversion N). assert (W : ~ null_word (NUnary t v)) by (intros [g [G _]]; discriminate).
  repeat split; try assumption; try reflexivity. apply Qle_refl.
Qed.
Lemma sum_rises E d d' l r a b a' b' vl vr vl' vr' : 
  arith_eval E d l = Ok vl -> arith_eval E d r = Ok vr -> arith_eval E d' l = Ok vl' -> arith_eval E d' r = Ok vr' ->
  whole vl a -> whole vr b -> whole vl' a' -> whole vr' b' -> (a <= a')%Z -> (b <= b')%Z -> fits64 (a + b) -> fits64 (a' + b') -> rises E d d' (bin l ADD r).
Proof.
  intros L R L' R' Wl Wr Wl' Wr' A B F F'.
  destruct (add_multiply E d l r vl vr a b ADD L R Wl Wr (or_introl eq_refl)) as [y [x [X [Sm [_ Ex]]]]].
  destruct (add_multiply E d' l r vl' vr' a' b' ADD L' R' Wl' Wr' (or_introl eq_refl)) as [y' [x' [X' [Sm' [_ Ex']]]]].
  cbn [exact_op] in Ex, Ex'. rewrite (Ex F) in Sm. rewrite (Ex' F') in Sm'. exists x, (inject_Z (a + b)), x', (inject_Z (a' + b')).
  assert (W : ~ null_word (bin l ADD r)) by (intros [g [G _]]; discriminate).
  assert (N : forall z v, smallest z v -> v <> VNull /\ number v (inject_Z z)).
  { intros z v [[S1 ->]|[_ [S1 ->]]]; (split; [discriminate|]); constructor; try reflexivity; exact S1. }
  destruct (N _ _ Sm) as [V1 N1]. destruct (N _ _ Sm') as [V2 N2]. repeat split; try assumption. rewrite <- Zle_Qle. lia.
Qed.
