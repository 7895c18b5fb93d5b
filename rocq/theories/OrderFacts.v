(** More proofs about comparisons: complements, order laws, null checks, ranges, lists. *)
From Coq Require Import QArith Qpower ZifyBool ZifyNat ZifyN.
From Verif Require Import Base JNum BigDec Dates Version Values Ops Funcs Ast Eval JNumFacts SpecNum BigDecFacts NumFacts SpecCompare CompareFacts VersionFacts.
Local Open Scope Z_scope.

(** C07 *)
Definition rnegb (r : res bool) : res bool := fmap negb r.
Lemma rneg_logical_eq : forall v t rs, evaluate_logical NOT_EQUAL PRIMITIVE v t rs = rnegb (evaluate_logical EQUALS PRIMITIVE v t rs).
Proof.
  intros. unfold evaluate_logical. cbn [is_logical logical_container logical_types container_eqb negb].
  destruct (mem_type t all_types); cbn [negb]; auto. destruct (container_is_valid PRIMITIVE t v) as [[]|]; cbn [bind negb]; auto.
  destruct (forallb _ rs); cbn [negb]; auto. cbn [logical_evaluate]. destruct rs as [|r rs]; cbn [first_operand bind]; auto.
  unfold eval_not_equals, eval_equals. destruct (compare_as _ _ _) as [[]|]; reflexivity.
Qed.
Lemma rneg_logical_ge : forall v t rs, evaluate_logical GREATER_THAN_EQUAL PRIMITIVE v t rs = rnegb (evaluate_logical LESS_THAN PRIMITIVE v t rs).
Proof.
  intros. unfold evaluate_logical. cbn [is_logical logical_container logical_types container_eqb negb].
  destruct (mem_type t _); cbn [negb]; auto. destruct (container_is_valid PRIMITIVE t v) as [[]|]; cbn [bind negb]; auto.
  destruct (forallb _ rs); cbn [negb]; auto. cbn [logical_evaluate]. destruct rs as [|r rs]; cbn [first_operand bind]; auto.
  unfold eval_ordering. destruct (ordering_validate _ _ _ _); cbn; auto. destruct (compare_as _ _ _) as [[]|]; reflexivity.
Qed.
Lemma rneg_logical_le : forall v t rs, evaluate_logical LESS_THAN_EQUAL PRIMITIVE v t rs = rnegb (evaluate_logical GREATER_THAN PRIMITIVE v t rs).
Proof.
  intros. unfold evaluate_logical. cbn [is_logical logical_container logical_types container_eqb negb].
  destruct (mem_type t _); cbn [negb]; auto. destruct (container_is_valid PRIMITIVE t v) as [[]|]; cbn [bind negb]; auto.
  destruct (forallb _ rs); cbn [negb]; auto. cbn [logical_evaluate]. destruct rs as [|r rs]; cbn [first_operand bind]; auto.
  unfold eval_ordering. destruct (ordering_validate _ _ _ _); cbn; auto. destruct (compare_as _ _ _) as [[]|]; reflexivity.
Qed.

Lemma cmp_rneg : forall E d l r op op' dt, (forall v t rs, evaluate_logical op PRIMITIVE v t rs = rnegb (evaluate_logical op' PRIMITIVE v t rs)) ->
  is_null_check l r op = is_null_check l r op' ->
  bool_eval E d (NCmp l r op dt) = rnegb (bool_eval E d (NCmp l r op' dt)).
Proof.
  intros E d l r op op' dt H N. rewrite !cmp_unfold, N.
  destruct (operand_value E d l) as [[v|]|]; cbn [bind]; auto; destruct (is_null_check l r op') as [[]|]; cbn [bind]; auto.
  - destruct (operand_value E d r) as [[w|]|]; cbn [bind]; auto.
Qed.
Lemma complement : forall E d l r,
  bool_eval E d (cond l NOT_EQUAL r) = fmap negb (bool_eval E d (cond l EQUALS r)) /\
  bool_eval E d (cond l GREATER_THAN_EQUAL r) = fmap negb (bool_eval E d (cond l LESS_THAN r)) /\
  bool_eval E d (cond l LESS_THAN_EQUAL r) = fmap negb (bool_eval E d (cond l GREATER_THAN r)).
Proof.
  intros. repeat split; apply cmp_rneg; auto using rneg_logical_eq, rneg_logical_ge, rneg_logical_le.
Qed.

(** Swapping the operands *)
Lemma date_compare_antisym : forall a b, date_compare b a = CompOpp (date_compare a b).
Proof.
  intros a b. unfold date_compare. rewrite (Z.compare_antisym (year a)), (Z.compare_antisym (month a)), (Z.compare_antisym (day a)).
  destruct (year a ?= year b), (month a ?= month b), (day a ?= day b); reflexivity.
Qed.
Lemma datetime_compare_antisym : forall a b, datetime_compare b a = CompOpp (datetime_compare a b).
Proof.
  intros a b. unfold datetime_compare. rewrite (date_compare_antisym (dt_date a)), (Z.compare_antisym (hour a)), (Z.compare_antisym (minute a)),
    (Z.compare_antisym (second a)), (Z.compare_antisym (nano a)).
  destruct (date_compare (dt_date a) (dt_date b)), (hour a ?= hour b), (minute a ?= minute b), (second a ?= second b), (nano a ?= nano b); reflexivity.
Qed.
Lemma compare_to_swap : forall a b c, compare_to a b = Ok c -> compare_to b a = Ok (CompOpp c).
Proof.
  intros a b c H. destruct a, b; cbn in *; try discriminate; injection H as <-; f_equal.
  - destruct b0, b; reflexivity.
  - apply Z.compare_antisym.
  - apply Z.compare_antisym.
  - rewrite !dec_compare. symmetry. apply Qcompare_antisym.
  - apply jstr_compare_antisym.
  - apply version_compare_antisym.
  - apply date_compare_antisym.
  - apply datetime_compare_antisym.
Qed.
Lemma compare_as_swap : forall t a b c, compare_as t a b = Ok c -> compare_as t b a = Ok (CompOpp c).
Proof.
  intros t a b c H. unfold compare_as in *. destruct (primitive_value t a) as [x|]; [|discriminate].
  destruct (primitive_value t b) as [y|]; [|discriminate]. cbn in *. apply compare_to_swap; auto.
Qed.
Lemma ordering_type_comm : forall a b, ordering_type a b = ordering_type b a.
Proof. intros [] []; reflexivity. Qed.
Lemma validate_swap : forall a ta b tb, ordering_validate a ta b tb = Ok tt -> ordering_validate b tb a ta = Ok tt.
Proof.
  intros a ta b tb. unfold ordering_validate. destruct (numeric ta), (numeric tb); cbn [negb andb bind]; auto;
   intros H; repeat match goal with |- context [is_valid ?x ?y] => destruct (is_valid x y) as [[]|]; cbn [bind] in *; auto end.
Qed.

Lemma ordering_swap : forall v tv w tw b, is_valid tv v = Ok true -> is_valid tw w = Ok true ->
  evaluate_logical GREATER_THAN PRIMITIVE v tv [(w, tw)] = Ok b <-> evaluate_logical LESS_THAN PRIMITIVE w tw [(v, tv)] = Ok b.
Proof.
  intros v tv w tw b Vv Vw. unfold evaluate_logical. cbn [is_logical logical_container logical_types container_eqb negb container_is_valid forallb snd].
  rewrite Vv, Vw. cbn [bind negb]. rewrite !andb_true_r.
  destruct (mem_type tv _), (mem_type tw _); cbn [negb]; try tauto; try (split; discriminate).
  cbn [logical_evaluate first_operand bind]. unfold eval_ordering. cbn [fst snd]. rewrite (ordering_type_comm tw tv). set (t := ordering_type tv tw).
  split; intros H.
  - destruct (ordering_validate v tv w tw) as [[]|] eqn:V; [|discriminate]. rewrite (validate_swap _ _ _ _ V). cbn [bind] in *.
    destruct (compare_as t v w) as [c|] eqn:C; [|discriminate]. rewrite (compare_as_swap _ _ _ _ C). cbn in *. destruct c; auto.
  - destruct (ordering_validate w tw v tv) as [[]|] eqn:V; [|discriminate]. rewrite (validate_swap _ _ _ _ V). cbn [bind] in *.
    destruct (compare_as t w v) as [c|] eqn:C; [|discriminate]. rewrite (compare_as_swap _ _ _ _ C). cbn in *. destruct c; auto.
Qed.

(** A value is always valid for its own type, floating point values included only if their text is a number. *)
Lemma own_type_valid : forall v, v <> VNull -> (forall b t, v <> VFloat b t) -> is_valid (get_data_type v) v = Ok true.
Proof.
  intros v Hv Hf. destruct v; try reflexivity; try congruence; try (exfalso; eapply Hf; reflexivity).
  cbn [get_data_type]. destruct (parse_datetime s) eqn:E1; [|destruct (parse_date s) eqn:E2]; cbn; rewrite ?E1, ?E2; auto.
Qed.
Lemma float_valid_bool : forall b t, exists x, is_valid DECIMAL (VFloat b t) = Ok x.
Proof. intros. unfold is_valid. cbn [get_value bind]. eauto. Qed.

Lemma invalid_left : forall op v tv rs, is_valid tv v = Ok false -> forall b, evaluate_logical op PRIMITIVE v tv rs <> Ok b.
Proof.
  intros op v tv rs H b. unfold evaluate_logical. destruct (negb (is_logical op)); [discriminate|].
  destruct (negb (container_eqb _ _)); [discriminate|]. destruct (negb (mem_type _ _)); [discriminate|].
  cbn [container_is_valid]. rewrite H. discriminate.
Qed.
Lemma primitive_invalid : forall t v, is_valid t v = Ok false -> forall x, primitive_value t v <> Ok x.
Proof.
  intros t v H x. unfold primitive_value. destruct t; cbn [is_valid] in H; try discriminate;
   destruct (get_value _ v) as [[y|]|]; cbn in *; try discriminate.
Qed.

Lemma own_type_cases : forall v, v <> VNull -> is_valid (get_data_type v) v = Ok true \/ (get_data_type v = DECIMAL /\ is_valid DECIMAL v = Ok false).
Proof.
  intros v Hv. destruct v; try (left; apply own_type_valid; [auto|intros ? ? H; discriminate H]).
  cbn [get_data_type]. destruct (is_valid DECIMAL (VFloat is_double text)) as [[]|] eqn:E; auto.
  destruct (float_valid_bool is_double text). congruence.
Qed.
Lemma bad_decimal_right : forall op v tv w b, (op = GREATER_THAN \/ op = LESS_THAN) -> is_valid DECIMAL w = Ok false ->
  evaluate_logical op PRIMITIVE v tv [(w, DECIMAL)] <> Ok b.
Proof.
  intros op v tv w b Hop H. unfold evaluate_logical.
  destruct (negb (is_logical op)); [discriminate|].
  destruct (negb (container_eqb _ _)); [discriminate|]. destruct (negb (mem_type _ _)); [discriminate|].
  destruct (container_is_valid PRIMITIVE tv v) as [[]|]; cbn [bind negb]; try discriminate.
  destruct (negb (forallb _ _)); [discriminate|].
  assert (T : ordering_type tv DECIMAL = DECIMAL) by (destruct tv; reflexivity).
  destruct Hop as [->| ->]; cbn [logical_evaluate first_operand bind]; unfold eval_ordering; cbn [fst snd]; rewrite T;
    destruct (ordering_validate _ _ _ _); cbn [bind]; try discriminate; unfold compare_as;
    destruct (primitive_value DECIMAL v); cbn [bind]; try discriminate;
    destruct (primitive_value DECIMAL w) eqn:P; cbn [bind]; try discriminate; exfalso; eapply primitive_invalid; eauto.
Qed.

Lemma cond_yields : forall E d l op r v w, yields E d l v -> yields E d r w ->
  bool_eval E d (cond l op r) = evaluate_logical op PRIMITIVE v (get_data_type v) [(w, get_data_type w)].
Proof. intros. apply cmp_yields; auto. Qed.

Lemma swap_operands : forall E d l r v w b, yields E d l v -> yields E d r w ->
  bool_eval E d (cond l GREATER_THAN r) = Ok b <-> bool_eval E d (cond r LESS_THAN l) = Ok b.
Proof.
  intros E d l r v w b Hl Hr. rewrite (cond_yields _ _ _ _ _ _ _ Hl Hr), (cond_yields _ _ _ _ _ _ _ Hr Hl).
  destruct (own_type_cases v (proj1 (proj2 Hl))) as [Vv|[Tv Vv]], (own_type_cases w (proj1 (proj2 Hr))) as [Vw|[Tw Vw]].
  - apply ordering_swap; auto.
  - rewrite Tw. split; intros H; exfalso.
    + exact (bad_decimal_right _ _ _ _ _ (or_introl eq_refl) Vw H).
    + exact (invalid_left _ _ _ _ Vw _ H).
  - rewrite Tv. split; intros H; exfalso.
    + exact (invalid_left _ _ _ _ Vv _ H).
    + exact (bad_decimal_right _ _ _ _ _ (or_intror eq_refl) Vv H).
  - rewrite Tv, Tw. split; intros H; exfalso.
    + exact (invalid_left _ _ _ _ Vv _ H).
    + exact (invalid_left _ _ _ _ Vw _ H).
Qed.

(** Total orders (C08) *)
Lemma logical_same : forall op v w t v' w' c b, get_data_type v = t -> get_data_type w = t -> t <> BOOLEAN ->
  is_valid t v = Ok true -> primitive_value t v = Ok v' -> primitive_value t w = Ok w' -> compare_to v' w' = Ok c ->
  accepts op c = Some b -> evaluate_logical op PRIMITIVE v t [(w, t)] = Ok b.
Proof.
  intros op v w t v' w' c b Tv Tw Tb Vv Pv Pw Hc Ha. unfold evaluate_logical.
  assert (L : is_logical op = true /\ container_eqb (logical_container op) PRIMITIVE = true /\ mem_type t (logical_types op) = true).
  { destruct op; try discriminate Ha; destruct t; repeat split; congruence. }
  destruct L as (-> & -> & L). rewrite L. cbn [negb container_is_valid forallb snd]. rewrite Vv, L. cbn [bind negb andb].
  assert (Te : equality_type t t = t) by (destruct t; reflexivity).
  assert (To : ordering_type t t = t) by (destruct t; reflexivity).
  assert (C : compare_as t v w = Ok c) by (unfold compare_as; rewrite Pv, Pw; exact Hc).
  assert (Va : ordering_validate v t w t = Ok tt) by (unfold ordering_validate; destruct (numeric t); reflexivity).
  destruct op; try discriminate Ha; cbn [logical_evaluate first_operand bind]; unfold eval_equals, eval_not_equals, eval_ordering;
    cbn [fst snd]; rewrite ?Va; cbn [bind]; rewrite ?Te, ?To, ?C; cbn [bind]; destruct c; cbn in *; congruence.
Qed.

Definition order (v w : jval) : comparison :=
  match v, w with
  | VStr a, VStr b => jstr_compare a b
  | VDate a, VDate b => date_compare a b
  | VDateTime a, VDateTime b => datetime_compare a b
  | VVer a, VVer b => version_compare a b
  | _, _ => Eq
  end.

Lemma kind_compare : forall k v w, k <> Numbers -> of_kind k v -> of_kind k w -> forall op b,
  accepts op (order v w) = Some b -> evaluate_logical op PRIMITIVE v (get_data_type v) [(w, get_data_type w)] = Ok b.
Proof.
  intros k v w Hk Hv Hw op b Ha. destruct k; [congruence| | | |]; cbn in Hv, Hw.
  - destruct Hv as (s & -> & D1 & D2), Hw as (s' & -> & D1' & D2').
    assert (T : get_data_type (VStr s) = STRING) by (cbn; rewrite D1, D2; auto).
    assert (T' : get_data_type (VStr s') = STRING) by (cbn; rewrite D1', D2'; auto).
    rewrite T, T'. eapply logical_same with (v' := VStr s) (w' := VStr s'); eauto; try reflexivity. discriminate.
  - destruct Hv as (s & ->), Hw as (s' & ->). eapply logical_same with (v' := VDate s) (w' := VDate s'); eauto; try reflexivity. discriminate.
  - destruct Hv as (s & ->), Hw as (s' & ->). eapply logical_same with (v' := VDateTime s) (w' := VDateTime s'); eauto; try reflexivity. discriminate.
  - destruct Hv as (s & Hs & ->), Hw as (s' & Hs' & ->). eapply logical_same with (v' := VVer (dotted s)) (w' := VVer (dotted s')); eauto; try reflexivity. discriminate.
Qed.

Lemma Zcompare_trans_le : forall a b c, (a ?= b) <> Gt -> (b ?= c) <> Gt -> (a ?= c) <> Gt.
Proof. intros a b c H1 H2. change (a <= c). change (a <= b) in H1. change (b <= c) in H2. lia. Qed.

Fixpoint zlex (a b : list Z) : comparison :=
  match a, b with x :: a', y :: b' => match x ?= y with Eq => zlex a' b' | c => c end | _, _ => Eq end.
Lemma zlex_refl : forall a, zlex a a = Eq.
Proof. induction a; cbn; auto. rewrite Z.compare_refl. auto. Qed.
Lemma zlex_trans : forall a b c, length a = length b -> length b = length c -> zlex a b <> Gt -> zlex b c <> Gt -> zlex a c <> Gt.
Proof.
  induction a as [|x a IH]; intros [|y b] [|z c]; cbn; intros L1 L2 H1 H2; try congruence.
  destruct (Z.compare_spec x y), (Z.compare_spec y z); subst; try congruence.
  - rewrite Z.compare_refl. eauto.
  - rewrite (proj2 (Z.compare_lt_iff _ _)) by lia. discriminate.
  - rewrite (proj2 (Z.compare_lt_iff _ _)) by lia. discriminate.
  - rewrite (proj2 (Z.compare_lt_iff _ _)) by lia. discriminate.
Qed.
Definition date_list (d : date) : list Z := [year d; month d; day d].
Definition datetime_list (t : datetime) : list Z := date_list (dt_date t) ++ [hour t; minute t; second t; nano t].
Lemma date_zlex : forall a b, date_compare a b = zlex (date_list a) (date_list b).
Proof. intros. unfold date_compare. cbn. destruct (year a ?= year b), (month a ?= month b), (day a ?= day b); reflexivity. Qed.
Lemma datetime_zlex : forall a b, datetime_compare a b = zlex (datetime_list a) (datetime_list b).
Proof.
  intros. unfold datetime_compare. rewrite date_zlex. cbn. destruct (year (dt_date a) ?= year (dt_date b)), (month (dt_date a) ?= month (dt_date b)),
  (day (dt_date a) ?= day (dt_date b)), (hour a ?= hour b), (minute a ?= minute b), (second a ?= second b), (nano a ?= nano b); reflexivity.
Qed.

Lemma order_refl : forall k v, k <> Numbers -> of_kind k v -> order v v = Eq.
Proof.
  intros k v Hk Hv. destruct k; [congruence| | | |]; cbn in Hv.
  - destruct Hv as (s & -> & _). apply jstr_compare_refl.
  - destruct Hv as (s & ->). cbn. rewrite date_zlex. apply zlex_refl.
  - destruct Hv as (s & ->). cbn. rewrite datetime_zlex. apply zlex_refl.
  - destruct Hv as (s & Hs & ->). cbn [order]. rewrite version_compare_dotted by auto. apply components_refl.
Qed.
Lemma order_antisym : forall v w, order w v = CompOpp (order v w).
Proof.
  intros v w. destruct v, w; cbn [order CompOpp]; auto using jstr_compare_antisym, date_compare_antisym, datetime_compare_antisym, version_compare_antisym.
Qed.
Lemma order_trans : forall k u v w, k <> Numbers -> of_kind k u -> of_kind k v -> of_kind k w -> order u v <> Gt -> order v w <> Gt -> order u w <> Gt.
Proof.
  intros k u v w Hk Hu Hv Hw. destruct k; [congruence| | | |]; cbn in Hu, Hv, Hw.
  - destruct Hu as (a & -> & _), Hv as (b & -> & _), Hw as (c & -> & _). apply jstr_compare_trans.
  - destruct Hu as (a & ->), Hv as (b & ->), Hw as (c & ->). cbn [order]. rewrite !date_zlex. apply zlex_trans; auto.
  - destruct Hu as (a & ->), Hv as (b & ->), Hw as (c & ->). cbn [order]. rewrite !datetime_zlex. apply zlex_trans; auto.
  - destruct Hu as (a & Ha & ->), Hv as (b & Hb & ->), Hw as (c & Hc & ->). cbn [order]. rewrite !version_compare_dotted by auto. apply components_trans.
Qed.

(** One comparison function for each kind. *)
Lemma kind_order : forall E d k, exists f : jval -> jval -> comparison,
  (forall l r v w, yields E d l v -> yields E d r w -> of_kind k v -> of_kind k w -> forall op b, accepts op (f v w) = Some b ->
     bool_eval E d (cond l op r) = Ok b) /\
  (forall v, of_kind k v -> f v v = Eq) /\
  (forall v w, of_kind k v -> of_kind k w -> f w v = CompOpp (f v w)) /\
  (forall u v w, of_kind k u -> of_kind k v -> of_kind k w -> f u v <> Gt -> f v w <> Gt -> f u w <> Gt).
Proof.
  intros E d k. assert (K : k = Numbers \/ k <> Numbers) by (destruct k; [left; reflexivity|right; discriminate..]). destruct K as [->|Hk].
  - exists (fun v w => match decimal_value v, decimal_value w with Some a, Some b => bd_compare a b | _, _ => Eq end).
    split; [|split; [|split]].
    + intros l r v w Hl Hr [p Hp] [q Hq] op b Ha. rewrite (cond_yields _ _ _ _ _ _ _ Hl Hr).
      destruct (number_decimal v p Hp) as (x & Ex & Hx), (number_decimal w q Hq) as (y & Ey & Hy). rewrite Ex, Ey, dec_compare, Hx, Hy in Ha.
      apply logical_numbers with p q; auto. destruct op; try discriminate Ha; cbn [question]; rewrite ?Qeq_bool_compare, ?Qle_bool_compare;
        try rewrite <- (Qcompare_antisym p q); destruct (p ?= q)%Q; cbn in *; congruence.
    + intros v [p Hp]. destruct (number_decimal v p Hp) as (x & Ex & Hx). rewrite Ex, dec_compare. apply Qeq_alt. reflexivity.
    + intros v w [p Hp] [q Hq]. destruct (number_decimal v p Hp) as (x & Ex & Hx), (number_decimal w q Hq) as (y & Ey & Hy). rewrite Ex, Ey, !dec_compare.
      symmetry. apply Qcompare_antisym.
    + intros u v w [p Hp] [q Hq] [r Hr]. destruct (number_decimal u p Hp) as (x & -> & Hx), (number_decimal v q Hq) as (y & -> & Hy), (number_decimal w r Hr) as (z & -> & Hz).
      rewrite !dec_compare. intros H1 H2. apply Qle_alt in H1, H2. apply Qle_alt. eapply Qle_trans; eauto.
  - exists order. split; [|split; [|split]].
    + intros l r v w Hl Hr Hv Hw op b Ha. rewrite (cond_yields _ _ _ _ _ _ _ Hl Hr). eapply kind_compare; eauto.
    + intros; eapply order_refl; eauto.
    + intros; apply order_antisym.
    + intros u v w; apply (order_trans k); auto.
Qed.

Lemma total_order : forall E d k l1 l2 l3 v1 v2 v3, yields E d l1 v1 -> yields E d l2 v2 -> yields E d l3 v3 ->
  of_kind k v1 -> of_kind k v2 -> of_kind k v3 ->
  let holds l op r := bool_eval E d (cond l op r) = Ok true in
  (forall op c, accepts op c <> None -> exists b, bool_eval E d (cond l1 op l2) = Ok b) /\
  holds l1 LESS_THAN_EQUAL l1 /\
  (holds l1 LESS_THAN_EQUAL l2 \/ holds l2 LESS_THAN_EQUAL l1) /\
  (holds l1 LESS_THAN_EQUAL l2 -> holds l2 LESS_THAN_EQUAL l3 -> holds l1 LESS_THAN_EQUAL l3) /\
  (holds l1 LESS_THAN_EQUAL l2 /\ holds l2 LESS_THAN_EQUAL l1 <-> holds l1 EQUALS l2).
Proof.
  intros E d k l1 l2 l3 v1 v2 v3 Y1 Y2 Y3 K1 K2 K3 holds.
  destruct (kind_order E d k) as (f & Hf & Hrefl & Hanti & Htrans).
  assert (LE : forall l r v w, yields E d l v -> yields E d r w -> of_kind k v -> of_kind k w ->
     holds l LESS_THAN_EQUAL r <-> f v w <> Gt).
  { intros l r v w Hl Hr Hv Hw. unfold holds. destruct (f v w) eqn:F.
    - rewrite (Hf l r v w Hl Hr Hv Hw LESS_THAN_EQUAL true) by (rewrite F; auto). split; auto; discriminate.
    - rewrite (Hf l r v w Hl Hr Hv Hw LESS_THAN_EQUAL true) by (rewrite F; auto). split; auto; discriminate.
    - rewrite (Hf l r v w Hl Hr Hv Hw LESS_THAN_EQUAL false) by (rewrite F; auto). split; congruence. }
  assert (EQ : holds l1 EQUALS l2 <-> f v1 v2 = Eq).
  { unfold holds. destruct (f v1 v2) eqn:F.
    - rewrite (Hf l1 l2 v1 v2 Y1 Y2 K1 K2 EQUALS true) by (rewrite F; auto). split; auto.
    - rewrite (Hf l1 l2 v1 v2 Y1 Y2 K1 K2 EQUALS false) by (rewrite F; auto). split; congruence.
    - rewrite (Hf l1 l2 v1 v2 Y1 Y2 K1 K2 EQUALS false) by (rewrite F; auto). split; congruence. }
  repeat split.
  - intros op c Ha. destruct (accepts op (f v1 v2)) as [b|] eqn:B; [exists b; eauto|]. exfalso. apply Ha.
    destruct op, c, (f v1 v2); cbn in *; congruence.
  - apply (LE l1 l1 v1 v1); auto. rewrite Hrefl by auto. discriminate.
  - rewrite (LE l1 l2 v1 v2), (LE l2 l1 v2 v1) by auto. rewrite (Hanti v1 v2) by auto. destruct (f v1 v2); cbn; auto; left + right; congruence.
  - rewrite (LE l1 l2 v1 v2), (LE l2 l3 v2 v3), (LE l1 l3 v1 v3) by auto. eauto.
  - intros [H1 H2]. apply EQ. apply (LE l1 l2 v1 v2) in H1; auto. apply (LE l2 l1 v2 v1) in H2; auto.
    rewrite (Hanti v1 v2) in H2 by auto. destruct (f v1 v2); cbn in *; congruence.
  - apply EQ in H. apply (LE l1 l2 v1 v2); auto. congruence.
  - apply EQ in H. apply (LE l2 l1 v2 v1); auto. rewrite (Hanti v1 v2) by auto. rewrite H. discriminate.
Qed.
