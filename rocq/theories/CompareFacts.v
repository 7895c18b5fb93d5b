(** Proofs about comparisons. *)
From Coq Require Import QArith Qpower ZifyBool ZifyNat ZifyN.
From Verif Require Import Base JNum BigDec Dates Version Values Ops Funcs Ast Eval JNumFacts SpecNum BigDecFacts NumFacts SpecCompare.
Local Open Scope Z_scope.

(** Operands *)
Lemma arith_ok_base : forall E d n v, arith_eval E d n = Ok v -> is_arith_base n = true.
Proof. intros E d n v H. destruct n; try reflexivity; discriminate H. Qed.

Definition operand_value (E : env) (d : data) (m : node) : res (option jval) :=
  if is_arith_base m then
    match m with
    | NField f => field_value f d
    | NUnary _ v => optional_of v
    | NArith _ _ _ | NFunc _ _ => v <- arith_eval E d m ;; optional_of v
    | _ => Ok None
    end
  else b <- bool_eval E d m ;; Ok (Some (VBool b)).

Lemma cmp_unfold : forall E d l r op dt, bool_eval E d (NCmp l r op dt) =
  (lo <- operand_value E d l ;;
   nc <- is_null_check l r op ;;
   lv <- (match lo with Some v => Ok v | None => if nc then Ok (VStr (J "null")) else Err DataNotFound end) ;;
   rv <- (if nc then Ok (VStr (J "null"))
          else ro <- operand_value E d r ;; match ro with Some v => Ok v | None => Err NoSuchElement end) ;;
   evaluate_logical op PRIMITIVE lv (get_data_type lv) [(rv, get_data_type rv)]).
Proof. reflexivity. Qed.

Lemma operand_yields : forall E d n v, arith_eval E d n = Ok v -> v <> VNull -> operand_value E d n = Ok (Some v).
Proof.
  intros E d n v H Hv. unfold operand_value. rewrite (arith_ok_base _ _ _ _ H).
  assert (O : optional_of v = Ok (Some v)) by (destruct v; auto; congruence).
  destruct n; try (rewrite H; exact O); try discriminate H.
  - cbn in H. unfold field_value_or_fail in H. destruct (field_value field d) as [[x|]|]; cbn in H; try discriminate. congruence.
  - cbn in H. congruence.
Qed.

Lemma to_lower_null : to_lower (J "null") = J "null". Proof. reflexivity. Qed.
Lemma jstr_eqb_iff : forall a b, jstr_eqb a b = true <-> a = b.
Proof.
  induction a as [|x a IH]; intros [|y b]; cbn; split; intros H; try discriminate; auto.
  - apply andb_true_iff in H as [H1 H2]. apply N.eqb_eq in H1. apply IH in H2. congruence.
  - injection H as -> ->. rewrite N.eqb_refl. apply IH; auto.
Qed.
Lemma not_null_word : forall n E d v, arith_eval E d n = Ok v -> ~ null_word n -> node_is_null_field n = Ok false.
Proof.
  intros n E d v H Hn. destruct n; auto. cbn. destruct field as [f|]; [|discriminate H]. cbn. f_equal.
  destruct (equals_ignore_case f (J "null")) eqn:Eq; auto. exfalso. apply Hn. exists f. split; auto.
  unfold equals_ignore_case in Eq. apply jstr_eqb_iff in Eq. rewrite Eq. reflexivity.
Qed.

Lemma cmp_yields : forall E d l r op dt v w, yields E d l v -> yields E d r w ->
  bool_eval E d (NCmp l r op dt) = evaluate_logical op PRIMITIVE v (get_data_type v) [(w, get_data_type w)].
Proof.
  intros E d l r op dt v w (Hl & Hv & Nl) (Hr & Hw & Nr). rewrite cmp_unfold.
  rewrite (operand_yields _ _ _ _ Hl Hv), (operand_yields _ _ _ _ Hr Hw).
  assert (N : is_null_check l r op = Ok false).
  { unfold is_null_check. rewrite (not_null_word _ _ _ _ Hl Nl), (not_null_word _ _ _ _ Hr Nr). destruct op; auto. }
  rewrite N. reflexivity.
Qed.
Lemma yields_lit : forall E d v, v <> VNull -> yields E d (lit v) v.
Proof. intros. repeat split; auto. intros (f & H0 & _). discriminate. Qed.

(** Numbers *)
Lemma number_nonnull : forall v q, number v q -> v <> VNull.
Proof. intros v q H. destruct H; discriminate. Qed.
Lemma number_dtype : forall v q, number v q -> get_data_type v = INTEGER \/ get_data_type v = LONG \/ get_data_type v = DECIMAL.
Proof. intros v q H. destruct H; cbn; auto. Qed.

Lemma get_value_decimal : forall v q, number v q -> exists d, primitive_value DECIMAL v = Ok (VDec d) /\ (dec_value d == q)%Q.
Proof.
  intros v q H. destruct (number_decimal v q H) as (d & H1 & H2). exists d. split; auto.
  unfold primitive_value, get_value. rewrite H1. reflexivity.
Qed.

Lemma number_valid : forall v q, number v q -> is_valid (get_data_type v) v = Ok true.
Proof.
  intros v q H. destruct (number_decimal v q H) as (d & H1 & _).
  destruct H; cbn [get_data_type is_valid get_value bind]; rewrite ?H1; reflexivity.
Qed.

Lemma compare_decimal : forall v w p q, number v p -> number w q -> compare_as DECIMAL v w = Ok (p ?= q)%Q.
Proof.
  intros v w p q Hv Hw. unfold compare_as.
  destruct (get_value_decimal v p Hv) as (a & -> & Ha). destruct (get_value_decimal w q Hw) as (b & -> & Hb).
  cbn. rewrite dec_compare, Ha, Hb. reflexivity.
Qed.
Lemma primitive_long : forall v q z, number v q -> (q == inject_Z z)%Q -> get_data_type v <> DECIMAL -> primitive_value LONG v = Ok (VLong z).
Proof.
  intros v q z H Hz Hd. destruct H as [x q Hx Hq|x q Hx Hq| |]; try (exfalso; apply Hd; reflexivity);
    rewrite Hq in Hz; apply (proj1 (inject_eq _ _)) in Hz; subst; unfold primitive_value, get_value.
  - rewrite long_value_int; auto. apply in_long_iff. lia.
  - reflexivity.
Qed.

Lemma number_integer : forall v q, number v q -> get_data_type v <> DECIMAL -> exists z, (q == inject_Z z)%Q.
Proof. intros v q H Hd. destruct H; eauto; exfalso; apply Hd; reflexivity. Qed.

Lemma compare_numbers : forall v w p q, number v p -> number w q ->
  compare_as (equality_type (get_data_type v) (get_data_type w)) v w = Ok (p ?= q)%Q /\
  compare_as (ordering_type (get_data_type v) (get_data_type w)) v w = Ok (p ?= q)%Q.
Proof.
  intros v w p q Hv Hw.
  assert (T : ordering_type (get_data_type v) (get_data_type w) = equality_type (get_data_type v) (get_data_type w)).
  { destruct (number_dtype v p Hv) as [->|[->| ->]], (number_dtype w q Hw) as [->|[->| ->]]; reflexivity. }
  rewrite T. split; [|]; (
  destruct (number_dtype v p Hv) as [Tv|[Tv|Tv]], (number_dtype w q Hw) as [Tw|[Tw|Tw]]; rewrite Tv, Tw; cbn [equality_type priority];
    try (exact (compare_decimal v w p q Hv Hw))).
  all: try (destruct (number_integer v p Hv ltac:(congruence)) as [x Hx]; destruct (number_integer w q Hw ltac:(congruence)) as [y Hy];
    unfold compare_as; cbn [equality_type priority Z.ltb Z.compare Pos.compare Pos.compare_cont];
    rewrite (primitive_long v p x Hv Hx ltac:(congruence)), (primitive_long w q y Hw Hy ltac:(congruence));
    cbn; rewrite Hx, Hy, inject_Z_compare; reflexivity).
  all: destruct Hv as [x p Hx Hp|x p Hx Hp|d p Hp|db t p Hp]; try discriminate Tv;
       destruct Hw as [y q Hy Hq|y q Hy Hq|d q Hq|db t q Hq]; try discriminate Tw; cbn; rewrite Hp, Hq, inject_Z_compare; reflexivity.
Qed.

Lemma Qeq_bool_compare : forall p q, Qeq_bool p q = match (p ?= q)%Q with Eq => true | _ => false end.
Proof.
  intros. destruct (p ?= q)%Q eqn:E.
  - apply Qeq_alt in E. apply Qeq_bool_iff; auto.
  - destruct (Qeq_bool p q) eqn:B; auto. apply Qeq_bool_iff in B. apply Qeq_alt in B. congruence.
  - destruct (Qeq_bool p q) eqn:B; auto. apply Qeq_bool_iff in B. apply Qeq_alt in B. congruence.
Qed.
Lemma Qle_bool_compare : forall p q, Qle_bool p q = match (p ?= q)%Q with Gt => false | _ => true end.
Proof.
  intros. destruct (p ?= q)%Q eqn:E.
  - apply Qeq_alt in E. apply Qle_bool_iff. rewrite E. apply Qle_refl.
  - apply Qlt_alt in E. apply Qle_bool_iff. apply Qlt_le_weak; auto.
  - apply Qgt_alt in E. destruct (Qle_bool p q) eqn:B; auto. apply Qle_bool_iff in B. exfalso. eapply Qlt_not_le; eauto.
Qed.

Lemma numeric_dtype : forall v q, number v q -> numeric (get_data_type v) = true.
Proof. intros v q H. destruct (number_dtype v q H) as [->|[->| ->]]; reflexivity. Qed.

(** evaluate_logical on numbers *)
Lemma logical_numbers : forall op v w p q b, number v p -> number w q -> question op p q = Some b ->
  evaluate_logical op PRIMITIVE v (get_data_type v) [(w, get_data_type w)] = Ok b.
Proof.
  intros op v w p q b Hv Hw Hb. destruct (compare_numbers v w p q Hv Hw) as [Ce Co].
  unfold evaluate_logical.
  assert (L : is_logical op = true /\ container_eqb (logical_container op) PRIMITIVE = true /\
     mem_type (get_data_type v) (logical_types op) = true /\ mem_type (get_data_type w) (logical_types op) = true).
  { destruct (number_dtype v p Hv) as [Tv|[Tv|Tv]], (number_dtype w q Hw) as [Tw|[Tw|Tw]]; rewrite Tv, Tw;
    destruct op; try discriminate Hb; repeat split. }
  destruct L as (-> & -> & -> & Lw). cbn [negb container_is_valid forallb snd]. rewrite (number_valid v p Hv). cbn [bind negb].
  rewrite Lw. cbn [negb andb].
  destruct op; try discriminate Hb; injection Hb as <-; cbn [logical_evaluate first_operand bind];
    unfold eval_equals, eval_not_equals, eval_ordering, ordering_validate; cbn [fst snd];
    rewrite ?(numeric_dtype v p Hv), ?(numeric_dtype w q Hw); cbn [negb andb bind]; rewrite ?Ce, ?Co; cbn [bind];
    rewrite ?Qeq_bool_compare, ?Qle_bool_compare; try rewrite <- (Qcompare_antisym p q); destruct (p ?= q)%Q; reflexivity.
Qed.

Lemma compare_number_operands : forall E d l r op dt v w p q b, yields E d l v -> yields E d r w -> number v p -> number w q ->
  question op p q = Some b -> bool_eval E d (NCmp l r op dt) = Ok b.
Proof. intros. erewrite cmp_yields by eauto. eapply logical_numbers; eauto. Qed.
