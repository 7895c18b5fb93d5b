(** C61: how evaluations can fail. *)
From Verif Require Import Base JNum BigDec Dates Values Ops Funcs Ast Eval Api FieldFacts SpecRecover AnyText SpecFailures.

Definition safe {A} (fs : list exn) (r : res A) : Prop := match r with Ok _ => True | Err e => In e fs end.
Lemma safe_bind : forall A B fs (r : res A) (k : A -> res B), safe fs r -> (forall a, safe fs (k a)) -> safe fs (bind r k).
Proof. intros A B fs [a|e] k H K; cbn; auto. Qed.
Lemma safe_more : forall A fs gs (r : res A), incl fs gs -> safe fs r -> safe gs r.
Proof. intros A fs gs [a|e] I H; cbn in *; auto. Qed.
Lemma safe_mapM : forall A B fs (f : A -> res B) l, (forall a, safe fs (f a)) -> safe fs (mapM f l).
Proof. intros A B fs f l H. induction l; cbn; auto. apply safe_bind; auto. intros b. apply safe_bind; auto. intros bs. exact I. Qed.
Lemma safe_anyM : forall A fs (f : A -> res bool) l, (forall a, safe fs (f a)) -> safe fs (anyM f l).
Proof. intros A fs f l H. induction l; cbn; auto. apply safe_bind; auto. intros [|]; cbn; auto. Qed.
Lemma safe_allM : forall A fs (f : A -> res bool) l, (forall a, safe fs (f a)) -> safe fs (allM f l).
Proof. intros A fs f l H. induction l; cbn; auto. apply safe_bind; auto. intros [|]; cbn; auto. Qed.

(** Case analysis until every branch is a value, a listed exception or a call with a lemma. *)
Ltac listed := cbn; tauto.
Create HintDb safe.
Ltac safety :=
  repeat first
    [ progress auto with safe
    | exact I
    | match goal with
      | |- safe _ (Ok _) => exact I
      | |- safe _ (Err _) => cbn; tauto
      | |- safe _ (bind _ _) => apply safe_bind; [|intro]
      | |- safe _ (mapM _ _) => apply safe_mapM; intro
      | |- safe _ (anyM _ _) => apply safe_anyM; intro
      | |- safe _ (allM _ _) => apply safe_allM; intro
      | |- safe _ (match ?x with _ => _ end) => destruct x
      | |- safe _ (if ?x then _ else _) => destruct x
      end ].

Notation arith r := (safe arithmetic_failures r).
Lemma s_to_string : forall v, arith (to_string v). Proof. intros. unfold to_string. safety. Qed.
#[local] Hint Resolve s_to_string : safe.
Lemma s_get_value : forall d v, arith (get_value d v).
Proof. intros. unfold get_value, get_string, get_boolean, get_date, get_datetime. destruct d; safety. Qed.
#[local] Hint Resolve s_get_value : safe.
Lemma s_is_valid : forall d v, arith (is_valid d v). Proof. intros. unfold is_valid. destruct d; safety. Qed.
#[local] Hint Resolve s_is_valid : safe.
Lemma s_container_is_valid : forall c d v, arith (container_is_valid c d v). Proof. intros. unfold container_is_valid. safety. Qed.
#[local] Hint Resolve s_container_is_valid : safe.
Lemma s_primitive_value : forall d v, arith (primitive_value d v). Proof. intros. unfold primitive_value. safety. Qed.
#[local] Hint Resolve s_primitive_value : safe.
Lemma s_compare_to : forall a b, arith (compare_to a b). Proof. intros. unfold compare_to. safety. Qed.
#[local] Hint Resolve s_compare_to : safe.
Lemma s_path : forall ks d, arith (get_path ks d).
Proof.
  induction ks as [|k ks IH]; intros d; [cbn; tauto|]. destruct ks as [|k' ks]; [exact I|].
  change (get_path (k :: k' :: ks) d) with (match map_get k d with Some (VMap es) => get_path (k' :: ks) es | _ => Ok None end).
  destruct (map_get k d) as [[]|]; try exact I. apply IH.
Qed.
#[local] Hint Resolve s_path : safe.
Lemma s_map : forall k d, arith (get_value_from_map k d). Proof. intros. unfold get_value_from_map. safety. Qed.
#[local] Hint Resolve s_map : safe.
Lemma s_field : forall f d, arith (field_value f d). Proof. intros. unfold field_value. safety. Qed.
#[local] Hint Resolve s_field : safe.
Lemma s_field_or_fail : forall f d, arith (field_value_or_fail f d). Proof. intros. unfold field_value_or_fail. safety. Qed.
#[local] Hint Resolve s_field_or_fail : safe.
Lemma s_divide : forall a b s m, arith (bd_divide a b s m). Proof. intros. unfold bd_divide. safety. Qed.
#[local] Hint Resolve s_divide : safe.
Lemma s_cast : forall b, arith (cast_decimal b). Proof. intros. unfold cast_decimal, int_value_exact. safety. Qed.
#[local] Hint Resolve s_cast : safe.
Lemma s_double : forall b, arith (bd_of_double b).
Proof. intros [| |m e]; cbn; try tauto. destruct m as [|p|p]; cbn; auto; destruct (odd_part p e); exact I. Qed.
#[local] Hint Resolve s_double : safe.
Lemma s_cast_double : forall b, arith (cast_double b). Proof. intros. unfold cast_double. safety. Qed.
#[local] Hint Resolve s_cast_double : safe.
Lemma s_opt_get : forall A (o : option A), arith (opt_get o). Proof. intros. unfold opt_get. safety. Qed.
#[local] Hint Resolve s_opt_get : safe.
Lemma s_reduce : forall A (f : A -> A -> A) l, arith (reduce1 f l). Proof. intros. unfold reduce1. safety. Qed.
#[local] Hint Resolve s_reduce : safe.
Lemma s_list_get : forall A (l : list A) i, arith (list_get l i). Proof. intros. unfold list_get. safety. Qed.
#[local] Hint Resolve s_list_get : safe.
Lemma s_validate_items : forall l, arith (validate_items l).
Proof. induction l as [|[v t] l IH]; cbn; auto. safety. Qed.
#[local] Hint Resolve s_validate_items : safe.
Lemma s_func : forall E f items, arith (func_evaluate E f items).
Proof.
  intros. unfold func_evaluate. destruct f;
    unfold eval_min, eval_max, eval_sum, eval_avg, eval_median, eval_mode, eval_int, eval_len, eval_days_elapsed, decimals, longs, ints, cast_long_as_double;
    safety.
Qed.
#[local] Hint Resolve s_func : safe.
Lemma s_function : forall E f items, arith (evaluate_function E f items).
Proof. intros. unfold evaluate_function. destruct items; [cbn; tauto|]. cbv zeta. safety. Qed.
#[local] Hint Resolve s_function : safe.
Lemma s_arithmetic : forall E op l lt r, arith (evaluate_arithmetic E op l lt r).
Proof.
  intros. unfold evaluate_arithmetic, eval_unary. destruct (arithmetic_types op); [|cbn; tauto].
  destruct (negb (mem_type lt l0)); [cbn; tauto|]. apply safe_bind; [safety|]. intros v.
  destruct (negb v); [cbn; tauto|]. destruct r as [[rv rt]|]; [|destruct lt; safety].
  destruct (negb (mem_type rt l0)); [cbn; tauto|]. apply safe_bind; [destruct rv; safety|]. intros w.
  destruct (negb w); [cbn; tauto|].
  destruct op; unfold eval_add, eval_subtract, eval_multiply, eval_divide, eval_modulus, eval_exponent; safety.
Qed.
#[local] Hint Resolve s_arithmetic : safe.
Lemma s_first : forall rs, arith (first_operand rs). Proof. intros. unfold first_operand. safety. Qed.
#[local] Hint Resolve s_first : safe.
Lemma s_compare_as : forall t l r, arith (compare_as t l r). Proof. intros. unfold compare_as. safety. Qed.
#[local] Hint Resolve s_compare_as : safe.
Lemma s_equals : forall l lt r, arith (eval_equals l lt r). Proof. intros. unfold eval_equals. safety. Qed.
#[local] Hint Resolve s_equals : safe.
Lemma s_ordering : forall t l lt r, arith (eval_ordering t l lt r). Proof. intros. unfold eval_ordering, ordering_validate. safety. Qed.
#[local] Hint Resolve s_ordering : safe.
Lemma s_logical : forall op c l lt rs, arith (evaluate_logical op c l lt rs).
Proof. intros. unfold evaluate_logical, logical_evaluate, eval_contains, eval_in, eval_not_equals. destruct op; safety. Qed.
#[local] Hint Resolve s_logical : safe.

Lemma arith_safe : forall E d n, arith (arith_eval E d n).
Proof.
  intros E d n. induction n using node_ind'; cbn [arith_eval]; try (safety; fail).
  - apply safe_bind; [|intros; safety]. induction H; cbn; auto. apply safe_bind; auto. intros v. apply safe_bind; auto. intros; exact I.
Qed.

Notation cond r := (safe condition_failures r).
Lemma arith_cond : forall A (r : res A), arith r -> cond r.
Proof. intros A r. apply safe_more. intros e H. right; right; auto. Qed.
Lemma bool_safe : forall E d n, cond (bool_eval E d n).
Proof.
  intros E d n. induction n using node_ind'; cbn [bool_eval]; try exact I.
  - destruct (dtype_eqb dt BOOLEAN); [destruct v; cbn; tauto|]. apply safe_bind; [apply arith_cond; safety|]. intros s.
    apply safe_bind; [apply arith_cond; safety|]. intros x; destruct x; cbn; tauto.
  - assert (Op : forall v, cond (optional_of v)) by (intros []; cbn; tauto).
    assert (V : forall m, cond (bool_eval E d m) -> cond (if is_arith_base m then match m with NField f => field_value f d | NUnary _ v => optional_of v
      | NArith _ _ _ | NFunc _ _ => v <- arith_eval E d m ;; optional_of v | _ => Ok None end else b <- bool_eval E d m ;; Ok (Some (VBool b)))).
    { intros m Hm. destruct (is_arith_base m); [|apply safe_bind; auto; intros; exact I].
      destruct m; try exact I; auto; try (apply arith_cond; safety; fail);
        (apply safe_bind; [apply arith_cond, arith_safe | auto]). }
    apply safe_bind; [apply V; auto|]. intros lo.
    assert (N : cond (is_null_check n1 n2 op)).
    { apply arith_cond. unfold is_null_check, node_is_null_field, field_is_null. destruct op; safety. }
    apply safe_bind; auto. intros nc. apply safe_bind; [destruct lo, nc; cbn; tauto|]. intros lv.
    apply safe_bind; [|intros; apply arith_cond; safety]. destruct nc; [exact I|].
    apply safe_bind; [apply V; auto|]. intros [v|]; cbn; tauto.
  - apply safe_bind; [apply arith_cond; safety|]. intros v. apply safe_bind; [apply arith_cond; safety|]. intros x.
    apply safe_bind; [apply arith_cond; safety|]. intros y. exact I.
  - apply safe_bind; [apply arith_cond; safety|]. intros v. apply safe_bind; [|intros; apply arith_cond; safety].
    induction H as [|i items Hi F IH]; cbn; auto. apply safe_bind; [|intros; apply safe_bind; auto; intros; exact I].
    destruct (is_arith_base i); [apply arith_cond, arith_safe | apply safe_bind; auto; intros; exact I].
  - apply safe_bind; [apply arith_cond; safety|]. intros v. apply safe_bind.
    + induction H as [|i items Hi F IH]; cbn; auto. apply safe_bind; [|intros; apply safe_bind; auto; intros; exact I].
      destruct (is_arith_base i); [apply arith_cond, arith_safe | apply safe_bind; auto; intros; exact I].
    + intros vs. cbv zeta. destruct (match map_to_evaluated vs with [] => false | _ => _ end); [cbn; tauto | apply arith_cond; safety].
  - destruct op.
    + apply safe_bind; auto. intros [|]; [|exact I]. destruct r; cbn in *; auto. tauto.
    + apply safe_bind; auto. intros [|]; [exact I|]. destruct r; cbn in *; auto. tauto.
    + apply safe_bind; auto. intros; exact I.
Qed.

Lemma parse_safe : forall s dflt, arith (parse_expression s dflt).
Proof.
  intros s dflt. destruct (parse_total s dflt) as [[n E] | (e & E & I)]; rewrite E; [exact Logic.I|].
  cbn in *. tauto.
Qed.
Lemma safe_cases : forall A fs (r : res A), safe fs r -> (exists a, r = Ok a) \/ exists e, r = Err e /\ In e fs.
Proof. intros A fs [a|e] H; [left|right]; eauto. Qed.
Lemma condition_ends : forall E s d dflt, (exists b, evaluate_boolean E s d dflt = Ok b) \/
  exists e, evaluate_boolean E s d dflt = Err e /\ In e condition_failures.
Proof. intros. apply safe_cases. unfold evaluate_boolean. apply safe_bind; [apply arith_cond, parse_safe | intros; apply bool_safe]. Qed.
Lemma arithmetic_ends : forall E s d, (exists v, evaluate_arith E s d = Ok v) \/
  exists e, evaluate_arith E s d = Err e /\ In e arithmetic_failures.
Proof. intros. apply safe_cases. unfold evaluate_arith. apply safe_bind; [apply parse_safe | intros; apply arith_safe]. Qed.
