(** C81: the messages of failures. *)
From Coq Require Import QArith.
From Verif Require Import SpecRecover AnyText.
From Verif Require Import Base JNum BigDec Dates Values Ops Funcs Ast Eval SpecNum SpecCompare SpecArith SpecFunc SpecDate SpecMixed SpecCall SpecPath FailureFacts
  Lexer Api NumFacts BoolFacts CompareFacts FieldFacts ArithFacts FuncFacts DateFacts MixedFacts ComputeFacts CallFacts CompareWitness Reads SpecReads ReadsFacts Messages SpecMessage.
Local Open Scope nat_scope.

(** ** Forgetting the messages *)
Lemma forget_bind {A B} (x : told A) (k : A -> told B) : forget (tbind x k) = bind (forget x) (fun a => forget (k a)).
Proof. destruct x; reflexivity. Qed.
Lemma forget_jdk {A} (r : res A) : forget (jdk r) = r.
Proof. destruct r; reflexivity. Qed.
Lemma forget_throwing {A} e m (r : res A) : forget (throwing e m r) = r.
Proof. destruct r; reflexivity. Qed.
Lemma bind_ext {A B} (r : res A) (f g : A -> res B) : (forall a, f a = g a) -> bind r f = bind r g.
Proof. intros H. destruct r; [apply H|reflexivity]. Qed.
Ltac forgetting := repeat first [rewrite forget_bind | rewrite forget_jdk | rewrite forget_throwing | apply bind_ext; intro | reflexivity].

Lemma forget_compare t l r : forget (compare_told t l r) = compare_as t l r.
Proof. unfold compare_told, compare_as, primitive_told. forgetting. Qed.
Lemma forget_any {A} (f : A -> told bool) g l : (forall a, forget (f a) = g a) -> forget (any_told f l) = anyM g l.
Proof. intros H. induction l as [|a l IH]; [reflexivity|]. cbn [any_told anyM]. rewrite forget_bind, H. apply bind_ext. intros []; [reflexivity|exact IH]. Qed.
Lemma forget_all {A} (f : A -> told bool) g l : (forall a, forget (f a) = g a) -> forget (all_told f l) = allM g l.
Proof. intros H. induction l as [|a l IH]; [reflexivity|]. cbn [all_told allM]. rewrite forget_bind, H. apply bind_ext. intros []; [exact IH|reflexivity]. Qed.
Lemma forget_equals l lt r : forget (equals_told l lt r) = eval_equals l lt r.
Proof. unfold equals_told, eval_equals. rewrite forget_bind, forget_compare. apply bind_ext. reflexivity. Qed.
Lemma forget_not_equals l lt r : forget (not_equals_told l lt r) = eval_not_equals l lt r.
Proof. unfold not_equals_told, eval_not_equals. rewrite forget_bind, forget_compare. apply bind_ext. reflexivity. Qed.
Lemma forget_ordering t l lt r : forget (ordering_told t l lt r) = eval_ordering t l lt r.
Proof.
  unfold ordering_told, eval_ordering, validate_told. rewrite forget_bind, forget_throwing. apply bind_ext. intros _. rewrite forget_bind, forget_compare. apply bind_ext. reflexivity.
Qed.
Lemma forget_in l lt rs : forget (in_told l lt rs) = eval_in l lt rs.
Proof. apply forget_any. intros r. apply forget_equals. Qed.
Lemma forget_contains all l lt rs : forget (contains_told all l lt rs) = eval_contains all l lt rs.
Proof.
  unfold contains_told, eval_contains. rewrite forget_bind, forget_jdk. apply bind_ext. intros [|]; [|reflexivity]. destruct l as [| | | | | | | | | |[] items| | |]; try reflexivity.
  destruct all; [apply forget_all|apply forget_any]; intros r; apply forget_in.
Qed.
Lemma forget_logical_inner op l lt rs : forget (logical_told op l lt rs) = logical_evaluate op l lt rs.
Proof.
  destruct op; cbn [logical_told logical_evaluate]; try reflexivity; try apply forget_in; try apply forget_contains;
    rewrite forget_bind, forget_jdk; apply bind_ext; intros r; auto using forget_equals, forget_not_equals, forget_ordering.
Qed.
Lemma right_types_cases op rs : (right_types_told op rs = Gives tt /\ forallb (fun r : evaluated => mem_type (snd r) (logical_types op)) rs = true) \/
  (exists t, right_types_told op rs = Throws InvalidDataType (Some (bad_type (J "right") t op)) /\ mem_type t (logical_types op) = false /\
     forallb (fun r : evaluated => mem_type (snd r) (logical_types op)) rs = false).
Proof.
  induction rs as [|[v t] rs IH]; [left; auto|]. cbn [right_types_told forallb snd]. destruct (mem_type t (logical_types op)) eqn:M; [exact IH|].
  right. exists t. auto.
Qed.
Lemma forget_logical op c l lt rs : forget (evaluate_logical_told op c l lt rs) = evaluate_logical op c l lt rs.
Proof.
  unfold evaluate_logical_told, evaluate_logical. destruct (negb (is_logical op)); [reflexivity|]. destruct (negb (container_eqb _ c)); [reflexivity|].
  destruct (negb (mem_type lt _)); [reflexivity|]. rewrite forget_bind, forget_jdk. apply bind_ext. intros v. destruct (negb v); [reflexivity|].
  destruct (right_types_cases op rs) as [[-> ->]|(t & -> & _ & ->)]; [|reflexivity]. cbn [tbind negb]. apply forget_logical_inner.
Qed.
Lemma forget_arithmetic E op l lt r : forget (evaluate_arithmetic_told E op l lt r) = evaluate_arithmetic E op l lt r.
Proof.
  unfold evaluate_arithmetic_told, evaluate_arithmetic. destruct (arithmetic_types op); [|reflexivity]. destruct (negb _); [reflexivity|].
  rewrite forget_bind, forget_jdk. apply bind_ext. intros v. destruct (negb v); [reflexivity|]. destruct r as [[rv rt]|]; [|apply forget_jdk].
  destruct (negb _); [reflexivity|]. rewrite forget_bind, forget_jdk. apply bind_ext. intros w. destruct (negb w); [reflexivity|]. apply forget_jdk.
Qed.
Lemma forget_items f items : forget (validate_items_told f items) = validate_items items.
Proof.
  induction items as [|[v t] items IH]; [reflexivity|]. cbn [validate_items_told validate_items]. rewrite forget_bind, forget_jdk. apply bind_ext. intros []; [exact IH|reflexivity].
Qed.
Lemma forget_func E f items : forget (func_told E f items) = func_evaluate E f items.
Proof.
  destruct f; cbn [func_told func_evaluate]; try apply forget_jdk. unfold days_elapsed_told. destruct items as [|[v t] [|i items]]; try apply forget_throwing.
  - destruct v; apply forget_throwing.
  - destruct v; apply forget_throwing.
Qed.
Lemma forget_function E f items : forget (evaluate_function_told E f items) = evaluate_function E f items.
Proof.
  unfold evaluate_function_told, evaluate_function. destruct items as [|i items]; [reflexivity|]. cbv zeta. destruct (negb _); [reflexivity|]. destruct (negb _); [reflexivity|].
  rewrite forget_bind, forget_items. apply bind_ext. intros _. apply forget_func.
Qed.
Lemma forget_field f d : forget (field_told f d) = field_value_or_fail f d.
Proof.
  destruct f as [k|]; [|reflexivity]. unfold field_told, field_value_or_fail. cbn [field_value]. rewrite forget_bind, forget_jdk. apply bind_ext. intros []; reflexivity.
Qed.

Definition map_told {A B} (f : A -> told B) : list A -> told (list B) :=
  fix go (l : list A) := match l with [] => Gives [] | a :: l' => b <! f a ;; bs <! go l' ;; Gives (b :: bs) end.
Lemma forget_map {A B} (f : A -> told B) g l : Forall (fun a => forget (f a) = g a) l -> forget (map_told f l) = mapM g l.
Proof.
  induction 1 as [|a l H _ IH]; [reflexivity|]. cbn [map_told mapM]. rewrite forget_bind, H. apply bind_ext. intros b. rewrite forget_bind, IH. apply bind_ext. reflexivity.
Qed.
Lemma told_func E d f items : arith_told E d (NFunc f items) = (vs <! map_told (arith_told E d) items ;; evaluate_function_told E f (map_to_evaluated vs)).
Proof. reflexivity. Qed.
Lemma forget_arith E d n : forget (arith_told E d n) = arith_eval E d n.
Proof.
  induction n as [f|dt v|l r op IHl IHr|f items IH|l r op dt _ _|f a b t1 t2|f items _|f op items _|l r op _ _] using node_ind'; try reflexivity.
  - apply forget_field.
  - cbn [arith_told arith_eval]. rewrite forget_bind, IHl. apply bind_ext. intros lv. destruct op; try (destruct r as [r|]; [|reflexivity]; rewrite forget_bind; cbn in IHr; rewrite IHr; apply bind_ext;
      intros rv; apply forget_arithmetic). destruct r; apply forget_arithmetic.
  - rewrite told_func, arith_func, forget_bind. unfold arith_items. rewrite (forget_map _ _ items IH). apply bind_ext. intros vs. apply forget_function.
Qed.

Definition told_value (E : env) (d : data) (m : node) : told (option jval) :=
  match m with
  | NField f => jdk (field_value f d)
  | NUnary _ v => jdk (optional_of v)
  | NArith _ _ _ | NFunc _ _ => v <! arith_told E d m ;; jdk (optional_of v)
  | _ => Gives None
  end.
Definition told_operand (E : env) (d : data) (m : node) : told (option jval) :=
  if is_arith_base m then told_value E d m else b <! bool_told E d m ;; Gives (Some (VBool b)).
Definition told_item (E : env) (d : data) (i : node) : told jval :=
  if is_arith_base i then arith_told E d i else b <! bool_told E d i ;; Gives (VBool b).
Lemma told_cmp E d l r op dt : bool_told E d (NCmp l r op dt) =
  (lo <! told_operand E d l ;;
   nc <! jdk (is_null_check l r op) ;;
   lv <! (match lo with Some v => Gives v | None => if nc then Gives (VStr (J "null")) else left_name l end) ;;
   rv <! (if nc then Gives (VStr (J "null"))
          else ro <! told_operand E d r ;; match ro with Some v => Gives v | None => Throws NoSuchElement None end) ;;
   evaluate_logical_told op PRIMITIVE lv (get_data_type lv) [(rv, get_data_type rv)]).
Proof. reflexivity. Qed.
Lemma told_in E d f items : bool_told E d (NIn f items) =
  (v <! field_told f d ;; vs <! map_told (told_item E d) items ;; evaluate_logical_told IN_OP PRIMITIVE v (get_data_type v) (map_to_evaluated vs)).
Proof. reflexivity. Qed.
Lemma told_array E d f op items : bool_told E d (NArray f op items) =
  (v <! field_told f d ;; vs <! map_told (told_item E d) items ;;
   if heterogeneous (map_to_evaluated vs) then Throws HeterogeneousArray (Some (J "Heterogeneous input of array not allowed"))
   else evaluate_logical_told op LIST v (get_data_type v) (map_to_evaluated vs)).
Proof. reflexivity. Qed.
Lemma forget_item E d i : forget (bool_told E d i) = bool_eval E d i -> forget (told_item E d i) = item_eval E d i.
Proof.
  intros H. unfold told_item, item_eval. destruct (is_arith_base i); [apply forget_arith|]. rewrite forget_bind, H. apply bind_ext. reflexivity.
Qed.
Lemma forget_operand E d i : forget (bool_told E d i) = bool_eval E d i -> forget (told_operand E d i) = operand_value E d i.
Proof.
  intros H. unfold told_operand, operand_value. destruct (is_arith_base i); [|rewrite forget_bind, H; apply bind_ext; reflexivity].
  destruct i; try reflexivity; cbn [told_value]; try apply forget_jdk; rewrite forget_bind, forget_arith; apply bind_ext; intros v; apply forget_jdk.
Qed.
Lemma absent_field E d l : operand_value E d l = Ok None -> exists k, l = NField (Some k).
Proof.
  unfold operand_value. destruct (is_arith_base l) eqn:B; [|destruct (bool_eval E d l); discriminate]. destruct l as [[k|]|dt v|l r op|f items| | | | |]; try discriminate B.
  - eauto.
  - discriminate.
  - destruct v; discriminate.
  - destruct (arith_eval _ _ _) as [v|]; [|discriminate]. destruct v; discriminate.
  - destruct (arith_eval _ _ _) as [v|]; [|discriminate]. destruct v; discriminate.
Qed.
Lemma forget_bool E d n : forget (bool_told E d n) = bool_eval E d n.
Proof.
  induction n as [f|dt v|l r op IHl IHr|f items IH|l r op dt IHl IHr|f a b t1 t2|f items IH|f op items IH|l r op IHl IHr] using node_ind'; try reflexivity.
  - cbn [bool_told bool_eval]. destruct (dtype_eqb dt BOOLEAN); [destruct v; reflexivity|]. rewrite forget_bind, forget_jdk. apply bind_ext. intros s.
    rewrite forget_bind, forget_field. apply bind_ext. intros []; reflexivity.
  - rewrite told_cmp, cmp_unfold, forget_bind, (forget_operand _ _ _ IHl). destruct (operand_value E d l) as [lo|e] eqn:O; [|reflexivity]. cbn [bind]. rewrite forget_bind, forget_jdk. destruct (is_null_check l r op) as [nc|e] eqn:N; [|reflexivity]. cbn [bind].
    rewrite forget_bind. replace (forget (match lo with Some v => Gives v | None => if nc then Gives (VStr (J "null")) else left_name l end))
      with (match lo with Some v => Ok v | None => if nc then Ok (VStr (J "null")) else Err DataNotFound end).
    + apply bind_ext. intros lv. rewrite forget_bind. replace (forget (if nc then Gives (VStr (J "null")) else ro <! told_operand E d r ;; match ro with Some v => Gives v | None => Throws NoSuchElement None end))
        with (if nc then Ok (VStr (J "null")) else ro <- operand_value E d r ;; match ro with Some v => Ok v | None => Err NoSuchElement end).
      * apply bind_ext. intros rv. apply forget_logical.
      * destruct nc; [reflexivity|]. rewrite forget_bind, (forget_operand _ _ _ IHr). apply bind_ext. intros []; reflexivity.
    + destruct lo; [reflexivity|]. destruct nc; [reflexivity|]. destruct (absent_field E d l O) as [k ->]. reflexivity.
  - cbn [bool_told bool_eval]. rewrite forget_bind, forget_field. apply bind_ext. intros v. rewrite forget_bind, forget_logical. apply bind_ext. intros x.
    rewrite forget_bind, forget_logical. apply bind_ext. reflexivity.
  - rewrite told_in, in_unfold, forget_bind, forget_field. apply bind_ext. intros v. rewrite forget_bind, (forget_map _ (item_eval E d)). { apply bind_ext. intros vs. apply forget_logical. }
    induction IH; constructor; auto using forget_item.
  - rewrite told_array, array_unfold, forget_bind, forget_field. apply bind_ext. intros v. rewrite forget_bind, (forget_map _ (item_eval E d)).
    { apply bind_ext. intros vs. destruct (heterogeneous _); [reflexivity|apply forget_logical]. }
    induction IH; constructor; auto using forget_item.
  - cbn [bool_told bool_eval]. destruct op; rewrite forget_bind, IHl; apply bind_ext; intros []; try reflexivity; destruct r as [r|]; try reflexivity; exact IHr.
Qed.

(** ** What the messages mention *)
Definition foreign : list exn := [NullPointer; ClassCast; NoSuchElement; NumberFormat; ArithmeticExc; EmptyStack; ArrayIndexOutOfBounds].
Lemma foreign_own e : In e foreign -> ~ own e.
Proof. intros F O. cbn in F, O. intuition congruence. Qed.
Notation plain r := (safe foreign r).
Create HintDb plain.
Ltac plainly := repeat first [progress auto with plain | exact Logic.I | match goal with
      | |- safe _ (Ok _) => exact Logic.I
      | |- safe _ (Err _) => cbn; tauto
      | |- safe _ (bind _ _) => apply safe_bind; [|intro]
      | |- safe _ (mapM _ _) => apply safe_mapM; intro
      | |- safe _ (anyM _ _) => apply safe_anyM; intro
      | |- safe _ (allM _ _) => apply safe_allM; intro
      | |- safe _ (match ?x with _ => _ end) => destruct x
      | |- safe _ (if ?x then _ else _) => destruct x
      end ].
Lemma p_to_string v : plain (to_string v). Proof. unfold to_string. plainly. Qed.
#[local] Hint Resolve p_to_string : plain.
Lemma p_get_value t v : plain (get_value t v). Proof. unfold get_value, get_string, get_boolean, get_date, get_datetime. destruct t; plainly. Qed.
#[local] Hint Resolve p_get_value : plain.
Lemma p_is_valid t v : plain (is_valid t v). Proof. unfold is_valid. destruct t; plainly. Qed.
#[local] Hint Resolve p_is_valid : plain.
Lemma p_container c t v : plain (container_is_valid c t v). Proof. unfold container_is_valid. plainly. Qed.
Lemma p_compare a b : plain (compare_to a b). Proof. unfold compare_to. plainly. Qed.
Lemma p_first rs : plain (first_operand rs). Proof. unfold first_operand. plainly. Qed.
Lemma p_opt A (o : option A) : plain (opt_get o). Proof. unfold opt_get. plainly. Qed.
Lemma p_divide a b s m : plain (bd_divide a b s m). Proof. unfold bd_divide. plainly. Qed.
#[local] Hint Resolve p_container p_compare p_first p_opt p_divide : plain.
Lemma p_cast b : plain (cast_decimal b). Proof. unfold cast_decimal, int_value_exact. plainly. Qed.
Lemma p_double b : plain (bd_of_double b).
Proof. destruct b as [| |m e]; cbn; try tauto. destruct m as [|p|p]; cbn; auto; destruct (odd_part p e); exact Logic.I. Qed.
#[local] Hint Resolve p_cast p_double : plain.
Lemma p_cast_double b : plain (cast_double b). Proof. unfold cast_double. plainly. Qed.
Lemma p_reduce A (f : A -> A -> A) l : plain (reduce1 f l). Proof. unfold reduce1. plainly. Qed.
Lemma p_list_get A (l : list A) i : plain (list_get l i). Proof. unfold list_get. plainly. Qed.
Lemma p_optional v : plain (optional_of v). Proof. unfold optional_of. plainly. Qed.
#[local] Hint Resolve p_cast_double p_reduce p_list_get p_optional : plain.
Lemma p_unary l lt : plain (eval_unary l lt). Proof. unfold eval_unary. destruct lt; plainly. Qed.
#[local] Hint Resolve p_unary : plain.
Lemma p_func E f items : f <> F_DAYS_ELAPSED -> plain (func_evaluate E f items).
Proof.
  intros N. unfold func_evaluate. destruct f; try congruence;
    unfold eval_min, eval_max, eval_sum, eval_avg, eval_median, eval_mode, eval_int, eval_len, decimals, longs, ints, cast_long_as_double; plainly.
Qed.
Lemma p_path : forall ks d, plain (get_path ks d).
Proof.
  induction ks as [|k ks IH]; intros d; [cbn; tauto|]. destruct ks as [|k' ks]; [exact Logic.I|].
  change (get_path (k :: k' :: ks) d) with (match map_get k d with Some (VMap es) => get_path (k' :: ks) es | _ => Ok None end).
  destruct (map_get k d) as [[]|]; try exact Logic.I. apply IH.
Qed.
Lemma p_map k d : plain (get_value_from_map k d). Proof. apply p_path. Qed.
#[local] Hint Resolve p_map : plain.
Lemma p_field f d : plain (field_value f d). Proof. unfold field_value. plainly. Qed.
Lemma p_null_check l r op : plain (is_null_check l r op). Proof. unfold is_null_check, node_is_null_field, field_is_null. destruct op; plainly. Qed.
#[local] Hint Resolve p_field p_null_check : plain.

Section spoken.
  Variables (d : data) (ks : list jstr) (ops : list operator) (fs : list func).
  Definition spoken {A} (x : told A) : Prop := match x with Gives _ => True | Throws e None => ~ own e | Throws e (Some s) => remark d ks ops fs e s end.
  Lemma spoken_bind {A B} (x : told A) (k : A -> told B) : spoken x -> (forall a, x = Gives a -> spoken (k a)) -> spoken (tbind x k).
  Proof. destruct x as [a|e m]; cbn; auto. Qed.
  Lemma spoken_jdk {A} (r : res A) : plain r -> spoken (jdk r).
  Proof. destruct r as [a|e]; cbn; auto. apply foreign_own. Qed.
  Lemma spoken_throwing {A} e m (r : res A) : exn_eqb e e = true -> safe (e :: foreign) r -> (r = Err e -> remark d ks ops fs e m) -> spoken (throwing e m r).
  Proof.
    intros S P R. destruct r as [a|e']; cbn [throwing spoken]; [exact Logic.I|]. cbn [safe] in P.
    destruct (exn_eqb e e') eqn:X.
    - assert (e = e') as <- by (destruct e, e'; try discriminate X; reflexivity). apply R. reflexivity.
    - destruct P as [<- | P]; [congruence|]. apply foreign_own, P.
  Qed.
  Lemma spoken_any {A} (f : A -> told bool) l : (forall a, spoken (f a)) -> spoken (any_told f l).
  Proof. intros H. induction l as [|a l IH]; [exact Logic.I|]. apply spoken_bind; [apply H|]. intros [] _; [exact Logic.I|exact IH]. Qed.
  Lemma spoken_all {A} (f : A -> told bool) l : (forall a, spoken (f a)) -> spoken (all_told f l).
  Proof. intros H. induction l as [|a l IH]; [exact Logic.I|]. apply spoken_bind; [apply H|]. intros [] _; [exact IH|exact Logic.I]. Qed.
  Lemma spoken_map {A B} (f : A -> told B) l : Forall (fun a => spoken (f a)) l -> spoken (map_told f l).
  Proof.
    induction 1 as [|a l H _ IH]; [exact Logic.I|]. cbn [map_told]. apply spoken_bind; [exact H|]. intros b _. apply spoken_bind; [exact IH|]. intros bs _. exact Logic.I.
  Qed.

  Lemma spoken_primitive t v : spoken (primitive_told t v).
  Proof.
    apply spoken_throwing; [reflexivity| |].
    - unfold primitive_value. apply safe_bind; [apply (safe_more _ foreign); [intros x I; right; exact I|apply p_get_value]|]. intros [x|]; cbn; tauto.
    - intros P. apply says_value. unfold primitive_value in P. destruct (get_value t v) as [[x|]|e] eqn:G; cbn in P; try discriminate P.
      + unfold is_valid. destruct t; try (rewrite G; reflexivity). unfold get_value, get_string in G. destruct (to_string v); discriminate G.
      + pose proof (p_get_value t v) as S. rewrite G in S. cbn in S. exfalso. intuition congruence.
  Qed.
  Lemma spoken_compare t l r : spoken (compare_told t l r).
  Proof. unfold compare_told. apply spoken_bind; [apply spoken_primitive|]. intros x _. apply spoken_bind; [apply spoken_primitive|]. intros y _. apply spoken_jdk, p_compare. Qed.
  Lemma spoken_equals l lt r : spoken (equals_told l lt r).
  Proof. apply spoken_bind; [apply spoken_compare|]. intros; exact Logic.I. Qed.
  Lemma spoken_validate l lt r rt : spoken (validate_told l lt r rt).
  Proof.
    apply spoken_throwing; [reflexivity| |].
    - assert (V : forall t v, safe (InvalidDataType :: foreign) (is_valid t v)) by (intros t v; apply (safe_more _ foreign); [intros x I; right; exact I|apply p_is_valid]).
      unfold ordering_validate. destruct (numeric lt), (numeric rt); cbn [negb andb bind]; try exact Logic.I;
        apply safe_bind; try apply safe_bind; auto; try (intros []; cbn; tauto); try (intros; exact Logic.I).
    - intros R. apply says_incompatible. intros N. unfold ordering_validate in R. rewrite N in R. destruct (numeric rt); discriminate R.
  Qed.
  Lemma spoken_ordering t l lt r : spoken (ordering_told t l lt r).
  Proof. apply spoken_bind; [apply spoken_validate|]. intros _ _. apply spoken_bind; [apply spoken_compare|]. intros; exact Logic.I. Qed.
  Lemma spoken_logical_inner op l lt rs : spoken (logical_told op l lt rs).
  Proof.
    destruct op; cbn [logical_told]; try (apply foreign_own; cbn; tauto); try (apply spoken_any; intros; apply spoken_equals);
      try (apply spoken_bind; [apply spoken_jdk, p_first|]; intros r _; auto using spoken_equals, spoken_ordering).
    - apply spoken_bind; [apply spoken_compare|]. intros; exact Logic.I.
    - apply spoken_bind; [apply spoken_jdk, p_container|]. intros [] _; [|exact Logic.I]. destruct l as [| | | | | | | | | |[] items| | |]; try (apply foreign_own; cbn; tauto).
      apply spoken_all. intros r. apply spoken_any. intros; apply spoken_equals.
    - apply spoken_bind; [apply spoken_jdk, p_container|]. intros [] _; [|exact Logic.I]. destruct l as [| | | | | | | | | |[] items| | |]; try (apply foreign_own; cbn; tauto).
      apply spoken_any. intros r. apply spoken_any. intros; apply spoken_equals.
  Qed.
  Lemma refuses_logical op t : mem_type t (logical_types op) = false -> refuses op t.
  Proof. intros M. left. unfold orders. destruct op, t; try discriminate M; split; cbn; auto. Qed.
  Lemma spoken_logical op c l lt rs : In op ops -> spoken (evaluate_logical_told op c l lt rs).
  Proof.
    intros I. unfold evaluate_logical_told. destruct (is_logical op); [|apply foreign_own; cbn; tauto]. cbn [negb].
    destruct (container_eqb (logical_container op) c) eqn:C; cbn [negb]; [|apply says_container; [exact I|]; intros E; rewrite E in C; destruct c; discriminate C].
    destruct (mem_type lt (logical_types op)) eqn:M; cbn [negb]; [|apply says_left; [exact I|]; apply refuses_logical, M].
    apply spoken_bind; [apply spoken_jdk, p_container|]. intros [] _; cbn [negb]; [|apply says_operand, I].
    apply spoken_bind; [|intros; apply spoken_logical_inner]. destruct (right_types_cases op rs) as [[-> _]|(t & -> & T & _)]; [exact Logic.I|].
    apply says_right; [exact I|]. apply refuses_logical, T.
  Qed.
  Lemma refuses_arithmetic op types t : arithmetic_types op = Some types -> mem_type t types = false -> refuses op t.
  Proof.
    intros T M. right. split; [unfold arithmetic; destruct op; try discriminate T; cbn; tauto|]. intros S. apply (supported_mem _ _ _ T) in S. congruence.
  Qed.
  Lemma spoken_arithmetic E op l lt r : In op ops -> spoken (evaluate_arithmetic_told E op l lt r).
  Proof.
    intros I. unfold evaluate_arithmetic_told. destruct (arithmetic_types op) as [types|] eqn:T; [|apply foreign_own; cbn; tauto].
    destruct (mem_type lt types) eqn:M; cbn [negb]; [|apply says_left; [exact I|]; eapply refuses_arithmetic; eauto].
    apply spoken_bind; [apply spoken_jdk, p_is_valid|]. intros [] _; cbn [negb]; [|apply says_operand, I]. destruct r as [[rv rt]|]; [|apply spoken_jdk, p_unary].
    destruct (mem_type rt types) eqn:R; cbn [negb]; [|apply says_left; [exact I|]; eapply refuses_arithmetic; eauto].
    apply spoken_bind; [apply spoken_jdk; destruct rv; try apply p_is_valid; exact Logic.I|]. intros [] _; cbn [negb]; [|apply says_operand, I].
    apply spoken_jdk. destruct op; unfold eval_add, eval_subtract, eval_multiply, eval_divide, eval_modulus, eval_exponent; plainly.
  Qed.
  Lemma spoken_items f items : In f fs -> spoken (validate_items_told f items).
  Proof.
    intros I. induction items as [|[v t] items IH]; [exact Logic.I|]. cbn [validate_items_told]. apply spoken_bind; [apply spoken_jdk, p_is_valid|].
    intros [] V; [exact IH|]. apply (says_function_operand d ks ops fs f v t I). destruct (is_valid t v); inversion V; reflexivity.
  Qed.
  Lemma days_argument i items : forallb (fun i : evaluated => mem_type (snd i) (func_types F_DAYS_ELAPSED)) (i :: items) = true -> snd i = DATE.
  Proof. cbn [forallb]. intros H. apply andb_true_iff in H as [H _]. destruct (snd i); try discriminate H. reflexivity. Qed.
  Lemma some_unsupported f items : forallb (fun i : evaluated => mem_type (snd i) (func_types f)) items = false -> exists t, ~ func_supported f t.
  Proof.
    induction items as [|[v t] items IH]; [discriminate|]. cbn [forallb snd]. destruct (mem_type t (func_types f)) eqn:M; [exact IH|]. intros _. exists t.
    intros S. apply func_supported_mem in S. congruence.
  Qed.
  Lemma spoken_function E f ms : In f fs -> spoken (evaluate_function_told E f (typed ms)).
  Proof.
    intros I. unfold evaluate_function_told. destruct ms as [|m ms]; [apply says_empty; intros ->; exact I|]. change (typed (m :: ms)) with ((m, get_data_type m) :: typed ms). cbv zeta iota beta.
    destruct (existsb _ (func_containers f)) eqn:C; cbn [negb].
    2:{ cbn [length] in C. destruct ms as [|m' ms].
        - cbn in C |- *. apply says_function_single; [exact I|]. intros K. apply (takes_container f 1 ltac:(lia)) in K. cbn in K. congruence.
        - cbn in C |- *. apply says_function_list; [exact I|]. intros K. apply (takes_container f 2 ltac:(lia)) in K. cbn in K. congruence. }
    destruct (forallb _ _) eqn:F; cbn [negb].
    2:{ apply says_function_type; [exact I|]. apply (some_unsupported f _ F). }
    apply spoken_bind; [apply spoken_items, I|]. intros _ _. destruct f; try (apply spoken_jdk, p_func; discriminate).
    cbn in C. destruct ms as [|m' ms]; [|discriminate C]. pose proof (days_argument _ _ F) as D. cbn [snd] in D. cbn [func_told].
    destruct m; try discriminate D; cbn [days_elapsed_told eval_days_elapsed typed map throwing spoken]; try exact Logic.I.
    destruct (parse_iso_date s) eqn:P; [exact Logic.I|]. apply says_date; assumption.
  Qed.
End spoken.
Lemma remark_more d ks ops fs ks' ops' fs' e s : incl ks ks' -> incl ops ops' -> incl fs fs' -> remark d ks ops fs e s -> remark d ks' ops' fs' e s.
Proof.
  intros K O F R. destruct R as [k I A|op t I R|op t I R|op s I|a b N|v t V|op c I N|N|f I N|f I N|f I N|f v t I V|s I T P|op I|k v I V N|n B].
  - apply says_key; auto.
  - apply says_left; auto.
  - apply says_right; auto.
  - apply says_operand; auto.
  - apply says_incompatible; auto.
  - apply says_value; auto.
  - apply says_container; auto.
  - apply says_empty. destruct fs as [|f fs]; [congruence|]. intros ->. exact (F f (or_introl eq_refl)).
  - apply says_function_single; auto.
  - apply says_function_list; auto.
  - apply says_function_type; auto.
  - apply (says_function_operand _ _ _ _ f v t); auto.
  - apply says_date; auto.
  - apply (says_array _ _ _ _ op); auto.
  - apply (says_unary _ _ _ _ k v); auto.
  - apply says_token; auto.
Qed.
Lemma spoken_more d ks ops fs ks' ops' fs' {A} (x : told A) : incl ks ks' -> incl ops ops' -> incl fs fs' -> spoken d ks ops fs x -> spoken d ks' ops' fs' x.
Proof. intros K O F. destruct x as [a|e [s|]]; cbn; auto. apply remark_more; auto. Qed.
Lemma spoken_field d k ks ops fs : In k ks -> spoken d ks ops fs (field_told (Some k) d).
Proof.
  intros I. cbn [field_told]. apply spoken_bind; [apply spoken_jdk, p_map|]. intros [v|] G; [exact Logic.I|]. apply says_key; [exact I|]. intros E.
  cbn. unfold field_value_or_fail. cbn [field_value]. destruct (get_value_from_map k d); inversion G. reflexivity.
Qed.
Lemma spoken_option_field d f ks ops fs : incl (opt_field f) ks -> spoken d ks ops fs (field_told f d).
Proof. intros I. destruct f as [k|]; [apply spoken_field, I; left; reflexivity|]. apply foreign_own. cbn. tauto. Qed.

Definition arith_spoken E d n := spoken d (arith_fields n) (operators n) (calls n) (arith_told E d n).
Lemma flat_map_incl {A B} (f : A -> list B) a l : In a l -> incl (f a) (flat_map f l).
Proof. intros I x X. apply in_flat_map. eauto. Qed.
Ltac included := first [assumption | apply incl_refl | apply incl_appl; included | apply incl_appr; included | apply incl_tl; included].
Ltac more H := apply (spoken_more _ _ _ _ _ _ _ _ ltac:(included) ltac:(included) ltac:(included) H).
Lemma arith_spoken_all E d n : arith_spoken E d n.
Proof.
  unfold arith_spoken. induction n as [f|dt v|l r op IHl IHr|f items IH|l r op dt _ _|f a b t1 t2|f items _|f op items _|l r op _ _] using node_ind';
    try match goal with |- spoken _ _ _ _ (arith_told E d ?n) => exact (says_token d (arith_fields n) (operators n) (calls n) n eq_refl) end.
  - apply spoken_option_field, incl_refl.
  - exact Logic.I.
  - cbn [arith_told arith_fields operators calls]. apply spoken_bind; [eapply spoken_more; [| | |exact IHl]; included|]. intros lv _.
    assert (Hop : forall r, spoken d (arith_fields l ++ match op, r with UNARY, _ => [] | _, Some r' => arith_fields r' | _, None => [] end)
      (op :: operators l ++ match r with Some m => operators m | None => [] end) (calls l ++ match r with Some m => calls m | None => [] end)
      (evaluate_arithmetic_told E op lv (get_data_type lv) None)) by (intros; apply spoken_arithmetic; left; reflexivity).
    destruct r as [r|].
    + cbn in IHr. destruct op; try (apply spoken_bind; [eapply spoken_more; [| | |exact IHr]; included|]; intros rv _; apply spoken_arithmetic; left; reflexivity). apply (Hop (Some r)).
    + destruct op; try (apply foreign_own; cbn; tauto). apply (Hop None).
  - rewrite told_func. cbn [arith_fields operators calls]. apply spoken_bind.
    + apply spoken_map. rewrite Forall_forall in *. intros i I. eapply spoken_more; [| | |apply (IH i I)]; try apply incl_tl; apply flat_map_incl; exact I.
    + intros vs _. apply (spoken_function d _ _ _ E f (flat_map flatten_one vs)). left; reflexivity.
Qed.

Definition bool_spoken E d n := spoken d (bool_fields n) (operators n) (calls n) (bool_told E d n).
Lemma operand_spoken E d n : bool_spoken E d n -> spoken d (operand_fields n) (operators n) (calls n) (told_operand E d n).
Proof.
  intros H. unfold told_operand, operand_fields. destruct (is_arith_base n) eqn:B; [|apply spoken_bind; [exact H|]; intros; exact Logic.I].
  pose proof (arith_spoken_all E d n) as S. unfold arith_spoken in S. destruct n; try discriminate B; cbn [told_value]; try (apply spoken_jdk; auto with plain);
    apply spoken_bind; try exact S; intros v _; apply spoken_jdk, p_optional.
Qed.
Lemma item_spoken E d n : bool_spoken E d n -> spoken d (operand_fields n) (operators n) (calls n) (told_item E d n).
Proof.
  intros H. unfold told_item, operand_fields. destruct (is_arith_base n) eqn:B; [apply arith_spoken_all|]. apply spoken_bind; [exact H|]. intros; exact Logic.I.
Qed.
Lemma items_spoken E d items ks ops fs : Forall (bool_spoken E d) items -> incl (flat_map operand_fields items) ks -> incl (flat_map operators items) ops -> incl (flat_map calls items) fs ->
  spoken d ks ops fs (map_told (told_item E d) items).
Proof.
  intros H K O F. apply spoken_map. rewrite Forall_forall in *. intros i I. eapply spoken_more; [| | |apply item_spoken, (H i I)].
  - intros x X. apply K. apply in_flat_map. eauto.
  - intros x X. apply O. apply in_flat_map. eauto.
  - intros x X. apply F. apply in_flat_map. eauto.
Qed.
Lemma bool_spoken_all E d n : bool_spoken E d n.
Proof.
  induction n as [f|dt v|l r op IHl IHr|f items IH|l r op dt IHl IHr|f a b t1 t2|f items IH|f op items IH|l r op IHl IHr] using node_ind'; unfold bool_spoken; try exact Logic.I.
  - cbn [bool_told bool_fields operators calls]. destruct (dtype_eqb dt BOOLEAN); [destruct v; try exact Logic.I; apply foreign_own; cbn; tauto|].
    apply spoken_bind; [apply spoken_jdk, p_to_string|]. intros s S. assert (s = show v) as -> by (destruct v; inversion S; reflexivity).
    apply spoken_bind; [apply spoken_field; left; reflexivity|]. intros x X. assert (V : forall E', arith_eval E' d (NField (Some (show v))) = Ok x).
    { intros E'. rewrite <- forget_arith. cbn [arith_told]. rewrite X. reflexivity. }
    destruct x; try exact Logic.I; (eapply says_unary; [left; reflexivity|exact V|discriminate]).
  - rewrite told_cmp. change (bool_fields (NCmp l r op dt)) with (operand_fields l ++ operand_fields r). cbn [operators calls].
    apply spoken_bind; [eapply spoken_more; [| | |apply operand_spoken, IHl]; included|]. intros lo O.
    apply spoken_bind; [apply spoken_jdk, p_null_check|]. intros nc _. apply spoken_bind.
    + destruct lo as [v|]; [exact Logic.I|]. destruct nc; [exact Logic.I|].
      assert (O' : operand_value E d l = Ok None) by (rewrite <- forget_operand by apply forget_bool; rewrite O; reflexivity). destruct (absent_field E d l O') as [k ->].
      apply says_key; [left; reflexivity|]. intros E'. cbn. unfold field_value_or_fail. unfold operand_value in O'. cbn in O' |- *. rewrite O'. reflexivity.
    + intros lv _. apply spoken_bind.
      * destruct nc; [exact Logic.I|]. apply spoken_bind; [eapply spoken_more; [| | |apply operand_spoken, IHr]; included|]. intros [v|] _; [exact Logic.I|]. apply foreign_own. cbn. tauto.
      * intros rv _. apply spoken_logical. left; reflexivity.
  - cbn [bool_told bool_fields operators calls]. apply spoken_bind; [apply spoken_option_field, incl_refl|]. intros v _. apply spoken_bind; [apply spoken_logical; cbn; tauto|]. intros x _.
    apply spoken_bind; [apply spoken_logical; cbn; tauto|]. intros; exact Logic.I.
  - rewrite told_in. change (bool_fields (NIn f items)) with (opt_field f ++ flat_map operand_fields items). cbn [operators calls].
    apply spoken_bind; [apply spoken_option_field; included|]. intros v _. apply spoken_bind; [apply items_spoken; [exact IH|..]; included|]. intros vs _.
    apply spoken_logical. left; reflexivity.
  - rewrite told_array. change (bool_fields (NArray f op items)) with (opt_field f ++ flat_map operand_fields items). cbn [operators calls].
    apply spoken_bind; [apply spoken_option_field; included|]. intros v _. apply spoken_bind; [apply items_spoken; [exact IH|..]; included|]. intros vs _.
    destruct (heterogeneous _); [apply (says_array _ _ _ _ op); left; reflexivity|]. apply spoken_logical. left; reflexivity.
  - cbn [bool_told bool_fields operators calls].
    destruct op; (apply spoken_bind; [eapply spoken_more; [| | |exact IHl]; included|]; intros [] _; try exact Logic.I);
      (destruct r as [r|]; [eapply spoken_more; [| | |exact IHr]; included|apply foreign_own; cbn; tauto]).
Qed.

(** ** The name in the message is the last one looked up *)
Section last_name.
  Variables (E : env) (d : data).
  Let w : world := fun _ => (today E, d).
  Definition ends {A} (x : told A) (m : act A) : Prop :=
    forall k, forget x = fst (m k) /\ forall s, x = Throws DataNotFound (Some s) -> exists tr key, snd (m k) = tr ++ [Field key] /\ s = J "Data not found for the key " ++ key.
  Lemma ends_bind {A B} (x : told A) (m : act A) (f : A -> told B) (g : A -> act B) : ends x m -> (forall a, x = Gives a -> ends (f a) (g a)) -> ends (tbind x f) (andthen m g).
  Proof.
    intros X F k. rewrite andthen_eq. destruct (X k) as [R T]. destruct x as [a|e s]; cbn [forget tbind] in *; rewrite <- R; cbn [fst snd].
    - destruct (F a eq_refl (k + length (snd (m k)))) as [R' T']. split; [exact R'|]. intros s' S. destruct (T' s' S) as (tr & key & -> & ->).
      exists (snd (m k) ++ tr), key. rewrite app_assoc. auto.
    - split; [reflexivity|]. intros s' S. rewrite app_nil_r. apply T. congruence.
  Qed.
  Lemma ends_quiet {A} ops fs (x : told A) r : spoken d [] ops fs x -> forget x = r -> ends x (pure r).
  Proof.
    intros S F k. split; [exact F|]. intros s ->. cbn [spoken] in S. exfalso. inversion S as [key I _| | | | | | | | | | | | | | |]. destruct I.
  Qed.
  Lemma ends_jdk {A} (r : res A) : plain r -> ends (jdk r) (pure r).
  Proof. intros P. apply (ends_quiet [] []); [apply spoken_jdk, P|apply forget_jdk]. Qed.
  Lemma ends_gives {A} (a : A) : ends (Gives a) (pure (Ok a)).
  Proof. intros k. split; [reflexivity|discriminate]. Qed.
  Lemma ends_throws {A} e (m : option jstr) : e <> DataNotFound -> ends (Throws e m) (pure (Err e : res A)).
  Proof. intros N k. split; [reflexivity|congruence]. Qed.
  Lemma ends_lookup f : ends (jdk (field_value f d)) (field_act w f).
  Proof.
    destruct f as [s|]; [|apply ends_throws; discriminate]. intros k. cbn. split; [apply forget_jdk|]. intros m M. exfalso.
    destruct (get_value_from_map s d) as [o|e]; discriminate M.
  Qed.
  Lemma ends_field f : ends (field_told f d) (field_or_fail_act w f).
  Proof.
    destruct f as [s|]; [|intros k; split; [reflexivity|discriminate]]. intros k. unfold field_or_fail_act. rewrite andthen_eq. cbn [field_act field_told fst snd].
    replace (snd (w k)) with d by reflexivity. destruct (get_value_from_map s d) as [[v|]|e]; cbn.
    - split; [reflexivity|discriminate].
    - split; [reflexivity|]. intros m M. exists [], s. split; [reflexivity|]. inversion M. reflexivity.
    - split; [reflexivity|]. intros m M. discriminate M.
  Qed.
  Lemma ends_function f items : ends (evaluate_function_told E f (map_to_evaluated items)) (function_act E w f (map_to_evaluated items)).
  Proof.
    assert (Q : forall f, ends (evaluate_function_told E f (map_to_evaluated items)) (pure (evaluate_function E f (map_to_evaluated items)))).
    { intros g. apply (ends_quiet [] [g]); [|apply forget_function]. apply (spoken_function d [] [] [g] E g (flat_map flatten_one items)). left; reflexivity. }
    destruct f; try apply Q. intros k. destruct (Q F_DAYS_ELAPSED k) as [R T]. cbn [function_act fst snd w]. replace (on_date E (today E)) with E by (destruct E; reflexivity).
    split; [exact R|]. intros s S. destruct (T s S) as (tr & key & X & _). destruct tr; discriminate X.
  Qed.
  Lemma ends_map {A B} (f : A -> told B) (g : A -> act B) l : Forall (fun a => ends (f a) (g a)) l ->
    ends (map_told f l) ((fix go (l : list A) : act (list B) := match l with [] => pure (Ok []) | i :: l' => v <~ g i ;; vs <~ go l' ;; pure (Ok (v :: vs)) end) l).
  Proof.
    induction 1 as [|a l H _ IH]; [apply ends_gives|]. cbn [map_told]. apply ends_bind; [exact H|]. intros b _. apply ends_bind; [exact IH|]. intros bs _. apply ends_gives.
  Qed.
  Lemma ends_arith n : ends (arith_told E d n) (arith_act E w n).
  Proof.
    induction n as [f|dt v|l r op IHl IHr|f items IH|l r op dt _ _|f a b t1 t2|f items _|f op items _|l r op _ _] using node_ind';
      try (apply ends_throws; discriminate).
    - apply ends_field.
    - apply ends_gives.
    - cbn [arith_told arith_act]. apply ends_bind; [exact IHl|]. intros lv _.
      assert (Q : forall r, ends (evaluate_arithmetic_told E op lv (get_data_type lv) r) (pure (evaluate_arithmetic E op lv (get_data_type lv) r))).
      { intros r'. apply (ends_quiet [op] []); [apply spoken_arithmetic; left; reflexivity|apply forget_arithmetic]. }
      destruct r as [r|].
      + cbn in IHr. destruct op; try (apply ends_bind; [exact IHr|]; intros rv _; apply Q). apply Q.
      + destruct op; try (apply ends_throws; discriminate). apply Q.
    - rewrite told_func. cbn [arith_act]. apply ends_bind; [apply ends_map, IH|]. intros vs _. apply ends_function.
  Qed.
  Definition act_value (m : node) : act (option jval) :=
    match m with
    | NField f => field_act w f
    | NUnary _ v => pure (optional_of v)
    | NArith _ _ _ | NFunc _ _ => v <~ arith_act E w m ;; pure (optional_of v)
    | _ => pure (Ok None)
    end.
  Definition act_operand (m : node) : act (option jval) := if is_arith_base m then act_value m else b <~ bool_act E w m ;; pure (Ok (Some (VBool b))).
  Definition act_item (i : node) : act jval := if is_arith_base i then arith_act E w i else b <~ bool_act E w i ;; pure (Ok (VBool b)).
  Lemma ends_operand n : ends (bool_told E d n) (bool_act E w n) -> ends (told_operand E d n) (act_operand n).
  Proof.
    intros H. unfold told_operand, act_operand. destruct (is_arith_base n) eqn:B; [|apply ends_bind; [exact H|]; intros; apply ends_gives].
    pose proof (ends_arith n) as S. destruct n; try discriminate B; cbn [told_value act_value]; try apply ends_lookup; try (apply ends_jdk, p_optional);
      apply ends_bind; try exact S; intros v _; apply ends_jdk, p_optional.
  Qed.
  Lemma ends_item n : ends (bool_told E d n) (bool_act E w n) -> ends (told_item E d n) (act_item n).
  Proof. intros H. unfold told_item, act_item. destruct (is_arith_base n) eqn:B; [apply ends_arith|]. apply ends_bind; [exact H|]. intros; apply ends_gives. Qed.
  Lemma ends_logical op c l lt rs : ends (evaluate_logical_told op c l lt rs) (pure (evaluate_logical op c l lt rs)).
  Proof. apply (ends_quiet [op] []); [apply spoken_logical; left; reflexivity|apply forget_logical]. Qed.
  Lemma ends_items items : Forall (fun n => ends (bool_told E d n) (bool_act E w n)) items -> ends (map_told (told_item E d) items)
    ((fix go (l : list node) : act (list jval) := match l with [] => pure (Ok []) | i :: l' => v <~ act_item i ;; vs <~ go l' ;; pure (Ok (v :: vs)) end) items).
  Proof. intros H. apply ends_map. induction H; constructor; auto using ends_item. Qed.
  Lemma ends_bool n : ends (bool_told E d n) (bool_act E w n).
  Proof.
    induction n as [f|dt v|l r op IHl IHr|f items IH|l r op dt IHl IHr|f a b t1 t2|f items IH|f op items IH|l r op IHl IHr] using node_ind'; try apply ends_gives.
    - cbn [bool_told bool_act]. destruct (dtype_eqb dt BOOLEAN); [destruct v; try apply ends_gives; apply ends_throws; discriminate|].
      apply ends_bind; [apply ends_jdk, p_to_string|]. intros s _. apply ends_bind; [apply ends_field|]. intros x _. destruct x; try apply ends_gives; apply ends_throws; discriminate.
    - rewrite told_cmp. change (bool_act E w (NCmp l r op dt)) with
        (lo <~ act_operand l ;; nc <~ pure (is_null_check l r op) ;;
         lv <~ pure (match lo with Some v => Ok v | None => if nc then Ok (VStr (J "null")) else Err DataNotFound end) ;;
         rv <~ (if nc then pure (Ok (VStr (J "null"))) else ro <~ act_operand r ;; pure (match ro with Some v => Ok v | None => Err NoSuchElement end)) ;;
         pure (evaluate_logical op PRIMITIVE lv (get_data_type lv) [(rv, get_data_type rv)])).
      assert (Rest : forall nc lv, ends
        (rv <! (if nc : bool then Gives (VStr (J "null")) else ro <! told_operand E d r ;; match ro with Some v => Gives v | None => Throws NoSuchElement None end) ;;
         evaluate_logical_told op PRIMITIVE lv (get_data_type lv) [(rv, get_data_type rv)])
        (rv <~ (if nc then pure (Ok (VStr (J "null"))) else ro <~ act_operand r ;; pure (match ro with Some v => Ok v | None => Err NoSuchElement end)) ;;
         pure (evaluate_logical op PRIMITIVE lv (get_data_type lv) [(rv, get_data_type rv)]))).
      { intros nc lv. apply ends_bind; [|intros rv _; apply ends_logical]. destruct nc; [apply ends_gives|]. apply ends_bind; [apply ends_operand, IHr|].
        intros [v|] _; [apply ends_gives|apply ends_throws; discriminate]. }
      destruct (operand_value E d l) as [[v|]|e] eqn:O.
      + apply ends_bind; [apply ends_operand, IHl|]. intros lo L. assert (lo = Some v) as -> by (rewrite <- forget_operand in O by apply forget_bool; rewrite L in O; cbn in O; congruence).
        apply ends_bind; [apply ends_jdk, p_null_check|]. intros nc _. apply ends_bind; [apply ends_gives|]. intros lv _. apply Rest.
      + destruct (absent_field E d l O) as [s ->]. unfold operand_value in O. cbn [is_arith_base field_value] in O.
        destruct (is_null_check (NField (Some s)) r op) as [[]|e] eqn:N.
        * apply ends_bind; [apply ends_lookup|]. intros lo L. cbn in L. rewrite O in L. injection L as <-. apply ends_bind; [apply ends_jdk; exact Logic.I|].
          intros nc C. injection C as <-. apply ends_bind; [apply ends_gives|]. intros lv _. apply (Rest true lv).
        * intros k. unfold told_operand, act_operand. cbn [is_arith_base told_value act_value field_value]. rewrite O. cbn [jdk tbind left_name not_found].
          rewrite andthen_eq. cbn [field_act fst snd w]. rewrite O. cbn. split; [reflexivity|]. intros m M. exists [], s. split; [reflexivity|]. inversion M. reflexivity.
        * apply ends_bind; [apply ends_lookup|]. intros lo _. pose proof (p_null_check (NField (Some s)) r op) as P. rewrite N in P. cbn in P.
          intros k. rewrite andthen_eq. cbn. split; [reflexivity|]. intros m M. congruence.
      + intros k. destruct (ends_operand l IHl k) as [R T]. rewrite andthen_eq. rewrite <- forget_operand in O by apply forget_bool. rewrite <- R, O. cbn [fst snd].
        destruct (told_operand E d l) as [a|e' m]; [discriminate O|]. cbn [forget] in O. injection O as ->. cbn [tbind forget]. split; [reflexivity|]. rewrite app_nil_r. intros s S. apply T. congruence.
    - cbn [bool_told bool_act]. apply ends_bind; [apply ends_field|]. intros v _. apply (ends_quiet [GREATER_THAN_EQUAL; LESS_THAN_EQUAL] []).
      + apply spoken_bind; [apply spoken_logical; cbn; tauto|]. intros x _. apply spoken_bind; [apply spoken_logical; cbn; tauto|]. intros; exact Logic.I.
      + rewrite forget_bind, forget_logical. apply bind_ext. intros x. rewrite forget_bind, forget_logical. reflexivity.
    - rewrite told_in. cbn [bool_act]. apply ends_bind; [apply ends_field|]. intros v _. apply ends_bind; [apply (ends_items items IH)|]. intros vs _. apply ends_logical.
    - rewrite told_array. cbn [bool_act]. apply ends_bind; [apply ends_field|]. intros v _. apply ends_bind; [apply (ends_items items IH)|]. intros vs _.
      cbv zeta. fold (heterogeneous (map_to_evaluated vs)). destruct (heterogeneous _); [apply ends_throws; discriminate|apply ends_logical].
    - cbn [bool_told bool_act]. destruct op; (apply ends_bind; [exact IHl|]; intros [] _; try apply ends_gives); (destruct r as [r|]; [exact IHr|apply ends_throws; discriminate]).
  Qed.
End last_name.

(** ** Comparisons *)
Lemma gives_forget {A} (x : told A) a : forget x = Ok a -> x = Gives a.
Proof. destruct x; cbn; congruence. Qed.
Lemma told_yields E d l r op dt v w : yields E d l v -> yields E d r w ->
  bool_told E d (NCmp l r op dt) = evaluate_logical_told op PRIMITIVE v (get_data_type v) [(w, get_data_type w)].
Proof.
  intros (Hl & Hv & Nl) (Hr & Hw & Nr). rewrite told_cmp.
  rewrite (gives_forget (told_operand E d l) (Some v)) by (rewrite forget_operand by apply forget_bool; apply operand_yields; assumption).
  rewrite (gives_forget (told_operand E d r) (Some w)) by (rewrite forget_operand by apply forget_bool; apply operand_yields; assumption).
  assert (N : is_null_check l r op = Ok false).
  { unfold is_null_check. rewrite (not_null_word _ _ _ _ Hl Nl), (not_null_word _ _ _ _ Hr Nr). destruct op; auto. }
  rewrite N. reflexivity.
Qed.

Definition conv (t : dtype) (v : jval) : bool := match primitive_value t v with Ok _ => true | Err _ => false end.
Definition value_message (v : jval) (t : dtype) : jstr := J "Invalid data type for value " ++ show v ++ J " for data type " ++ type_name t.
Definition refused {A} (m : jstr) : told A := Throws InvalidDataType (Some m).
Lemma primitive_conv t v : v <> VNull -> conv t v = false -> primitive_told t v = refused (value_message v t).
Proof. intros N C. unfold primitive_told, conv in *. destruct (primitive_total t v N) as [[x P]|P]; rewrite P in *; [discriminate C|reflexivity]. Qed.
Lemma compare_conv t v w : v <> VNull -> w <> VNull ->
  (conv t v = false -> compare_told t v w = refused (value_message v t)) /\
  (conv t v = true -> conv t w = false -> compare_told t v w = refused (value_message w t)) /\
  (conv t v = true -> conv t w = true -> forall m, compare_told t v w <> refused m).
Proof.
  intros Nv Nw. unfold compare_told. split; [|split].
  - intros C. rewrite (primitive_conv t v Nv C). reflexivity.
  - intros C D. rewrite (primitive_conv t w Nw D). unfold conv, primitive_told in *. destruct (primitive_value t v); [reflexivity|discriminate C].
  - intros C D m. unfold conv, primitive_told in *. destruct (primitive_value t v); [|discriminate C]. destruct (primitive_value t w); [|discriminate D]. cbn [throwing tbind].
    destruct (compare_to a a0); discriminate.
Qed.
Lemma conv_readable v a t : stands v a -> widening a t -> (conv t v = true -> exists m, read_as v t m) /\ (conv t v = false -> unreadable v t).
Proof.
  intros S W. unfold conv. split.
  - destruct (primitive_value t v) eqn:P; [|discriminate]. intros _. eapply converts_read; eauto.
  - intros C m R. destruct (read_converts v a t m S W R) as (x & P & _). rewrite P in C. discriminate C.
Qed.
Lemma own_conv v a : stands v a -> a <> STRING -> conv a v = true.
Proof.
  intros S N. destruct (stands_type v a S) as (_ & Nv & V). unfold conv. rewrite is_valid_primitive in V by assumption. destruct (primitive_value a v); congruence.
Qed.
Lemma numeric_like t : numeric t = number_like t.
Proof. destruct t; reflexivity. Qed.

(** The outcome of a test that may be refused: [Some m], the refusal; otherwise something that is no refusal. *)
Definition outcome (x : told bool) (o : option jstr) : Prop := match o with Some m => x = refused m | None => forall m, x <> refused m end.
Lemma outcome_iff x o m : outcome x o -> (x = refused m <-> o = Some m).
Proof. destruct o as [m'|]; cbn; intros H; [rewrite H; unfold refused; split; congruence|]. split; [intros X; destruct (H m X)|discriminate]. Qed.
Lemma compare_outcome t v w (test : comparison -> bool) : v <> VNull -> w <> VNull ->
  outcome (c <! compare_told t v w ;; Gives (test c)) (if conv t v then if conv t w then None else Some (value_message w t) else Some (value_message v t)).
Proof.
  intros Nv Nw. destruct (compare_conv t v w Nv Nw) as (A & B & C). destruct (conv t v); [|rewrite A by reflexivity; reflexivity].
  destruct (conv t w); [|rewrite B by reflexivity; reflexivity]. intros m. specialize (C eq_refl eq_refl m). destruct (compare_told t v w) as [c|e [s|]]; cbn; try discriminate.
  unfold refused in *. congruence.
Qed.
Definition pair_message (a b : dtype) : jstr := J "Incompatible data types " ++ type_name a ++ J " and " ++ type_name b.
Lemma ordering_outcome v w a b t : stands v a -> stands w b -> a <> BOOLEAN -> b <> BOOLEAN ->
  outcome (ordering_told t v a (w, b)) (if Bool.eqb (number_like a) (number_like b)
    then if conv (ordering_type a b) v then if conv (ordering_type a b) w then None else Some (value_message w (ordering_type a b)) else Some (value_message v (ordering_type a b))
    else if conv (ordering_type a b) v && conv (ordering_type a b) w then None else Some (pair_message a b)).
Proof.
  intros Sv Sw Ba Bb. destruct (stands_type v a Sv) as (_ & Nv & _), (stands_type w b Sw) as (_ & Nw & _).
  unfold ordering_told, validate_told, ordering_validate. cbn [fst snd]. pose proof (compare_outcome (ordering_type a b) v w t Nv Nw) as C. rewrite <- (numeric_like a), <- (numeric_like b).
  destruct (numeric a) eqn:A, (numeric b) eqn:B; cbn [negb andb Bool.eqb bind throwing tbind]; try exact C.
  - assert (O : ordering_type a b = a) by (unfold ordering_type; rewrite A, B; reflexivity). rewrite O in *. assert (As : a <> STRING) by (intros ->; discriminate A).
    rewrite (own_conv v a Sv As) in *. cbn [andb]. rewrite is_valid_primitive by assumption. fold (conv a w). destruct (conv a w); [exact C|reflexivity].
  - assert (O : ordering_type a b = b) by (unfold ordering_type; rewrite A, B; reflexivity). rewrite O in *. assert (Bs : b <> STRING) by (intros ->; discriminate B).
    rewrite (own_conv w b Sw Bs) in *. rewrite is_valid_primitive by assumption. fold (conv b v). destruct (conv b v); [exact C|reflexivity].
Qed.

Lemma orders_dec op : orders op \/ ~ orders op.
Proof. unfold orders. destruct op; cbn; auto 6; right; intuition discriminate. Qed.
Lemma refusal_exact E d l r op c0 v w a b m : accepts op c0 <> None -> yields E d l v -> yields E d r w -> stands v a -> stands w b ->
  (bool_told E d (SpecCompare.cond l op r) = Throws InvalidDataType (Some m) <-> refusal op v w a b m).
Proof.
  intros Op L R Sv Sw. unfold SpecCompare.cond. rewrite (told_yields _ _ _ _ _ _ _ _ L R). destruct (stands_type v a Sv) as (-> & Nv & Vv), (stands_type w b Sw) as (-> & Nw & _).
  destruct (orders_dec op) as [O|O].
  - assert (X : outcome (evaluate_logical_told op PRIMITIVE v a [(w, b)]) (if dtype_eqb a BOOLEAN then Some (J "Invalid left operand data type BOOLEAN for operator " ++ operator_name op)
      else if dtype_eqb b BOOLEAN then Some (J "Invalid right operand data type BOOLEAN for operator " ++ operator_name op)
      else if Bool.eqb (number_like a) (number_like b)
    then if conv (ordering_type a b) v then if conv (ordering_type a b) w then None else Some (value_message w (ordering_type a b)) else Some (value_message v (ordering_type a b))
    else if conv (ordering_type a b) v && conv (ordering_type a b) w then None else Some (pair_message a b))).
    { destruct (dtype_eqb a BOOLEAN) eqn:Ba.
      { destruct a; try discriminate Ba. destruct O as [<-|[<-|[<-|[<-|[]]]]]; reflexivity. }
      assert (Na : a <> BOOLEAN) by (intros ->; discriminate Ba).
      assert (Ma : mem_type a (logical_types op) = true) by (destruct O as [<-|[<-|[<-|[<-|[]]]]]; destruct a; congruence || reflexivity).
      unfold evaluate_logical_told. rewrite Ma. cbn [negb container_is_valid]. rewrite Vv. cbn [jdk tbind negb right_types_told].
      replace (is_logical op) with true by (destruct O as [<-|[<-|[<-|[<-|[]]]]]; reflexivity).
      replace (logical_container op) with PRIMITIVE by (destruct O as [<-|[<-|[<-|[<-|[]]]]]; reflexivity). cbn [negb container_eqb].
      destruct (dtype_eqb b BOOLEAN) eqn:Bb.
      { destruct b; try discriminate Bb. destruct O as [<-|[<-|[<-|[<-|[]]]]]; reflexivity. }
      assert (Nb : b <> BOOLEAN) by (intros ->; discriminate Bb).
      replace (mem_type b (logical_types op)) with true by (destruct O as [<-|[<-|[<-|[<-|[]]]]]; destruct b; congruence || reflexivity). cbn [tbind].
      destruct O as [<-|[<-|[<-|[<-|[]]]]]; apply ordering_outcome; assumption. }
    change (Throws InvalidDataType (Some m)) with (@refused bool m). rewrite (outcome_iff _ _ _ X). clear X. assert (M : dtype_eqb a BOOLEAN = false -> dtype_eqb b BOOLEAN = false -> meeting op a b = Some (ordering_type a b)).
    { intros Ba Bb. destruct O as [<-|[<-|[<-|[<-|[]]]]]; destruct a, b; reflexivity || discriminate. }
    destruct (dtype_eqb a BOOLEAN) eqn:Ba.
    { assert (a = BOOLEAN) as -> by (destruct a; reflexivity || discriminate). assert (N : meeting op BOOLEAN b = None) by (destruct O as [<-|[<-|[<-|[<-|[]]]]]; reflexivity).
      split; [intros X; injection X as <-; apply refuse_left; auto|]. intros X. inversion X; solve [congruence|reflexivity|subst; reflexivity]. }
    assert (Na : a <> BOOLEAN) by (intros ->; discriminate Ba). destruct (dtype_eqb b BOOLEAN) eqn:Bb.
    { assert (b = BOOLEAN) as -> by (destruct b; reflexivity || discriminate). assert (N : meeting op a BOOLEAN = None) by (destruct O as [<-|[<-|[<-|[<-|[]]]]]; destruct a; reflexivity).
      split; [intros X; injection X as <-; apply refuse_right; auto|]. intros X. inversion X; solve [congruence|reflexivity|subst; reflexivity]. }
    assert (Nb : b <> BOOLEAN) by (intros ->; discriminate Bb). specialize (M eq_refl eq_refl). set (t := ordering_type a b) in *.
    destruct (meeting_widens op a b t M) as [Wa Wb]. destruct (conv_readable v a t Sv Wa) as [Rv Uv], (conv_readable w b t Sw Wb) as [Rw Uw].
    destruct (Bool.eqb (number_like a) (number_like b)) eqn:Q.
    + apply Bool.eqb_prop in Q. destruct (conv t v); [destruct (Rv eq_refl) as [x X]; destruct (conv t w); [destruct (Rw eq_refl) as [y Y]|]|].
      * split; [discriminate|]. intros Z. exfalso. inversion Z as [| |t' O1 N1 M1 U1|t' O1 M1 U1|t' x' O1 M1 R1 U1]; try congruence.
        -- assert (t' = t) as -> by congruence. exact (U1 _ X).
        -- assert (t' = t) as -> by congruence. exact (U1 _ Y).
      * split; [intros Z; injection Z as <-; eapply refuse_second; eauto|]. intros Z. inversion Z as [| |t' O1 N1 M1 U1|t' O1 M1 U1|t' x' O1 M1 R1 U1]; try congruence.
        -- assert (t' = t) as -> by congruence. destruct (U1 _ X).
        -- assert (t' = t) as -> by congruence. reflexivity.
      * split; [intros Z; injection Z as <-; eapply refuse_first; eauto|]. intros Z. inversion Z as [| |t' O1 N1 M1 U1|t' O1 M1 U1|t' x' O1 M1 R1 U1]; try congruence.
        -- assert (t' = t) as -> by congruence. reflexivity.
        -- assert (t' = t) as -> by congruence. destruct (Uv eq_refl _ R1).
    + apply Bool.eqb_false_iff in Q. destruct (conv t v); [destruct (Rv eq_refl) as [x X]; destruct (conv t w); [destruct (Rw eq_refl) as [y Y]|]|]; cbn [andb].
      * split; [discriminate|]. intros Z. exfalso. inversion Z as [| |t' O1 N1 M1 U1|t' O1 M1 U1|t' x' O1 M1 R1 U1]; try congruence; try (apply Q, O1, O).
        assert (t' = t) as -> by congruence. destruct U1 as [U1|U1]; [exact (U1 _ X)|exact (U1 _ Y)].
      * split; [intros Z; injection Z as <-; eapply refuse_pair; eauto|]. intros Z. inversion Z as [| |t' O1 N1 M1 U1|t' O1 M1 U1|t' x' O1 M1 R1 U1]; try congruence; try (destruct (Q (O1 O))); subst; reflexivity.
      * split; [intros Z; injection Z as <-; eapply refuse_pair; eauto|]. intros Z. inversion Z as [| |t' O1 N1 M1 U1|t' O1 M1 U1|t' x' O1 M1 R1 U1]; try congruence; try (destruct (Q (O1 O))); subst; reflexivity.
  - assert (Oe : op = EQUALS \/ op = NOT_EQUAL) by (destruct op, c0; cbn in Op; try congruence; auto; exfalso; apply O; cbn; tauto). set (t := equality_type a b).
    assert (M : meeting op a b = Some t) by (destruct Oe as [-> | ->]; destruct a, b; reflexivity).
    assert (X : outcome (evaluate_logical_told op PRIMITIVE v a [(w, b)]) (if conv t v then if conv t w then None else Some (value_message w t) else Some (value_message v t))).
    { unfold evaluate_logical_told. assert (mem_type a all_types = true /\ mem_type b all_types = true) as [Ma Mb] by (destruct a, b; split; reflexivity).
      destruct Oe as [-> | ->]; cbn [is_logical negb logical_container container_eqb logical_types container_is_valid]; rewrite Ma; cbn [negb]; rewrite Vv; cbn [jdk tbind negb right_types_told logical_types];
        rewrite Mb; apply compare_outcome; assumption. }
    change (Throws InvalidDataType (Some m)) with (@refused bool m). rewrite (outcome_iff _ _ _ X). clear X.
    destruct (meeting_widens op a b t M) as [Wa Wb]. destruct (conv_readable v a t Sv Wa) as [Rv Uv], (conv_readable w b t Sw Wb) as [Rw Uw].
    destruct (conv t v); [destruct (Rv eq_refl) as [x X]; destruct (conv t w); [destruct (Rw eq_refl) as [y Y]|]|].
    * split; [discriminate|]. intros Z. exfalso. inversion Z as [| |t' O1 N1 M1 U1|t' O1 M1 U1|t' x' O1 M1 R1 U1]; try congruence; try tauto.
      -- assert (t' = t) as -> by congruence. exact (U1 _ X).
      -- assert (t' = t) as -> by congruence. exact (U1 _ Y).
    * split; [intros Z; injection Z as <-; eapply refuse_second; eauto; tauto|]. intros Z. inversion Z as [| |t' O1 N1 M1 U1|t' O1 M1 U1|t' x' O1 M1 R1 U1]; try congruence; try tauto.
      -- assert (t' = t) as -> by congruence. destruct (U1 _ X).
      -- assert (t' = t) as -> by congruence. reflexivity.
    * split; [intros Z; injection Z as <-; eapply refuse_first; eauto; tauto|]. intros Z. inversion Z as [| |t' O1 N1 M1 U1|t' O1 M1 U1|t' x' O1 M1 R1 U1]; try congruence; try tauto.
      -- assert (t' = t) as -> by congruence. reflexivity.
      -- assert (t' = t) as -> by congruence. destruct (Uv eq_refl _ R1).
Qed.

(** ** Arithmetic operations *)
Lemma told_bin E d l r op v w : arithmetic op -> arith_eval E d l = Ok v -> arith_eval E d r = Ok w ->
  arith_told E d (bin l op r) = evaluate_arithmetic_told E op v (get_data_type v) (Some (w, get_data_type w)).
Proof.
  intros A L R. unfold bin. cbn [arith_told]. rewrite <- forget_arith in L, R. rewrite (gives_forget _ _ L), (gives_forget _ _ R). destruct A as [<-|[<-|[<-|[<-|[<-|[<-|[]]]]]]]; reflexivity.
Qed.
Lemma argument_valid v t : argument_type v t -> get_data_type v = t /\ is_valid t v = Ok true.
Proof. intros [H|[-> ->]]; [destruct (stands_type v t H) as (A & _ & B); auto|split; reflexivity]. Qed.
Lemma arithmetic_exact E d l r op v w a b m : arithmetic op -> arith_eval E d l = Ok v -> arith_eval E d r = Ok w -> argument_type v a -> argument_type w b ->
  (arith_told E d (bin l op r) = Throws InvalidDataType (Some m) <-> arithmetic_refusal op a b m).
Proof.
  intros A L R Ta Tb. rewrite (told_bin _ _ _ _ _ _ _ A L R). destruct (argument_valid v a Ta) as [-> Va], (argument_valid w b Tb) as [-> Vb].
  unfold evaluate_arithmetic_told. destruct (arithmetic_types op) as [types|] eqn:T; [|destruct A as [<-|[<-|[<-|[<-|[<-|[<-|[]]]]]]]; discriminate T].
  pose proof (supported_mem op types a T) as Sa. pose proof (supported_mem op types b T) as Sb. destruct (mem_type a types); cbn [negb].
  2:{ assert (Na : ~ supported op a) by (intros X; apply Sa in X; discriminate X). split; [intros X; injection X as <-; apply arithmetic_left, Na|]. intros X. inversion X; [reflexivity|contradiction]. }
  assert (Ya : supported op a) by (apply Sa; reflexivity). rewrite Va. cbn [jdk tbind negb]. destruct (mem_type b types); cbn [negb].
  2:{ assert (Nb : ~ supported op b) by (intros X; apply Sb in X; discriminate X). split; [intros X; injection X as <-; apply arithmetic_right; assumption|]. intros X. inversion X; [contradiction|reflexivity]. }
  assert (Yb : supported op b) by (apply Sb; reflexivity). replace (match w with VNull => Ok true | _ => is_valid b w end) with (@Ok bool true) by (destruct w; congruence). cbn [jdk tbind negb]. split.
  - intros X. exfalso. destruct A as [<-|[<-|[<-|[<-|[<-|[<-|[]]]]]]]; unfold jdk in X; match type of X with match ?r with _ => _ end = _ => destruct r end; discriminate X.
  - intros X. inversion X; contradiction.
Qed.
(** A right operand that is NaN or infinite is reported by its type, a left one by itself. *)
Lemma not_finite_left E d l r op v t : arithmetic op -> op <> MODULUS -> arith_eval E d l = Ok (VFloat v t) -> (exists w, arith_eval E d r = Ok w) -> not_finite t ->
  arith_told E d (bin l op r) = Throws InvalidDataType (Some (J "Validation failed for the operator " ++ operator_name op ++ J " for the operand " ++ t)).
Proof.
  intros A M L [w R] N. rewrite (told_bin _ _ _ _ _ _ _ A L R). assert (V : is_valid DECIMAL (VFloat v t) = Ok false) by (destruct N as [->|[->| ->]]; reflexivity).
  unfold evaluate_arithmetic_told. cbn [get_data_type]. destruct A as [<-|[<-|[<-|[<-|[<-|[<-|[]]]]]]]; try contradiction; cbn [arithmetic_types mem_type existsb dtype_eqb orb negb]; rewrite V; reflexivity.
Qed.
Lemma not_finite_right E d l r op v a w t : arithmetic op -> op <> MODULUS -> arith_eval E d l = Ok v -> argument_type v a -> supported op a -> arith_eval E d r = Ok (VFloat w t) -> not_finite t ->
  arith_told E d (bin l op r) = Throws InvalidDataType (Some (J "Validation failed for the operator " ++ operator_name op ++ J " for the operand DECIMAL")).
Proof.
  intros A M L Ta Sa R N. rewrite (told_bin _ _ _ _ _ _ _ A L R). assert (V : is_valid DECIMAL (VFloat w t) = Ok false) by (destruct N as [->|[->| ->]]; reflexivity).
  destruct (argument_valid v a Ta) as [-> Va]. unfold evaluate_arithmetic_told. destruct (arithmetic_types op) as [types|] eqn:T; [|destruct A as [<-|[<-|[<-|[<-|[<-|[<-|[]]]]]]]; discriminate T].
  apply (supported_mem op types a T) in Sa. rewrite Sa. cbn [negb]. rewrite Va. cbn [jdk tbind negb get_data_type].
  replace (mem_type DECIMAL types) with true by (destruct A as [<-|[<-|[<-|[<-|[<-|[<-|[]]]]]]]; try contradiction; injection T as <-; reflexivity). cbn [negb]. rewrite V. reflexivity.
Qed.

(** ** Calls *)
Lemma told_arguments E d f items ms : arguments E d items ms -> arith_told E d (NFunc f items) = evaluate_function_told E f (typed ms).
Proof.
  intros (vs & H & ->). rewrite told_func. assert (M : map_told (arith_told E d) items = Gives vs).
  { induction H as [|i v is vs' Hi _ IH]; [reflexivity|]. change (map_told (arith_told E d) (i :: is)) with (x <! arith_told E d i ;; xs <! map_told (arith_told E d) is ;; Gives (x :: xs)).
    rewrite <- forget_arith in Hi. rewrite (gives_forget _ _ Hi). cbn [tbind]. rewrite IH. reflexivity. }
  rewrite M. reflexivity.
Qed.
Lemma validate_arguments f ms ts : Forall2 argument_type ms ts -> validate_items_told f (typed ms) = Gives tt.
Proof.
  induction 1 as [|v t ms ts H _ IH]; [reflexivity|]. change (typed (v :: ms)) with ((v, get_data_type v) :: typed ms). cbn [validate_items_told]. destruct (argument_valid v t H) as [-> ->]. exact IH.
Qed.
Lemma iso_refused s : stands (VStr s) DATE -> (parse_iso_date s = None <-> exists y m d, ymd_text y m d s /\ ~ (calendar (Date y m d) /\ (length s <= 17)%nat)).
Proof.
  intros S. destruct (days_gives witness_env [] [lit (VStr s)] [VStr s] [DATE]) as [_ G].
  - exists [VStr s]. split; [repeat constructor|reflexivity].
  - constructor; [left; exact S|constructor].
  - constructor; [reflexivity|constructor].
  - exists 31%Z. cbn. split; [apply days31; cbn; tauto|lia].
  - destruct (G s eq_refl) as (y & m & d & P & A & B). rewrite (days_call witness_env [] [lit (VStr s)] (VStr s)) in A, B.
    2,3,4,5: shelve. cbn [eval_days_elapsed] in A, B. split.
    + intros X. rewrite X in *. exists y, m, d. split; [exact P|]. intros C. destruct (A C) as (k & K & _). discriminate K.
    + intros (y' & m' & d' & P' & N'). assert (U : forall y m d, ymd_text y m d s -> parse_ymd false 19 s = Some (y, m, d, [])).
      { intros y0 m0 d0 H0. apply parse_ymd_spec. exists s. rewrite app_nil_r. auto. }
      pose proof (U _ _ _ P) as U1. pose proof (U _ _ _ P') as U2. assert (y' = y /\ m' = m /\ d' = d) as (-> & -> & ->) by (split; [|split]; congruence).
      specialize (B N'). destruct (parse_iso_date s); [discriminate B|reflexivity].
  Unshelve. all: try (exists [VStr s]; split; [repeat constructor|reflexivity]); apply (stands_type _ _ S).
Qed.
Lemma call_exact E d f items ms ts e m : arguments E d items ms -> Forall2 argument_type ms ts ->
  (arith_told E d (NFunc f items) = Throws e (Some m) <-> call_refusal f ms ts e m).
Proof.
  intros A T. rewrite (told_arguments E d f items ms A). unfold evaluate_function_told. destruct ms as [|v0 ms0].
  { cbn [typed map]. split; [intros X; injection X as <- <-; apply call_none; reflexivity|]. intros X.
    inversion X as [|L|L|L|s y k dd _ L]; try reflexivity; try (cbn in L; lia); try congruence; discriminate L. }
  change (typed (v0 :: ms0)) with ((v0, get_data_type v0) :: typed ms0). cbv iota. change ((v0, get_data_type v0) :: typed ms0) with (typed (v0 :: ms0)). set (ms := v0 :: ms0) in *.
  assert (Nn : ms <> []) by discriminate. assert (Ln : (1 <= length ms)%nat) by (cbn; lia). pose proof (takes_container f (length ms) Ln) as C. rewrite typed_length. clearbody ms. clear v0 ms0.
  destruct (existsb (container_eqb (if (1 <? length ms)%nat then LIST else PRIMITIVE)) (func_containers f)); cbn [negb].
  2:{ assert (Nt : ~ takes f (length ms)) by (intros X; apply C in X; discriminate X). destruct (Nat.ltb_spec 1 (length ms)) as [G|G].
      - split; [intros X; injection X as <- <-; apply call_several; auto|]. intros X. inversion X as [L|L|L|L K|s y k dd F L]; subst; try contradiction; try lia; try reflexivity; exfalso; apply Nt; reflexivity.
      - assert (O : length ms = 1%nat) by lia. rewrite O in Nt. split; [intros X; injection X as <- <-; apply call_single; auto|]. intros X.
        inversion X as [L|L|L|L K|s y k dd F L]; subst; try contradiction; try lia; try reflexivity; try (rewrite O in *; contradiction); exfalso; apply Nt; reflexivity. }
  assert (Yt : takes f (length ms)) by (apply C; reflexivity). clear C.
  assert (Y1 : length ms = 1%nat -> takes f 1) by (intros X; rewrite <- X; exact Yt). pose proof (arguments_types f ms ts T) as S. destruct (forallb _ _); cbn [negb].
  2:{ assert (Ns : ~ Forall (func_supported f) ts) by (intros X; apply S in X; discriminate X). split; [intros X; injection X as <- <-; apply call_type; auto|]. intros X.
      inversion X as [L|L K|L K|L K|s y k dd F L M]; subst; try contradiction; try reflexivity; [destruct (K (Y1 L))|]. exfalso. apply Ns. repeat constructor. }
  assert (Ys : Forall (func_supported f) ts) by (apply S; reflexivity). rewrite (validate_arguments f ms ts T). cbn [tbind]. assert (J1 : forall x : res jval, jdk x <> Throws e (Some m)) by (intros []; discriminate).
  assert (D : f = F_DAYS_ELAPSED \/ func_told E f (typed ms) = jdk (func_evaluate E f (typed ms)) /\ f <> F_DAYS_ELAPSED) by (destruct f; [..]; try (right; split; [reflexivity|discriminate]); left; reflexivity).
  destruct D as [-> |[-> Nf]].
  2:{ split; [intros X; destruct (J1 _ X)|]. intros X. inversion X as [L|L K|L K|L K|s y k dd F L M]; subst; try contradiction. destruct (K (Y1 L)). }
  cbn in Yt. destruct ms as [|v [|]]; try discriminate Yt. inversion T as [|? t ? ? Ht Tr]; subst. inversion Tr; subst. inversion Ys as [|? ? St _]; subst. cbn in St. subst t.
  destruct Ht as [Ht|[_ Ht]]; [|discriminate Ht]. pose proof (argument_own v DATE (or_introl Ht)) as Hd. unfold func_told. change (typed [v]) with [(v, get_data_type v)]. rewrite Hd.
  assert (V : (exists a, v = VDate a) \/ exists s, v = VStr s). { inversion Ht as [| | | | | |v' a' D| | | | | |]; subst. destruct D as [[D _]|[s [D _]]]; eauto. }
  destruct V as [[a ->]|[s ->]]; cbn [days_elapsed_told eval_days_elapsed].
  - split; [intros X; discriminate X|]. intros X. inversion X as [L|L K|L K|L K|s y k dd F L M]; subst; try discriminate; try (cbn in L; lia); try contradiction; destruct (K eq_refl).
  - pose proof (iso_refused s Ht) as Is. destruct (parse_iso_date s).
    + split; [intros X; discriminate X|]. intros X. inversion X as [L|L K|L K|L K|s' y k dd F L M P N]; subst; try discriminate; try (cbn in L; lia); try contradiction; try (destruct (K eq_refl); fail).
      exfalso. assert (s' = s) as -> by congruence. assert (Some d0 = None) by (apply Is; eauto 6). discriminate.
    + cbn [throwing]. split.
      * intros X. assert (e = InvalidFunctionArgument /\ m = J "DAYS_ELAPSED function requires a valid date argument, got: " ++ s) as [-> ->] by (inversion X; auto).
        destruct (proj1 Is eq_refl) as (y & k & dd & P & N). eapply call_date; eauto.
      * intros X. inversion X as [L|L K|L K|L K|s' y k dd F L M P N]; subst; try discriminate; try (cbn in L; lia); try contradiction; try (destruct (K eq_refl); fail).
        assert (s' = s) as -> by congruence. reflexivity.
Qed.

(** ** As properties *)
Lemma speaks {A} d ks ops fs (x : told A) e m : spoken d ks ops fs x -> x = Throws e m -> (own e <-> m <> None) /\ forall s, m = Some s -> remark d ks ops fs e s.
Proof.
  intros S ->. destruct m as [s|]; cbn in S.
  - split; [|congruence]. split; [discriminate|]. intros _. inversion S; unfold own; cbn; tauto.
  - split; [|discriminate]. split; [contradiction|]. intros X. congruence.
Qed.
Lemma bool_speaks E d n e m : bool_told E d n = Throws e m -> (own e <-> m <> None) /\ forall s, m = Some s -> remark d (bool_fields n) (operators n) (calls n) e s.
Proof. apply speaks, bool_spoken_all. Qed.
Lemma arith_speaks E d n e m : arith_told E d n = Throws e m -> (own e <-> m <> None) /\ forall s, m = Some s -> remark d (arith_fields n) (operators n) (calls n) e s.
Proof. apply speaks, arith_spoken_all. Qed.
Lemma key_of d ks ops fs s : remark d ks ops fs DataNotFound s -> forall key, s = J "Data not found for the key " ++ key -> In key ks /\ absent d key.
Proof. intros R key K. inversion R as [k In_k Abs X1 X2| | | | | | | | | | | | | | |]. rewrite <- X2 in K. apply app_inv_head in K. subst k. auto. Qed.
Lemma bool_missing E d n s : bool_told E d n = Throws DataNotFound (Some s) ->
  exists key tr, s = J "Data not found for the key " ++ key /\ In key (bool_fields n) /\ absent d key /\ snd (bool_act E (fun _ => (today E, d)) n 0) = tr ++ [Field key].
Proof.
  intros T. destruct (bool_speaks _ _ _ _ _ T) as [_ R]. specialize (R s eq_refl). destruct (ends_bool E d n 0) as [_ X]. destruct (X s T) as (tr & key & Y & K).
  exists key, tr. destruct (key_of _ _ _ _ _ R key K). auto.
Qed.
Lemma arith_missing E d n s : arith_told E d n = Throws DataNotFound (Some s) ->
  exists key tr, s = J "Data not found for the key " ++ key /\ In key (arith_fields n) /\ absent d key /\ snd (arith_act E (fun _ => (today E, d)) n 0) = tr ++ [Field key].
Proof.
  intros T. destruct (arith_speaks _ _ _ _ _ T) as [_ R]. specialize (R s eq_refl). destruct (ends_arith E d n 0) as [_ X]. destruct (X s T) as (tr & key & Y & K).
  exists key, tr. destruct (key_of _ _ _ _ _ R key K). auto.
Qed.
(** The sides are not told apart. *)
Lemma side_lost E d l r op v w a b : arithmetic op -> arith_eval E d l = Ok v -> arith_eval E d r = Ok w -> argument_type v a -> argument_type w b -> supported op a -> ~ supported op b ->
  exists s, arith_told E d (bin l op r) = Throws InvalidDataType (Some s) /\ arith_told E d (bin r op l) = Throws InvalidDataType (Some s).
Proof.
  intros A L R Ta Tb Sa Sb. eexists. split; [apply (arithmetic_exact E d l r op v w a b); auto; apply arithmetic_right; assumption|].
  apply (arithmetic_exact E d r l op w v b a); auto. apply arithmetic_left; assumption.
Qed.
(** A field missing on the right of a comparison is not named. *)
Lemma right_unnamed E d l op k v : yields E d l v -> absent d k -> to_lower k <> J "null" -> bool_told E d (SpecCompare.cond l op (NField (Some k))) = Throws NoSuchElement None.
Proof.
  intros (Hl & Hv & Nl) A K. unfold SpecCompare.cond. rewrite told_cmp.
  rewrite (gives_forget (told_operand E d l) (Some v)) by (rewrite forget_operand by apply forget_bool; apply operand_yields; assumption).
  assert (N : is_null_check l (NField (Some k)) op = Ok false).
  { unfold is_null_check. rewrite (not_null_word _ _ _ _ Hl Nl). assert (X : node_is_null_field (NField (Some k)) = Ok false).
    { cbn. f_equal. destruct (equals_ignore_case k (J "null")) eqn:Eq; [|exact Eq]. exfalso. apply K. unfold equals_ignore_case in Eq. apply jstr_eqb_iff in Eq. rewrite Eq. reflexivity. }
    rewrite X. destruct op; reflexivity. }
  rewrite N. cbn [jdk tbind]. assert (G : get_value_from_map k d = Ok None).
  { specialize (A E). cbn in A. unfold field_value_or_fail, field_value in A. destruct (get_value_from_map k d) as [[x|]|e] eqn:G; cbn in A; try congruence. exfalso.
    assert (e = DataNotFound) as -> by congruence. pose proof (p_map k d) as P. rewrite G in P. cbn in P. intuition discriminate. }
  unfold told_operand. cbn [is_arith_base told_value field_value]. rewrite G. reflexivity.
Qed.
Lemma negation_exact E d l v a m : arith_eval E d l = Ok v -> argument_type v a ->
  (arith_told E d (SpecArith.neg l) = Throws InvalidDataType (Some m) <-> ~ supported UNARY a /\ m = J "Invalid left operand data type " ++ type_name a ++ J " for operator " ++ operator_name UNARY).
Proof.
  intros L T. unfold SpecArith.neg. cbn [arith_told]. rewrite <- forget_arith in L. rewrite (gives_forget _ _ L). cbn [tbind]. destruct (argument_valid v a T) as [-> V].
  unfold evaluate_arithmetic_told. destruct (arithmetic_types UNARY) as [types|] eqn:Y; [|discriminate Y]. pose proof (supported_mem UNARY types a Y) as S. destruct (mem_type a types); cbn [negb].
  - rewrite V. cbn [jdk tbind negb]. split; [destruct (eval_unary v a); discriminate|]. intros [N _]. exfalso. apply N, S. reflexivity.
  - split; [intros X; injection X as <-; split; [|reflexivity]; intros X; apply S in X; discriminate X|]. intros [_ ->]. reflexivity.
Qed.

(** ** A case *)
Definition message_data : data := [(J "n", VInt 7); (J "s", VStr (J "blue")); (J "b", VBool true); (J "l", VColl true [VInt 1; VStr (J "x")]); (J "f", VFloat true (J "NaN"))].
Definition told_text (s : jstr) : option (told bool) := match parse_expression s None with Ok n => Some (bool_told witness_env message_data n) | Err _ => None end.
Definition told_number (s : jstr) : option (told jval) := match parse_expression s None with Ok n => Some (arith_told witness_env message_data n) | Err _ => None end.
Lemma message_cases :
  map told_text [J "n > 5 AND zz = 3"; J "b < 5"; J "n >= b"; J "s > 5"; J "n = zz"; J "n IN (1, zz)"; J "s CONTAINS_ANY (1, 2)"; J "l CONTAINS_ANY (1, 'x')"; J "'s'"] =
  map (fun p => Some (Throws (fst p) (snd p))) [(DataNotFound, Some (J "Data not found for the key zz")); (InvalidDataType, Some (J "Invalid left operand data type BOOLEAN for operator LESS_THAN"));
    (InvalidDataType, Some (J "Invalid right operand data type BOOLEAN for operator GREATER_THAN_EQUAL")); (InvalidDataType, Some (J "Incompatible data types STRING and INTEGER"));
    (NoSuchElement, None); (DataNotFound, Some (J "Data not found for the key zz")); (InvalidDataType, Some (J "Validation failed for the operator CONTAINS_ANY for the operand blue"));
    (HeterogeneousArray, Some (J "Heterogeneous input of array not allowed")); (InvalidUnaryOperand, Some (J "Invalid operand data type in unary expression"))] /\
  map told_number [J "n - s"; J "s - n"; J "f + n"; J "n + f"; J "min(n)"; J "int(n, n)"; J "sum(n, s)"; J "sum(f, n)"; J "days_elapsed('2024-02-30')"; J "n > 5"; J "7 / 0"; J "sum(n, y.z)"] =
  map (fun p => Some (Throws (fst p) (snd p))) [(InvalidDataType, Some (J "Invalid left operand data type STRING for operator SUBTRACT")); (InvalidDataType, Some (J "Invalid left operand data type STRING for operator SUBTRACT"));
    (InvalidDataType, Some (J "Validation failed for the operator ADD for the operand NaN")); (InvalidDataType, Some (J "Validation failed for the operator ADD for the operand DECIMAL"));
    (InvalidContainerType, Some (J "Invalid container type PRIMITIVE for function MIN")); (InvalidContainerType, Some (J "Invalid container type LIST for function INT"));
    (InvalidDataType, Some (J "Invalid data type for function SUM")); (InvalidDataType, Some (J "Validation failed for the function SUM for the operand NaN"));
    (InvalidFunctionArgument, Some (J "DAYS_ELAPSED function requires a valid date argument, got: 2024-02-30")); (UnsupportedToken, Some (J "Unsupported Token COMPARISON"));
    (ArithmeticExc, None); (DataNotFound, Some (J "Data not found for the key y.z"))].
Proof. split; vm_compute; reflexivity. Qed.
Lemma message_instances : let d := [(J "n", VInt 7); (J "s", VStr (J "blue")); (J "b", VBool true)] in let field k := NField (Some k) in
  yields witness_env d (field (J "s")) (VStr (J "blue")) /\ yields witness_env d (field (J "n")) (VInt 7) /\ stands (VStr (J "blue")) STRING /\ stands (VInt 7) INTEGER /\
  refusal GREATER_THAN (VStr (J "blue")) (VInt 7) STRING INTEGER (J "Incompatible data types STRING and INTEGER") /\
  (forall m, ~ refusal EQUALS (VStr (J "blue")) (VInt 7) STRING INTEGER m) /\
  refusal EQUALS (VInt 7) (VBool true) INTEGER BOOLEAN (J "Invalid data type for value true for data type INTEGER") /\
  arithmetic_refusal SUBTRACT INTEGER STRING (J "Invalid left operand data type STRING for operator SUBTRACT") /\
  call_refusal F_SUM [VInt 7; VStr (J "blue")] [INTEGER; STRING] InvalidDataType (J "Invalid data type for function SUM") /\ absent d (J "zz").
Proof.
  cbv zeta. set (d := [(J "n", VInt 7); (J "s", VStr (J "blue")); (J "b", VBool true)]).
  assert (Ys : yields witness_env d (NField (Some (J "s"))) (VStr (J "blue"))).
  { split; [vm_compute; reflexivity|]. split; [discriminate|]. intros (f & X & Y). injection X as <-. vm_compute in Y. discriminate Y. }
  assert (Yn : yields witness_env d (NField (Some (J "n"))) (VInt 7)).
  { split; [vm_compute; reflexivity|]. split; [discriminate|]. intros (f & X & Y). injection X as <-. vm_compute in Y. discriminate Y. }
  assert (Yb : yields witness_env d (NField (Some (J "b"))) (VBool true)).
  { split; [vm_compute; reflexivity|]. split; [discriminate|]. intros (f & X & Y). injection X as <-. vm_compute in Y. discriminate Y. }
  assert (Ss : stands (VStr (J "blue")) STRING).
  { apply stands_text; intros x X; [assert (T : get_data_type (VStr (J "blue")) = DATE) by (apply stands_type, (stands_date _ x); right; exists (J "blue"); auto)|
      assert (T : get_data_type (VStr (J "blue")) = DATETIME) by (apply stands_type, (stands_datetime _ x); right; exists (J "blue"); auto)]; vm_compute in T; discriminate T. }
  assert (Sn : stands (VInt 7) INTEGER) by (apply stands_int; lia).
  split; [exact Ys|]. split; [exact Yn|]. split; [exact Ss|]. split; [exact Sn|].
  split; [apply (refusal_exact witness_env d _ _ GREATER_THAN Eq _ _ _ _ _ ltac:(discriminate) Ys Yn Ss Sn); vm_compute; reflexivity|].
  split; [intros m X; apply (refusal_exact witness_env d _ _ EQUALS Eq _ _ _ _ _ ltac:(discriminate) Ys Yn Ss Sn) in X; vm_compute in X; discriminate X|].
  split; [apply (refusal_exact witness_env d _ _ EQUALS Eq _ _ _ _ _ ltac:(discriminate) Yn Yb Sn (stands_bool true)); vm_compute; reflexivity|].
  split; [exact (arithmetic_right SUBTRACT INTEGER STRING ltac:(cbn; tauto) ltac:(cbn; intuition discriminate))|].
  split; [exact (call_type F_SUM [VInt 7; VStr (J "blue")] [INTEGER; STRING] ltac:(discriminate) ltac:(cbn; lia) ltac:(intros X; inversion X as [|? ? _ X2]; inversion X2 as [|? ? X3 _]; cbn in X3; intuition discriminate))|].
  intros E. vm_compute. reflexivity.
Qed.

(** ** Words *)
Lemma operator_worded op s : operator_name op = s <-> In (op, s) operator_words.
Proof.
  split; [intros <-; destruct op; cbn; tauto|]. intros H. unfold operator_words in H.
  repeat (destruct H as [H|H]; [inversion H; reflexivity|]). destruct H.
Qed.
Lemma type_worded t s : type_name t = s <-> In (t, s) type_words.
Proof.
  split; [intros <-; destruct t; cbn; tauto|]. intros H. unfold type_words in H.
  repeat (destruct H as [H|H]; [inversion H; reflexivity|]). destruct H.
Qed.
Lemma function_worded f s : func_name f = s <-> In (f, s) function_words.
Proof.
  split; [intros <-; destruct f; cbn; tauto|]. intros H. unfold function_words in H.
  repeat (destruct H as [H|H]; [inversion H; reflexivity|]). destruct H.
Qed.
Lemma words_distinct : (forall o o', operator_name o = operator_name o' -> o = o') /\ (forall t t', type_name t = type_name t' -> t = t') /\ forall f f', func_name f = func_name f' -> f = f'.
Proof.
  split; [|split].
  - intros o o' H. destruct o, o'; try reflexivity; vm_compute in H; discriminate H.
  - intros o o' H. destruct o, o'; try reflexivity; vm_compute in H; discriminate H.
  - intros o o' H. destruct o, o'; try reflexivity; vm_compute in H; discriminate H.
Qed.

Lemma condition_named E d n s : called n s -> arith_told E d n = Throws UnsupportedToken (Some (J "Unsupported Token " ++ s)).
Proof. intros H. destruct H; reflexivity. Qed.
