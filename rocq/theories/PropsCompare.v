(** C06 - C10: comparisons. *)
From Coq Require Import QArith.
From Verif Require Import Base JNum BigDec Dates Version Values Ops Funcs Ast Eval SpecNum SpecCompare CompareFacts OrderFacts VersionTextFacts CompareWitness.

(** C06: comparing two numbers answers the question about their mathematical values, and never fails. *)
Theorem C06_numeric_comparisons_exact : forall E d l r op dt v w p q b,
  yields E d l v -> yields E d r w -> number v p -> number w q -> question op p q = Some b ->
  bool_eval E d (NCmp l r op dt) = Ok b.
Proof. exact compare_number_operands. Qed.
Print Assumptions C06_numeric_comparisons_exact.

Example C06_case : number (VDec (BD 150 2)) (3#2) /\ number (VFloat true (J "1.5")) (3#2) /\ number (VLong 2) 2 /\
  question EQUALS (3#2) (3#2) = Some true /\ question LESS_THAN (3#2) 2 = Some true.
Proof.
  split; [|split; [|split; [|split]]].
  - apply number_dec. reflexivity.
  - apply number_float. exists false, (J "1"), (J "5"), None. repeat split; try discriminate; try reflexivity; cbn; auto. apply le_n_S, Nat.le_0_l.
  - apply number_long; [split; discriminate|reflexivity].
  - reflexivity.
  - reflexivity.
Qed.

(** C07: != is the negation of =, >= of <, <= of >, on all operands and failing on the same ones. *)
Theorem C07_complementary : forall E d l r,
  bool_eval E d (cond l NOT_EQUAL r) = fmap negb (bool_eval E d (cond l EQUALS r)) /\
  bool_eval E d (cond l GREATER_THAN_EQUAL r) = fmap negb (bool_eval E d (cond l LESS_THAN r)) /\
  bool_eval E d (cond l LESS_THAN_EQUAL r) = fmap negb (bool_eval E d (cond l GREATER_THAN r)).
Proof. exact complement. Qed.
Print Assumptions C07_complementary.

(** C07: a > b and b < a give the same answer, for values of all types. *)
Theorem C07_swap : forall E d l r v w b, yields E d l v -> yields E d r w ->
  bool_eval E d (cond l GREATER_THAN r) = Ok b <-> bool_eval E d (cond r LESS_THAN l) = Ok b.
Proof. exact swap_operands. Qed.
Print Assumptions C07_swap.

Example C07_case : yields witness_env [] (lit (VStr (J "12"))) (VStr (J "12")) /\ yields witness_env [] (lit (VInt 9)) (VInt 9) /\
  bool_eval witness_env [] (cond (lit (VStr (J "12"))) GREATER_THAN (lit (VInt 9))) = Ok true.
Proof. split; [|split]; [apply yields_lit; discriminate|apply yields_lit; discriminate|reflexivity]. Qed.

(** C08: within one type every comparison succeeds and <= is a total order whose equality is =. *)
Theorem C08_total_order : forall E d k l1 l2 l3 v1 v2 v3,
  yields E d l1 v1 -> yields E d l2 v2 -> yields E d l3 v3 -> of_kind k v1 -> of_kind k v2 -> of_kind k v3 ->
  let holds l op r := bool_eval E d (cond l op r) = Ok true in
  (forall op c, accepts op c <> None -> exists b, bool_eval E d (cond l1 op l2) = Ok b) /\
  holds l1 LESS_THAN_EQUAL l1 /\
  (holds l1 LESS_THAN_EQUAL l2 \/ holds l2 LESS_THAN_EQUAL l1) /\
  (holds l1 LESS_THAN_EQUAL l2 -> holds l2 LESS_THAN_EQUAL l3 -> holds l1 LESS_THAN_EQUAL l3) /\
  (holds l1 LESS_THAN_EQUAL l2 /\ holds l2 LESS_THAN_EQUAL l1 <-> holds l1 EQUALS l2).
Proof. exact total_order. Qed.
Print Assumptions C08_total_order.

Example C08_case : of_kind Texts (VStr (J "abc")) /\ of_kind Versions (VVer (J "1.10.2")) /\ of_kind Dates (VDate (Date 2024 2 29)) /\
  of_kind DateTimes (VDateTime (DateTime (Date 2024 2 29) 10 0 0 0)) /\ of_kind Numbers (VInt 3).
Proof.
  repeat split.
  - exists (J "abc"). auto.
  - exists [1;10;2]%N. split; [discriminate|reflexivity].
  - exists (Date 2024 2 29). reflexivity.
  - exists (DateTime (Date 2024 2 29) 10 0 0 0). reflexivity.
  - exists 3%Q. apply number_int; [split; discriminate|reflexivity].
Qed.

(** C08: texts that look like dates break transitivity, so they have to be excluded from the order on texts. *)
Theorem C08_all_texts_refuted : exists E d a b c,
  let holds l op r := bool_eval E d (cond (lit (VStr l)) op (lit (VStr r))) = Ok true in
  holds a LESS_THAN_EQUAL b /\ holds b LESS_THAN_EQUAL c /\ ~ holds a LESS_THAN_EQUAL c.
Proof. exact texts_not_transitive. Qed.
Print Assumptions C08_all_texts_refuted.

(** C09: >= and <= may both hold although = does not. *)
Theorem C09_trichotomy_refuted : exists E d l r,
  bool_eval E d (cond l GREATER_THAN_EQUAL r) = Ok true /\ bool_eval E d (cond l LESS_THAN_EQUAL r) = Ok true /\
  bool_eval E d (cond l EQUALS r) = Ok false.
Proof. exact trichotomy_fails. Qed.
Print Assumptions C09_trichotomy_refuted.

(** C09: for text against a whole number this happens for every spelling of the number other than the canonical one. *)
Theorem C09_trichotomy_text_integer : forall E d l r s z, yields E d l (VStr s) -> yields E d r (VInt z) ->
  (-2147483648 <= z <= 2147483647)%Z -> reads_as (VStr s) (inject_Z z) ->
  bool_eval E d (cond l GREATER_THAN_EQUAL r) = Ok true /\ bool_eval E d (cond l LESS_THAN_EQUAL r) = Ok true /\
  (bool_eval E d (cond l EQUALS r) = Ok true <-> s = print_Z z).
Proof. exact text_against_integer. Qed.
Print Assumptions C09_trichotomy_text_integer.

Example C09_case : reads_as (VStr (J "5.0")) (inject_Z 5) /\ J "5.0" <> print_Z 5.
Proof. split; [exists (BD 50 1); split; reflexivity|discriminate]. Qed.

(** C10: dotted numeric versions are ordered component by component, missing components counting as 0, whether the
    left one is text or a version, and in either direction. *)
Theorem C10_versions_component_wise : forall E d l r v a b op res,
  yields E d l v -> version_like v a -> yields E d r (VVer (dotted b)) -> b <> [] ->
  accepts op (components_compare a b) = Some res -> op <> EQUALS -> op <> NOT_EQUAL ->
  bool_eval E d (cond l op r) = Ok res /\
  (forall res', accepts op (components_compare b a) = Some res' -> bool_eval E d (cond r op l) = Ok res').
Proof. exact versions_order. Qed.
Print Assumptions C10_versions_component_wise.

(** C10: two versions are equal exactly when their components are. *)
Theorem C10_versions_equal : forall E d l r a b, yields E d l (VVer (dotted a)) -> yields E d r (VVer (dotted b)) -> a <> [] -> b <> [] ->
  bool_eval E d (cond l EQUALS r) = Ok (match components_compare a b with Eq => true | _ => false end).
Proof. exact versions_equal. Qed.
Print Assumptions C10_versions_equal.

Example C10_case : version_like (VStr (J "1.9.0.5")) [1;9;0;5]%N /\ dotted [1;10]%N = J "1.10" /\
  components_compare [1;9;0;5]%N [1;10]%N = Lt /\ components_compare [1;0;0]%N [1]%N = Eq.
Proof. repeat split; try discriminate. left. reflexivity. Qed.
