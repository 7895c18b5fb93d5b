(** Proofs about rewriting conditions. *)
From Coq Require Import QArith ZifyBool.
From Verif Require Import Base JNum BigDec Dates Version Values Ops Funcs Ast Eval JNumFacts SpecNum BigDecFacts NumFacts SpecBool SpecCompare SpecPath BoolFacts CompareFacts VersionFacts OrderFacts ValuesFacts FieldFacts MemberFacts SpecRewrite.
Local Open Scope Z_scope.

Lemma map_get_not_null k d v : map_get k d = Some v -> v <> VNull.
Proof. induction d as [|[k' w] d IH]; cbn; [discriminate|]. destruct (jstr_eqb k' k); auto. destruct w; try discriminate; intros [= <-]; discriminate. Qed.
Lemma get_path_not_null ks : forall d v, get_path ks d = Ok (Some v) -> v <> VNull.
Proof.
  induction ks as [|k ks IH]; intros d v H; [discriminate|]. destruct ks as [|k' ks].
  - injection H as H. eapply map_get_not_null; eauto.
  - cbn [get_path] in *. destruct (map_get k d) as [[]|]; try discriminate. eapply IH; eauto.
Qed.
Lemma field_not_null f d v : field_value f d = Ok (Some v) -> v <> VNull.
Proof. destruct f; [|discriminate]. apply get_path_not_null. Qed.

(** A comparison of a field with a literal *)
Lemma field_test E d f op x dt : x <> VNull -> (op = EQUALS \/ op = NOT_EQUAL -> to_lower f <> J "null") ->
  bool_eval E d (NCmp (NField (Some f)) (lit x) op dt) =
  (v <- field_value_or_fail (Some f) d ;; evaluate_logical op PRIMITIVE v (get_data_type v) [(x, get_data_type x)]).
Proof.
  intros Hx Hf. rewrite cmp_unfold. unfold field_value_or_fail. change (operand_value E d (NField (Some f))) with (field_value (Some f) d).
  assert (C : is_null_check (NField (Some f)) (lit x) op = Ok false).
  { unfold is_null_check. cbn [node_is_null_field lit bind field_is_null].
    assert (L : op = EQUALS \/ op = NOT_EQUAL -> equals_ignore_case f (J "null") = false).
    { intros O. unfold equals_ignore_case. destruct (jstr_eqb _ _) eqn:X; auto. apply jstr_eqb_iff in X. exfalso. apply (Hf O). exact X. }
    destruct op; auto; rewrite L; auto. }
  rewrite C. change (operand_value E d (lit x)) with (optional_of x).
  assert (O : optional_of x = Ok (Some x)) by (destruct x; auto; congruence). rewrite O.
  destruct (field_value (Some f) d) as [[v|]|]; reflexivity.
Qed.

(** C64: ranges *)
Lemma ordering_convert tv t w q : bound w t q -> exists y, primitive_value (ordering_type tv t) w = Ok y.
Proof.
  intros B. pose proof (bound_type _ _ _ B) as T. destruct (ordering_three tv t T) as (T1 & _ & _). destruct B as [N ->].
  assert (X : exists v0 p, number v0 p /\ get_data_type v0 = ordering_type tv (get_data_type w)).
  { destruct T1 as [-> |[-> | ->]].
    - exists (VInt 0), 0%Q. split; [|reflexivity]. apply number_int; [split; discriminate|reflexivity].
    - exists (VLong 0), 0%Q. split; [|reflexivity]. apply number_long; [split; discriminate|reflexivity].
    - exists (VDec (BD 0 0)), 0%Q. split; [|reflexivity]. apply number_dec; reflexivity. }
  destruct X as (v0 & p & N0 & E0). destruct (compare_numbers v0 w p q N0 N) as [_ C]. rewrite E0 in C.
  assert (I : ordering_type (ordering_type tv (get_data_type w)) (get_data_type w) = ordering_type tv (get_data_type w)).
  { destruct T as [-> |[-> | ->]]; destruct tv; reflexivity. }
  rewrite I in C. unfold compare_as in C. destruct (primitive_value _ v0); [|discriminate]. cbn [bind] in C.
  destruct (primitive_value _ w); [eauto|discriminate].
Qed.
Lemma ordering_fails v t lo hi p q e : bound lo t p -> bound hi t q ->
  evaluate_logical LESS_THAN_EQUAL PRIMITIVE v (get_data_type v) [(hi, t)] = Err e ->
  evaluate_logical GREATER_THAN_EQUAL PRIMITIVE v (get_data_type v) [(lo, t)] = Err e.
Proof.
  intros Bl Bh. pose proof (bound_type _ _ _ Bl) as T. unfold evaluate_logical.
  cbn [is_logical logical_container logical_types container_eqb negb forallb snd].
  destruct (negb (mem_type (get_data_type v) _)); auto. destruct (container_is_valid PRIMITIVE _ v) as [[]|]; cbn [bind negb]; auto.
  destruct (negb _); auto. cbn [logical_evaluate first_operand bind]. unfold eval_ordering. cbn [fst snd].
  assert (V : ordering_validate v (get_data_type v) hi t = ordering_validate v (get_data_type v) lo t).
  { unfold ordering_validate. replace (numeric t) with true by (destruct T as [-> |[-> | ->]]; reflexivity). cbn [negb]. reflexivity. }
  rewrite V. clear V. destruct (ordering_validate v (get_data_type v) lo t) as [[]|]; cbn [bind]; auto. unfold compare_as.
  destruct (primitive_value _ v) as [x|] eqn:Px; cbn [bind]; auto.
  destruct (ordering_convert (get_data_type v) t lo p Bl) as [y1 E1], (ordering_convert (get_data_type v) t hi q Bh) as [y2 E2]. rewrite E1, E2. cbn [bind].
  destruct (ordering_three (get_data_type v) _ T) as (T1 & T2 & T3). destruct (ordering_three_r (get_data_type v) _ T) as (R2 & R3).
  destruct Bl as [Nl Tl], Bh as [Nh Th].
  apply convert_reads in Px as (Tx & qx & _ & Nx); auto; [|unfold upward; destruct v; auto].
  apply convert_reads in E1 as (Ty1 & q1 & _ & N1); auto; [|unfold upward; destruct lo; auto].
  apply convert_reads in E2 as (Ty2 & q2 & _ & N2); auto; [|unfold upward; destruct hi; auto].
  rewrite (compare_num_of x y2 qx q2 Nx N2) by congruence. cbn [bind]. intros X. discriminate X.
Qed.
Lemma bound_not_null v t q : bound v t q -> v <> VNull.
Proof. intros [N _] ->. inversion N. Qed.
Lemma range_rewrite E d f lo hi t p q dt dt' : bound lo t p -> bound hi t q ->
  bool_eval E d (NRange (Some f) lo hi t t) =
  bool_eval E d (both (NCmp (NField (Some f)) (lit lo) GREATER_THAN_EQUAL dt) (NCmp (NField (Some f)) (lit hi) LESS_THAN_EQUAL dt')).
Proof.
  intros Bl Bh. unfold both. rewrite eval_and.
  rewrite !field_test by (eauto using bound_not_null; intros [X|X]; discriminate X).
  cbn [bool_eval]. destruct (field_value_or_fail (Some f) d) as [v|]; cbn [bind]; auto.
  rewrite <- (proj2 Bl), <- (proj2 Bh).
  destruct (evaluate_logical GREATER_THAN_EQUAL _ _ _ _) as [[]|] eqn:A; cbn [bind]; auto;
    destruct (evaluate_logical LESS_THAN_EQUAL _ _ _ _) as [[]|] eqn:B; cbn [bind]; auto.
  rewrite (ordering_fails _ _ _ _ _ _ _ Bl Bh B) in A. discriminate.
Qed.

(** C64: lists *)
Lemma single_member x : single x -> members x = [x].
Proof. intros [_ H]. destruct x; auto. edestruct H; reflexivity. Qed.
Lemma single_members xs : Forall single xs -> flat_map members xs = xs.
Proof. induction 1 as [|x xs H _ IH]; auto. cbn [flat_map]. rewrite single_member, IH; auto. Qed.
Lemma single_null xs : Forall single xs -> ~ In VNull xs.
Proof. intros H X. rewrite Forall_forall in H. destruct (H _ X); congruence. Qed.
Lemma lit_items E d xs : Forall2 (fun i v => arith_eval E d i = Ok v) (map lit xs) xs.
Proof. induction xs; constructor; auto. Qed.
Lemma lit_values E d xs : mapM (item_eval E d) (map lit xs) = Ok xs.
Proof. apply item_values, lit_items. Qed.
Lemma chain_or c cs : chain any c cs = or_chain c cs.
Proof. revert c. induction cs as [|c' cs IH]; intros c; auto. cbn. rewrite IH. reflexivity. Qed.
Lemma field_absent_chain E d f e x xs : to_lower f <> J "null" -> single x -> field_value_or_fail (Some f) d = Err e ->
  bool_eval E d (chain any (cond (NField (Some f)) EQUALS (lit x)) xs) = Err e.
Proof.
  intros Hf [Hx _] F. assert (X : bool_eval E d (cond (NField (Some f)) EQUALS (lit x)) = Err e) by (unfold cond; rewrite field_test, F; auto).
  destruct xs; auto. cbn [chain]. unfold any. rewrite eval_or, X. reflexivity.
Qed.
Lemma in_rewrite E d f x xs : to_lower f <> J "null" -> Forall single (x :: xs) ->
  bool_eval E d (NIn (Some f) (map lit (x :: xs))) =
  bool_eval E d (chain any (cond (NField (Some f)) EQUALS (lit x)) (map (fun y => cond (NField (Some f)) EQUALS (lit y)) xs)).
Proof.
  intros Hf S. destruct (field_value_or_fail (Some f) d) as [v|e] eqn:F.
  - rewrite chain_or. apply (in_disjunction E d f v).
    + split; [exact F|]. split.
      * unfold field_value_or_fail in F. destruct (field_value (Some f) d) as [[w|]|] eqn:G; try discriminate. injection F as <-. eapply field_not_null; eauto.
      * intros (g & [= <-] & H). auto.
    + exists (x :: xs). split; [apply lit_items|]. split; [symmetry; apply single_members; auto|apply single_null; auto].
  - rewrite (field_absent_chain E d f e); auto; [|inversion S; auto]. rewrite in_unfold, F. reflexivity.
Qed.

Lemma dtype_eqb_same t : dtype_eqb t t = true. Proof. destruct t; reflexivity. Qed.
Lemma same_types x xs : Forall (fun y => get_data_type y = get_data_type x) xs -> heterogeneous (map (fun v => (v, get_data_type v)) (x :: xs)) = false.
Proof. intros H. apply (heterogeneous_false (x :: xs) (get_data_type x)). intros m [<-|I]; auto. rewrite Forall_forall in H. auto. Qed.
Lemma contains_values E d f op x xs : Forall single (x :: xs) -> Forall (fun y => get_data_type y = get_data_type x) xs ->
  bool_eval E d (NArray (Some f) op (map lit (x :: xs))) =
  (v <- field_value_or_fail (Some f) d ;; evaluate_logical op LIST v (get_data_type v) (map (fun v => (v, get_data_type v)) (x :: xs))).
Proof.
  intros S T. rewrite array_unfold, lit_values. destruct (field_value_or_fail (Some f) d) as [v|]; auto. cbn [bind]. unfold map_to_evaluated.
  rewrite flatten_members, single_members by auto. rewrite same_types by auto. reflexivity.
Qed.
Lemma contains_one E d f op x : single x -> bool_eval E d (NArray (Some f) op [lit x]) =
  (v <- field_value_or_fail (Some f) d ;; evaluate_logical op LIST v (get_data_type v) [(x, get_data_type x)]).
Proof. intros S. apply (contains_values E d f op x []); auto. Qed.
Lemma contains_logical q op v rs : (op = CONTAINS_ALL /\ q = true \/ op = CONTAINS_ANY /\ q = false) ->
  evaluate_logical op LIST v (get_data_type v) rs =
  (ok <- container_is_valid LIST (get_data_type v) v ;; if ok then eval_contains q v (get_data_type v) rs else Err InvalidDataType).
Proof.
  intros Hop. unfold evaluate_logical. destruct Hop as [[-> ->]|[-> ->]]; cbn [is_logical negb logical_container container_eqb logical_types];
    rewrite mem_all, forallb_all; destruct (container_is_valid _ _ _) as [[]|]; reflexivity.
Qed.
Lemma contains_split q v t x xs : container_is_valid LIST t v = Ok true ->
  eval_contains q v t (x :: xs) =
  (b <- eval_contains q v t [x] ;; if q then (if b then eval_contains q v t xs else Ok false) else (if b then Ok true else eval_contains q v t xs)).
Proof.
  intros V. unfold eval_contains. rewrite V. cbn [bind]. destruct v; auto. destruct is_list; auto.
  destruct q; cbn [allM anyM]; destruct (eval_in _ _ _) as [[]|]; reflexivity.
Qed.
Lemma contains_rewrite E d f q op x xs : (op = CONTAINS_ALL /\ q = true \/ op = CONTAINS_ANY /\ q = false) ->
  Forall single (x :: xs) -> Forall (fun y => get_data_type y = get_data_type x) xs ->
  bool_eval E d (NArray (Some f) op (map lit (x :: xs))) =
  bool_eval E d (chain (if q then both else any) (NArray (Some f) op [lit x]) (map (fun y => NArray (Some f) op [lit y]) xs)).
Proof.
  intros Hop. revert x. induction xs as [|y xs IH]; intros x S T; [reflexivity|].
  assert (S' : Forall single (y :: xs)) by (inversion S; auto).
  assert (T' : Forall (fun z => get_data_type z = get_data_type y) xs).
  { inversion T as [|? ? Ty Txs]. apply Forall_forall. intros z I. rewrite Forall_forall in Txs. rewrite Txs; auto. }
  cbn [map chain]. specialize (IH y S' T').
  assert (R : bool_eval E d ((if q then both else any) (NArray (Some f) op [lit x]) (chain (if q then both else any) (NArray (Some f) op [lit y]) (map (fun y => NArray (Some f) op [lit y]) xs)))
    = (b <- bool_eval E d (NArray (Some f) op [lit x]) ;;
       if q then (if b then bool_eval E d (NArray (Some f) op (map lit (y :: xs))) else Ok false)
       else (if b then Ok true else bool_eval E d (NArray (Some f) op (map lit (y :: xs)))))).
  { rewrite IH. destruct q; unfold both, any; rewrite ?eval_and, ?eval_or; destruct (bool_eval E d (NArray (Some f) op [lit x])) as [[]|]; reflexivity. }
  rewrite R. change (lit x :: lit y :: map lit xs) with (map lit (x :: y :: xs)).
  rewrite contains_one by (inversion S; auto). rewrite (contains_values E d f op x (y :: xs)) by auto. rewrite (contains_values E d f op y xs) by auto.
  destruct (field_value_or_fail (Some f) d) as [v|]; auto. cbn [bind]. rewrite !(contains_logical q op v) by auto.
  destruct (container_is_valid LIST _ v) as [[]|] eqn:V; auto. cbn [bind].
  etransitivity; [exact (contains_split q v (get_data_type v) (x, get_data_type x) (map (fun v => (v, get_data_type v)) (y :: xs)) V)|].
  destruct q; reflexivity.
Qed.

(** C64 *)
Lemma conditional_value E d x : conditional x -> operand_value E d x = (b <- bool_eval E d x ;; Ok (Some (VBool b))) /\ node_is_null_field x = Ok false.
Proof. destruct x; cbn [conditional]; intros []; split; reflexivity. Qed.
Lemma conditional_null_l x x' r op : conditional x -> conditional x' -> is_null_check x r op = is_null_check x' r op.
Proof.
  intros C C'. unfold is_null_check. destruct (conditional_value (Env (Date 2024 1 1) (fun _ _ => DNaN) (fun _ _ => DNaN)) [] x C) as [_ ->].
  destruct (conditional_value (Env (Date 2024 1 1) (fun _ _ => DNaN) (fun _ _ => DNaN)) [] x' C') as [_ ->]. reflexivity.
Qed.
Lemma conditional_null_r x x' l op : conditional x -> conditional x' -> is_null_check l x op = is_null_check l x' op.
Proof.
  intros C C'. unfold is_null_check. destruct (conditional_value (Env (Date 2024 1 1) (fun _ _ => DNaN) (fun _ _ => DNaN)) [] x C) as [_ ->].
  destruct (conditional_value (Env (Date 2024 1 1) (fun _ _ => DNaN) (fun _ _ => DNaN)) [] x' C') as [_ ->]. reflexivity.
Qed.
Lemma opposite_rewrite E d l r op op' dt dt' : In (op, op') opposites -> bool_eval E d (no (NCmp l r op dt)) = bool_eval E d (NCmp l r op' dt').
Proof.
  intros H. unfold no. rewrite eval_not. assert (X : forall o u, bool_eval E d (NCmp l r o u) = bool_eval E d (cond l o r)) by reflexivity.
  rewrite (X op), (X op'). destruct (complement E d l r) as (C1 & C2 & C3).
  cbn in H. destruct H as [H|[H|[H|[H|[H|[H|[]]]]]]]; injection H as <- <-; rewrite ?C1, ?C2, ?C3; clear; destruct (bool_eval E d _) as [[]|]; reflexivity.
Qed.
Lemma rewrites_sound x y : rewrites x y -> forall E d, bool_eval E d x = bool_eval E d y.
Proof.
  induction 1 as [x|x y H IH|x y z H1 IH1 H2 IH2|x x' y y' H1 IH1 H2 IH2|x x' y y' H1 IH1 H2 IH2|x x' H IH|x x' op y dt dt' H H0 R IH|x op y y' dt dt' H H0 R IH| | | | | | | | | | | | | | | | | | | | | | | | ]; intros E d; auto; unfold both, any, no in *.
  - rewrite IH1; auto.
  - rewrite !eval_and, IH1, IH2. reflexivity.
  - rewrite !eval_or, IH1, IH2. reflexivity.
  - rewrite !eval_not, IH. reflexivity.
  - rewrite !cmp_unfold. rewrite (proj1 (conditional_value E d x H)), (proj1 (conditional_value E d x' H0)), IH.
    rewrite (conditional_null_l x x' y op H H0). reflexivity.
  - rewrite !cmp_unfold. rewrite (proj1 (conditional_value E d y H)), (proj1 (conditional_value E d y' H0)), IH.
    rewrite (conditional_null_r y y' x op H H0). reflexivity.
  - rewrite !eval_not. destruct (bool_eval E d x) as [[]|]; reflexivity.
  - rewrite !eval_not, eval_and, eval_or, !eval_not. destruct (bool_eval E d x) as [[]|]; auto. 
  - rewrite !eval_not, eval_and, eval_or, !eval_not. destruct (bool_eval E d x) as [[]|]; auto.
  - apply opposite_rewrite; auto.
  - rewrite !eval_and. destruct (bool_eval E d x) as [[]|]; auto.
  - rewrite !eval_or. destruct (bool_eval E d x) as [[]|]; auto.
  - rewrite eval_and. destruct (bool_eval E d x) as [[]|]; auto.
  - rewrite eval_or. destruct (bool_eval E d x) as [[]|]; auto.
  - rewrite eval_and, eval_or. destruct (bool_eval E d x) as [[]|]; auto.
  - rewrite eval_or, eval_and. destruct (bool_eval E d x) as [[]|]; auto.
  - rewrite !eval_and, !eval_or, !eval_and. destruct (bool_eval E d x) as [[]|]; auto.
  - rewrite !eval_or, !eval_and, !eval_or. destruct (bool_eval E d x) as [[]|]; auto.
  - rewrite eval_and. destruct (bool_eval E d x) as [[]|]; auto.
  - rewrite eval_or. destruct (bool_eval E d x) as [[]|]; auto.
  - eapply range_rewrite; eauto.
  - apply in_rewrite; auto.
  - apply (contains_rewrite E d f false); auto.
  - apply (contains_rewrite E d f true); auto.
Qed.
