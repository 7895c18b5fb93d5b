(** C03 - C05, C11: ranges, lists, null checks. *)
From Coq Require Import QArith ZifyBool.
From Verif Require Import Base JNum BigDec Dates Version Values Ops Funcs Ast Eval JNumFacts SpecNum BigDecFacts NumFacts SpecBool SpecCompare SpecPath BoolFacts CompareFacts VersionFacts OrderFacts ValuesFacts FieldFacts.
Local Open Scope Z_scope.

(** C03 *)
Definition three (t : dtype) : Prop := t = INTEGER \/ t = LONG \/ t = DECIMAL.
(** a converted value and the number it is *)
Definition num_of (x : jval) (q : Q) : Prop :=
  match x with VInt z | VLong z => (q == inject_Z z)%Q | VDec d => (q == dec_value d)%Q | _ => False end.
Definition upward (v : jval) (t : dtype) : Prop :=
  match v with VLong _ => t <> INTEGER | VDec _ => t = DECIMAL | _ => True end.

Lemma convert_reads : forall t v x, three t -> upward v t -> primitive_value t v = Ok x ->
  get_data_type x = t /\ exists q, reads_as v q /\ num_of x q.
Proof.
  assert (G : forall t v x b, three t -> number_of v = Some b -> primitive_value t v = Ok x ->
     (match v with VInt _ | VLong _ | VDec _ => False | _ => True end) -> get_data_type x = t /\ num_of x (dec_value b)).
  { intros t v x b T N P S. unfold primitive_value in P. destruct T as [-> | [-> | ->]]; cbn [get_value] in P.
    - assert (Iv : integer_value v = parse_int (bd_to_plain (bd_strip b))) by (destruct v; try destruct S; try discriminate N; cbn [integer_value]; rewrite N; auto).
      rewrite Iv in P. destruct (parse_int _) as [z|] eqn:Q; [|discriminate]. injection P as <-. split; auto. cbn. apply parse_int_plain_strip in Q. apply Q.
    - assert (Iv : long_value v = parse_long (bd_to_plain (bd_strip b))) by (destruct v; try destruct S; try discriminate N; cbn [long_value]; rewrite N; auto).
      rewrite Iv in P. destruct (parse_long _) as [z|] eqn:Q; [|discriminate]. injection P as <-. split; auto. cbn. apply parse_long_plain_strip in Q. apply Q.
    - assert (Iv : decimal_value v = Some b) by (destruct v; try destruct S; try discriminate N; cbn [decimal_value]; auto).
      rewrite Iv in P. injection P as <-. split; auto. cbn. reflexivity. }
  assert (N0 : forall t v x, three t -> primitive_value t v = Ok x -> (match v with VInt _ | VLong _ | VDec _ => False | _ => True end) -> exists b, number_of v = Some b).
  { intros t v x T P S. destruct (number_of v) as [b|] eqn:N; eauto. exfalso. unfold primitive_value in P.
    destruct T as [-> | [-> | ->]]; cbn [get_value] in P; destruct v; try destruct S;
      cbn [integer_value long_value decimal_value option_map] in P; rewrite ?N in P; cbn in P; discriminate. }
  intros t v x T U P.
  assert (S : (match v with VInt _ | VLong _ | VDec _ => False | _ => True end) \/ (exists z, v = VInt z) \/ (exists z, v = VLong z) \/ (exists b, v = VDec b)).
  { destruct v; auto; right; eauto. }
  destruct S as [S|[[z ->]|[[z ->]|[b ->]]]].
  - destruct (N0 t v x T P S) as [b Nb]. destruct (G t v x b T Nb P S) as [D M]. split; auto. exists (dec_value b). split; auto.
    destruct v; try destruct S; try discriminate Nb; exists b; split; auto; reflexivity.
  - unfold primitive_value in P. destruct T as [-> | [-> | ->]]; cbn [get_value integer_value option_map bind] in P.
    + injection P as <-. split; auto. exists (inject_Z z). split; cbn; reflexivity.
    + cbn [long_value number_of show] in P. rewrite parse_bigdec_print_Z in P. destruct (parse_long _) as [y|] eqn:Q; [|discriminate]. injection P as <-.
      apply parse_long_plain_strip in Q as [Q _]. rewrite dec_of_Z in Q. split; auto. exists (inject_Z z). split; [cbn; reflexivity|exact Q].
    + cbn [decimal_value number_of show] in P. rewrite parse_bigdec_print_Z in P. injection P as <-. split; auto. exists (inject_Z z).
      split; [cbn; reflexivity|]. cbn [num_of]. rewrite dec_of_Z. reflexivity.
  - unfold primitive_value in P. destruct T as [-> | [-> | ->]]; [exfalso; apply U; auto| |]; cbn [get_value long_value option_map bind] in P.
    + injection P as <-. split; auto. exists (inject_Z z). split; cbn; reflexivity.
    + cbn [decimal_value number_of show] in P. rewrite parse_bigdec_print_Z in P. injection P as <-. split; auto. exists (inject_Z z).
      split; [cbn; reflexivity|]. cbn [num_of]. rewrite dec_of_Z. reflexivity.
  - cbn in U. subst t. injection P as <-. split; auto. exists (dec_value b). split; cbn; reflexivity.
Qed.

Lemma compare_num_of : forall x y p q, num_of x p -> num_of y q -> get_data_type x = get_data_type y -> three (get_data_type x) -> compare_to x y = Ok (p ?= q)%Q.
Proof.
  intros x y p q Hx Hy T _. destruct x, y; try contradiction Hx; try contradiction Hy; try discriminate T; cbn in *; f_equal.
  - rewrite Hx, Hy. symmetry. apply inject_Z_compare.
  - rewrite Hx, Hy. symmetry. apply inject_Z_compare.
  - rewrite Hx, Hy. apply dec_compare.
Qed.

Lemma reads_unique : forall v p q, reads_as v p -> reads_as v q -> (p == q)%Q.
Proof.
  intros v p q Hp Hq. destruct v; cbn in *; try tauto; try (rewrite Hp, Hq; reflexivity);
    destruct Hp as (a1 & A1 & A2), Hq as (b1 & B1 & B2); rewrite A1 in B1; injection B1 as <-; rewrite A2, B2; reflexivity.
Qed.
Lemma number_reads : forall v q, number v q -> reads_as v q.
Proof.
  intros v q H. destruct H; cbn; auto. destruct (float_parses t q H) as (d & P & Q). exists d. split; auto. symmetry; auto.
Qed.

Lemma bound_type : forall v t q, bound v t q -> three t.
Proof. intros v t q [N ->]. destruct (number_dtype v q N) as [->|[->| ->]]; unfold three; auto. Qed.

Lemma ordering_three : forall tv t, three t -> three (ordering_type tv t) /\ (tv = DECIMAL -> ordering_type tv t = DECIMAL) /\ (tv = LONG -> ordering_type tv t <> INTEGER).
Proof. unfold three. intros tv t [->|[->| ->]]; destruct tv; cbn; repeat split; auto; discriminate. Qed.
Lemma ordering_three_r : forall tv t, three t -> (t = DECIMAL -> ordering_type tv t = DECIMAL) /\ (t = LONG -> ordering_type tv t <> INTEGER).
Proof. unfold three. intros tv t [->|[->| ->]]; destruct tv; cbn; repeat split; auto; discriminate. Qed.

Lemma bound_op : forall op test v lo t p b, (op = GREATER_THAN_EQUAL /\ test = is_ge \/ op = LESS_THAN_EQUAL /\ test = is_le) -> bound lo t p ->
  evaluate_logical op PRIMITIVE v (get_data_type v) [(lo, t)] = Ok b -> exists x, reads_as v x /\ b = test (x ?= p)%Q.
Proof.
  intros op test v lo t p b Hop B H. pose proof (bound_type _ _ _ B) as T. destruct B as [N ->].
  assert (E : eval_ordering test v (get_data_type v) (lo, get_data_type lo) = Ok b).
  { unfold evaluate_logical in H. destruct (negb (is_logical op)); [discriminate|]. destruct (negb _); [discriminate|]. destruct (negb _); [discriminate|].
    destruct (container_is_valid _ _ _) as [[]|]; cbn [bind negb] in H; try discriminate. destruct (negb _); [discriminate|].
    destruct Hop as [[-> ->]|[-> ->]]; exact H. }
  unfold eval_ordering in E. cbn [fst snd] in E. destruct (ordering_validate _ _ _ _); [|discriminate]. cbn [bind] in E.
  unfold compare_as in E. destruct (ordering_three (get_data_type v) _ T) as (T1 & T2 & T3). destruct (ordering_three_r (get_data_type v) _ T) as (R2 & R3).
  set (ty := ordering_type _ _) in *.
  destruct (primitive_value ty v) as [x|] eqn:Px; [|discriminate]. cbn [bind] in E.
  destruct (primitive_value ty lo) as [y|] eqn:Py; [|discriminate]. cbn [bind] in E.
  apply convert_reads in Px as (Tx & q & Hq & Nq); auto; [|unfold upward; destruct v; auto].
  apply convert_reads in Py as (Ty & q' & Hq' & Nq'); auto; [|unfold upward; destruct lo; auto].
  rewrite (compare_num_of x y q q' Nq Nq') in E by (rewrite Tx; auto). cbn [bind] in E. injection E as <-.
  exists q. split; auto. f_equal. apply Qcompare_comp; [reflexivity|]. symmetry. eapply reads_unique; eauto. apply number_reads; auto.
Qed.

Lemma range_success : forall E d f lo hi t1 t2 p q b, bound lo t1 p -> bound hi t2 q ->
  bool_eval E d (NRange (Some f) lo hi t1 t2) = Ok b ->
  exists v x, arith_eval E d (NField (Some f)) = Ok v /\ reads_as v x /\ b = (Qle_bool p x && Qle_bool x q).
Proof.
  intros E d f lo hi t1 t2 p q b B1 B2 H. cbn [bool_eval] in H. cbn [arith_eval].
  destruct (field_value_or_fail (Some f) d) as [v|] eqn:F; [|discriminate]. cbn [bind] in H.
  destruct (evaluate_logical GREATER_THAN_EQUAL _ _ _ _) as [a|] eqn:A; [|discriminate]. cbn [bind] in H.
  destruct (evaluate_logical LESS_THAN_EQUAL _ _ _ _) as [c|] eqn:C; [|discriminate]. cbn [bind] in H. injection H as <-.
  destruct (bound_op GREATER_THAN_EQUAL is_ge v lo t1 p a) as (x & Hx & ->); auto.
  destruct (bound_op LESS_THAN_EQUAL is_le v hi t2 q c) as (y & Hy & ->); auto.
  exists v, x. split; auto. split; auto. rewrite !Qle_bool_compare. rewrite (reads_unique v y x Hy Hx). rewrite <- (Qcompare_antisym x p).
  destruct (x ?= p)%Q, (x ?= q)%Q; reflexivity.
Qed.

Lemma range_numeric : forall E d f lo hi t1 t2 p q v x, bound lo t1 p -> bound hi t2 q ->
  arith_eval E d (NField (Some f)) = Ok v -> number v x ->
  bool_eval E d (NRange (Some f) lo hi t1 t2) = Ok (Qle_bool p x && Qle_bool x q).
Proof.
  intros E d f lo hi t1 t2 p q v x [N1 ->] [N2 ->] F Hx. cbn [bool_eval]. cbn [arith_eval] in F. rewrite F. cbn [bind].
  rewrite (logical_numbers GREATER_THAN_EQUAL v lo x p (Qle_bool p x)) by auto. cbn [bind].
  rewrite (logical_numbers LESS_THAN_EQUAL v hi x q (Qle_bool x q)) by auto. reflexivity.
Qed.

Lemma range_reversed : forall E d f lo hi t1 t2 p q, bound lo t1 p -> bound hi t2 q -> (q < p)%Q ->
  bool_eval E d (NRange (Some f) lo hi t1 t2) <> Ok true.
Proof.
  intros E d f lo hi t1 t2 p q B1 B2 L H. destruct (range_success _ _ _ _ _ _ _ _ _ _ B1 B2 H) as (v & x & _ & _ & E2).
  symmetry in E2. apply andb_true_iff in E2 as [A B]. apply Qle_bool_iff in A, B. apply (Qlt_not_le _ _ L). eapply Qle_trans; eauto.
Qed.

(** C04 *)
Lemma item_values : forall E d items vs, Forall2 (fun i v => arith_eval E d i = Ok v) items vs -> mapM (item_eval E d) items = Ok vs.
Proof.
  intros E d items vs H. induction H as [|i v is vs Hi _ IH]; auto. cbn. unfold item_eval at 1. rewrite (arith_ok_base _ _ _ _ Hi), Hi. cbn. rewrite IH. reflexivity.
Qed.
Lemma flatten_members : forall vs, flat_map flatten_one vs = flat_map members vs.
Proof. reflexivity. Qed.

Lemma mem_all : forall t, mem_type t all_types = true. Proof. destruct t; reflexivity. Qed.
Lemma forallb_all : forall ms, forallb (fun r : evaluated => mem_type (snd r) all_types) ms = true.
Proof. induction ms; auto. cbn [forallb]. rewrite mem_all. auto. Qed.
Lemma is_valid_own : forall v, v <> VNull -> exists b, is_valid (get_data_type v) v = Ok b.
Proof. intros v H. destruct (own_type_cases v H) as [->|[-> ->]]; eauto. Qed.

Lemma in_logical : forall v rs, evaluate_logical IN_OP PRIMITIVE v (get_data_type v) rs =
  (x <- is_valid (get_data_type v) v ;; if x then eval_in v (get_data_type v) rs else Err InvalidDataType).
Proof.
  intros. unfold evaluate_logical. cbn [is_logical negb logical_container container_eqb logical_types container_is_valid]. rewrite mem_all, forallb_all. cbn [negb].
  destruct (is_valid (get_data_type v) v) as [[]|]; reflexivity.
Qed.
Lemma equals_logical : forall v w, evaluate_logical EQUALS PRIMITIVE v (get_data_type v) [(w, get_data_type w)] =
  (x <- is_valid (get_data_type v) v ;; if x then eval_equals v (get_data_type v) (w, get_data_type w) else Err InvalidDataType).
Proof.
  intros. unfold evaluate_logical. cbn [is_logical negb logical_container container_eqb logical_types container_is_valid]. rewrite mem_all, forallb_all. cbn [negb].
  destruct (is_valid (get_data_type v) v) as [[]|]; reflexivity.
Qed.

Definition test_of (f : jstr) (m : jval) : node := cond (NField (Some f)) EQUALS (lit m).
Lemma chain_eval : forall E d f v m ms, yields E d (NField (Some f)) v -> m <> VNull -> ~ In VNull ms ->
  bool_eval E d (or_chain (test_of f m) (map (test_of f) ms)) =
  (x <- is_valid (get_data_type v) v ;; if x then eval_in v (get_data_type v) (map (fun v => (v, get_data_type v)) (m :: ms)) else Err InvalidDataType).
Proof.
  intros E d f v m ms Y. revert m. induction ms as [|m' ms IH]; intros m Hm Hn.
  - cbn [map or_chain]. unfold test_of. rewrite (cond_yields _ _ _ _ _ _ _ Y (yields_lit E d m Hm)), equals_logical.
    destruct (is_valid _ v) as [[]|]; auto. cbn [bind]. unfold eval_in. cbn. destruct (eval_equals _ _ _) as [[]|]; reflexivity.
  - cbn [map or_chain]. rewrite eval_or. rewrite IH by (intros X; apply Hn; cbn; auto).
    unfold test_of at 1. rewrite (cond_yields _ _ _ _ _ _ _ Y (yields_lit E d m Hm)), equals_logical.
    destruct (is_valid _ v) as [[]|]; auto.
Qed.
Lemma in_disjunction : forall E d f v items m ms, yields E d (NField (Some f)) v -> list_members E d items (m :: ms) ->
  bool_eval E d (NIn (Some f) items) = bool_eval E d (or_chain (test_of f m) (map (test_of f) ms)).
Proof.
  intros E d f v items m ms Y (vs & H & Em & Hn). rewrite (chain_eval E d f v m ms Y) by (intros X; apply Hn; cbn; auto).
  rewrite in_unfold. destruct Y as (Y & _). cbn [arith_eval] in Y. rewrite Y. cbn [bind]. rewrite (item_values _ _ _ _ H). cbn [bind].
  rewrite in_logical. unfold map_to_evaluated. rewrite flatten_members, <- Em. reflexivity.
Qed.
Lemma in_empty : forall E d f v items, yields E d (NField (Some f)) v -> (forall b t, v <> VFloat b t) -> list_members E d items [] ->
  bool_eval E d (NIn (Some f) items) = Ok false.
Proof.
  intros E d f v items Y Hf (vs & H & Em & Hn). rewrite in_unfold. destruct Y as (Y & Hv & _). cbn [arith_eval] in Y. rewrite Y. cbn [bind].
  rewrite (item_values _ _ _ _ H). cbn [bind]. rewrite in_logical. rewrite own_type_valid by auto. unfold map_to_evaluated. rewrite flatten_members, <- Em. reflexivity.
Qed.
Lemma anyM_existsb : forall A (f : A -> res bool) (g : A -> bool) l, (forall a, In a l -> f a = Ok (g a)) -> anyM f l = Ok (existsb g l).
Proof.
  induction l as [|a l IH]; intros H; auto. cbn. rewrite (H a) by (left; auto). cbn. destruct (g a); auto. apply IH. intros; apply H; right; auto.
Qed.
Lemma allM_forallb : forall A (f : A -> res bool) (g : A -> bool) l, (forall a, In a l -> f a = Ok (g a)) -> allM f l = Ok (forallb g l).
Proof.
  induction l as [|a l IH]; intros H; auto. cbn. rewrite (H a) by (left; auto). cbn. destruct (g a); auto. apply IH. intros; apply H; right; auto.
Qed.
Lemma in_set : forall E d f v items1 items2 ms1 ms2, yields E d (NField (Some f)) v ->
  list_members E d items1 ms1 -> list_members E d items2 ms2 -> (forall m, In m ms1 <-> In m ms2) ->
  (forall m, In m ms1 -> exists b, bool_eval E d (test_of f m) = Ok b) ->
  bool_eval E d (NIn (Some f) items1) = bool_eval E d (NIn (Some f) items2).
Proof.
  intros E d f v items1 items2 ms1 ms2 Y (vs1 & F1 & E1 & N1) (vs2 & F2 & E2 & N2) S T.
  rewrite !in_unfold. pose proof Y as (Y1 & _). cbn [arith_eval] in Y1. rewrite Y1. cbn [bind].
  rewrite (item_values _ _ _ _ F1), (item_values _ _ _ _ F2). cbn [bind]. rewrite !in_logical.
  unfold map_to_evaluated. rewrite (flatten_members vs1), (flatten_members vs2), <- E1, <- E2.
  destruct (is_valid_own v (proj1 (proj2 Y))) as [[] V]; rewrite V; auto. cbn [bind].
  set (g := fun e : evaluated => match eval_equals v (get_data_type v) e with Ok true => true | _ => false end).
  assert (G : forall ms, (forall m, In m ms -> In m ms1) -> forall e, In e (map (fun v => (v, get_data_type v)) ms) -> eval_equals v (get_data_type v) e = Ok (g e)).
  { intros ms Hs e I. apply in_map_iff in I as (m & <- & I). destruct (T m (Hs m I)) as [b Hb]. unfold test_of in Hb.
    assert (Nm : m <> VNull) by (intros ->; apply N1; auto).
    rewrite (cond_yields _ _ _ _ _ _ _ Y (yields_lit E d m Nm)), equals_logical, V in Hb. cbn [bind] in Hb. unfold g. rewrite Hb. destruct b; reflexivity. }
  unfold eval_in. rewrite (anyM_existsb _ _ g _ (G ms1 (fun m I => I))), (anyM_existsb _ _ g _ (G ms2 (fun m I => proj2 (S m) I))).
  f_equal. apply eq_true_iff_eq. rewrite !existsb_exists. split; intros (e & I & H); exists e; split; auto;
    apply in_map_iff in I as (m & <- & I); apply in_map_iff; exists m; split; auto; apply S; auto.
Qed.

(** C05 *)
Lemma text_equal : forall r t a, r <> VNull -> a <> VNull -> eval_equals r t (a, STRING) = Ok (same_text r a).
Proof.
  intros r t a Hr Ha. unfold eval_equals, compare_as. cbn [fst snd].
  assert (T : equality_type t STRING = STRING) by (destruct t; reflexivity). rewrite T.
  assert (P : forall v, v <> VNull -> primitive_value STRING v = Ok (VStr (show v))).
  { intros v Hv. unfold primitive_value, get_value, get_string, to_string. destruct v; try congruence; reflexivity. }
  rewrite !P by auto. cbn [bind compare_to]. unfold same_text. destruct (jstr_compare (show r) (show a)) eqn:C; f_equal; symmetry.
  - apply jstr_eqb_iff, jstr_compare_eq; auto.
  - destruct (jstr_eqb (show r) (show a)) eqn:X; auto. apply jstr_eqb_iff in X. rewrite X, jstr_compare_refl in C. discriminate.
  - destruct (jstr_eqb (show r) (show a)) eqn:X; auto. apply jstr_eqb_iff in X. rewrite X, jstr_compare_refl in C. discriminate.
Qed.
Lemma allM_true : forall A (f : A -> res bool) l, (forall a, f a = Ok true) -> allM f l = Ok true.
Proof. induction l; intros H; auto. cbn. rewrite H. cbn. auto. Qed.
Lemma heterogeneous_false : forall ms t, (forall m, In m ms -> get_data_type m = t) -> heterogeneous (map (fun v => (v, get_data_type v)) ms) = false.
Proof.
  intros [|m ms] t H; auto. cbn. apply negb_false_iff. apply forallb_forall. intros e I. apply in_map_iff in I as (x & <- & I). cbn [snd].
  rewrite (H x) by (right; auto). rewrite (H m) by (left; auto). destruct t; reflexivity.
Qed.
Lemma contains_text : forall E d f op (q : bool) il have items ms t, (op = CONTAINS_ALL /\ q = true \/ op = CONTAINS_ANY /\ q = false) ->
  arith_eval E d (NField (Some f)) = Ok (VColl il have) -> il = true -> ~ In VNull have ->
  list_members E d items ms -> (forall m, In m ms -> get_data_type m = t) ->
  bool_eval E d (NArray (Some f) op items) =
  Ok (if q then forallb (fun m => existsb (same_text m) have) ms else existsb (fun m => existsb (same_text m) have) ms).
Proof.
  intros E d f op q il have items ms t Hop F -> Hn (vs & H & Em & Hm) T. rewrite array_unfold. cbn [arith_eval] in F. rewrite F. cbn [bind].
  rewrite (item_values _ _ _ _ H). cbn [bind]. unfold map_to_evaluated. rewrite flatten_members, <- Em.
  rewrite (heterogeneous_false ms t T). cbn [get_data_type].
  assert (L : evaluate_logical op LIST (VColl true have) STRING (map (fun v => (v, get_data_type v)) ms) =
    eval_contains q (VColl true have) STRING (map (fun v => (v, get_data_type v)) ms)).
  { unfold evaluate_logical. destruct Hop as [[-> ->]|[-> ->]]; cbn [is_logical negb logical_container container_eqb logical_types container_is_valid];
    rewrite mem_all, forallb_all, allM_true by reflexivity; reflexivity. }
  rewrite L. unfold eval_contains. cbn [container_is_valid]. rewrite allM_true by reflexivity. cbn [bind].
  assert (R : forall e, In e (map (fun v => (v, get_data_type v)) ms) ->
     eval_in (fst e) (snd e) (map (fun a => (a, STRING)) have) = Ok ((fun e : evaluated => existsb (same_text (fst e)) have) e)).
  { intros e I. apply in_map_iff in I as (m & <- & I). cbn [fst snd]. unfold eval_in.
    rewrite (anyM_existsb _ _ (fun e : evaluated => same_text m (fst e))).
    - f_equal. clear. induction have; auto. cbn. rewrite IHhave. reflexivity.
    - intros e J. apply in_map_iff in J as (a & <- & J). apply text_equal; intros X; [apply Hm|apply Hn]; rewrite <- X; assumption. }
  destruct q.
  - cbv zeta. etransitivity; [apply (allM_forallb _ _ _ _ R)|]. f_equal. clear. induction ms; auto. cbn. rewrite IHms. reflexivity.
  - cbv zeta. etransitivity; [apply (anyM_existsb _ _ _ _ R)|]. f_equal. clear. induction ms; auto. cbn. rewrite IHms. reflexivity.
Qed.
Lemma contains_heterogeneous : forall E d f op items ms v a b, arith_eval E d (NField (Some f)) = Ok v ->
  list_members E d items ms -> In a ms -> In b ms -> get_data_type a <> get_data_type b ->
  bool_eval E d (NArray (Some f) op items) = Err HeterogeneousArray.
Proof.
  intros E d f op items ms v a b F (vs & H & Em & Hm) Ia Ib T. rewrite array_unfold. cbn [arith_eval] in F. rewrite F. cbn [bind].
  rewrite (item_values _ _ _ _ H). cbn [bind]. unfold map_to_evaluated. rewrite flatten_members, <- Em.
  destruct (heterogeneous _) eqn:X; auto. exfalso. destruct ms as [|m ms]; [destruct Ia|]. cbn in X. apply negb_false_iff in X. rewrite forallb_forall in X.
  assert (A : forall x, In x (m :: ms) -> get_data_type x = get_data_type m).
  { intros x [<-|I]; auto. specialize (X (x, get_data_type x)). cbn in X. assert (D : dtype_eqb (get_data_type x) (get_data_type m) = true).
    { apply X. apply in_map_iff. exists x. auto. } destruct (get_data_type x), (get_data_type m); auto; discriminate D. }
  apply T. rewrite (A a), (A b); auto.
Qed.

(** C11 *)
Definition printable (v : jval) : Prop := forall b t, v = VFloat b t -> exists q, float_text t q.
Lemma printable_valid : forall v, v <> VNull -> printable v -> is_valid (get_data_type v) v = Ok true.
Proof.
  intros v Hv P. destruct v as [| | | | |b t| | | | | | | |]; try (apply own_type_valid; [auto|intros ? ? H; discriminate H]).
  destruct (P b t eq_refl) as [q Hq]. eapply number_valid. apply number_float; eauto.
Qed.
Lemma null_equal : forall v, v <> VNull -> printable v -> evaluate_logical EQUALS PRIMITIVE v (get_data_type v) [(VStr (J "null"), STRING)] = Ok (jstr_eqb (show v) (J "null")).
Proof.
  intros v Hv P. change STRING with (get_data_type (VStr (J "null"))) at 1. rewrite equals_logical. rewrite printable_valid by auto. cbn [bind].
  change (get_data_type (VStr (J "null"))) with STRING. rewrite text_equal by (auto; discriminate). reflexivity.
Qed.
Lemma null_word_field : forall w, to_lower w = J "null" -> node_is_null_field (NField (Some w)) = Ok true.
Proof. intros w H. cbn. unfold equals_ignore_case. rewrite H. reflexivity. Qed.
Lemma null_check_value : forall E d ks w, proper_data d -> ks <> [] -> Forall component ks -> to_lower w = J "null" ->
  (forall v, found d ks v -> printable v) ->
  exists b, bool_eval E d (cond (NField (Some (path_text ks))) EQUALS (NField (Some w))) = Ok b /\
            bool_eval E d (cond (NField (Some (path_text ks))) NOT_EQUAL (NField (Some w))) = Ok (negb b) /\
            (b = true <-> (forall v, ~ found d ks v) \/ exists v, found d ks v /\ show v = J "null").
Proof.
  intros E d ks w P Hn C Hw Pr.
  assert (Eq : exists b, bool_eval E d (cond (NField (Some (path_text ks))) EQUALS (NField (Some w))) = Ok b /\
     (b = true <-> (forall v, ~ found d ks v) \/ exists v, found d ks v /\ show v = J "null")).
  { unfold cond. rewrite cmp_unfold. cbn [operand_value is_arith_base field_value]. unfold is_null_check. rewrite null_word_field by auto. cbn [bind].
    pose proof (field_found E d ks) as FF. pose proof (field_absent E d ks P Hn C) as FA. cbn [arith_eval] in FF, FA. unfold field_value_or_fail in FF, FA. cbn [field_value] in FF, FA.
    unfold get_value_from_map in *. rewrite component_split in * by auto. destruct (get_path_total ks d Hn) as [[v|] G]; rewrite G in *; cbn [bind] in *.
    - assert (Fv : found d ks v) by (apply FF; auto). assert (Nv : v <> VNull).
      { clear -Fv. induction Fv; auto. }
      exists (jstr_eqb (show v) (J "null")). split; [exact (null_equal v Nv (Pr v Fv))|]. rewrite jstr_eqb_iff. split.
      + intros X. right. eauto.
      + intros [X|(v' & Fv' & X)]; [exfalso; eapply X; eauto|]. apply FF in Fv'; auto. congruence.
    - exists true. split; [reflexivity|]. split; auto. intros _. left. apply FA. reflexivity. }
  destruct Eq as (b & E1 & E2). exists b. split; auto. split; auto. rewrite (proj1 (complement E d _ _)), E1. reflexivity.
Qed.
Lemma null_left_true : forall E d w r, to_lower w = J "null" -> (forall v, ~ In (w, v) d) -> r <> NField None ->
  bool_eval E d (cond (NField (Some w)) EQUALS r) = Ok true.
Proof.
  intros E d w r Hw Ha Hr. unfold cond. rewrite cmp_unfold. cbn [operand_value is_arith_base field_value].
  assert (S : split_path w = [w]).
  { assert (Dw : ~ In (ch ".") w).
    { assert (L : forall c, In c w -> In (lower_char c) (J "null")) by (intros c I; rewrite <- Hw; apply in_map; auto).
      intros I. specialize (L _ I). cbn in L. repeat destruct L as [L|L]; try discriminate L; auto. }
    unfold split_path. rewrite split_dots_word by auto. reflexivity. }
  assert (G : get_value_from_map w d = Ok None).
  { unfold get_value_from_map. rewrite S. cbn [get_path]. f_equal. clear -Ha. induction d as [|[k v] d IH]; auto. cbn. destruct (jstr_eqb k w) eqn:X.
    - apply jstr_eqb_iff in X. subst. exfalso. apply (Ha v). left; auto.
    - apply IH. intros v0 I. apply (Ha v0). right; auto. }
  rewrite G. cbn [bind]. unfold is_null_check. destruct (node_is_null_field r) as [[]|] eqn:R; cbn [bind].
  - reflexivity.
  - rewrite null_word_field by auto. reflexivity.
  - exfalso. destruct r; try discriminate R. destruct field; [discriminate R|congruence].
Qed.

(** ALL and ANY on one requested element; monotonicity.  (Stated on whole evaluations.) *)
Lemma forallb_cons_mono : forall A (p : A -> bool) ms extra, forallb p (ms ++ extra) = true -> forallb p ms = true.
Proof. intros A p ms extra H. rewrite forallb_app in H. apply andb_true_iff in H as [H _]. exact H. Qed.
Lemma contains_monotone : forall E d f have items1 items2 ms1 ms2 t,
  arith_eval E d (NField (Some f)) = Ok (VColl true have) -> ~ In VNull have ->
  list_members E d items1 ms1 -> list_members E d items2 ms2 -> (forall m, In m ms2 -> get_data_type m = t) ->
  (forall m, In m ms1 -> In m ms2) ->
  (bool_eval E d (NArray (Some f) CONTAINS_ALL items2) = Ok true -> bool_eval E d (NArray (Some f) CONTAINS_ALL items1) = Ok true) /\
  (bool_eval E d (NArray (Some f) CONTAINS_ANY items1) = Ok true -> bool_eval E d (NArray (Some f) CONTAINS_ANY items2) = Ok true).
Proof.
  intros E d f have items1 items2 ms1 ms2 t F Hn L1 L2 T S.
  assert (T1 : forall m, In m ms1 -> get_data_type m = t) by auto.
  rewrite !(contains_text E d f CONTAINS_ALL true true have) with (t := t) (ms := ms2) (items := items2) by auto.
  rewrite !(contains_text E d f CONTAINS_ALL true true have) with (t := t) (ms := ms1) (items := items1) by auto.
  rewrite !(contains_text E d f CONTAINS_ANY false true have) with (t := t) (ms := ms1) (items := items1) by auto.
  rewrite !(contains_text E d f CONTAINS_ANY false true have) with (t := t) (ms := ms2) (items := items2) by auto.
  split; intros H; injection H as H; f_equal.
  - rewrite forallb_forall in *. auto.
  - rewrite existsb_exists in *. destruct H as (m & I & H). eauto.
Qed.
Lemma contains_both : forall E d f have items ms t, arith_eval E d (NField (Some f)) = Ok (VColl true have) -> ~ In VNull have ->
  list_members E d items ms -> (forall m, In m ms -> get_data_type m = t) ->
  (bool_eval E d (NArray (Some f) CONTAINS_ALL items) = Ok (forallb (fun m => existsb (same_text m) have) ms)) /\
  (bool_eval E d (NArray (Some f) CONTAINS_ANY items) = Ok (existsb (fun m => existsb (same_text m) have) ms)).
Proof.
  intros E d f have items ms t F Hn L T. split.
  - apply (contains_text E d f CONTAINS_ALL true true have) with (t := t); auto.
  - apply (contains_text E d f CONTAINS_ANY false true have) with (t := t); auto.
Qed.
Lemma contains_one : forall E d f have items m, arith_eval E d (NField (Some f)) = Ok (VColl true have) -> ~ In VNull have ->
  list_members E d items [m] ->
  bool_eval E d (NArray (Some f) CONTAINS_ALL items) = bool_eval E d (NArray (Some f) CONTAINS_ANY items).
Proof.
  intros E d f have items m F Hn L. destruct (contains_both E d f have items [m] (get_data_type m) F Hn L) as [-> ->].
  - intros x [<-|[]]; auto.
  - cbn. rewrite andb_true_r, orb_false_r. reflexivity.
Qed.
(** C04: NOT IN is parsed as NOT of IN (C37), so: *)
Lemma not_in : forall E d f items, bool_eval E d (NBool (NIn (Some f) items) None NOT) = fmap negb (bool_eval E d (NIn (Some f) items)).
Proof. intros. apply eval_not. Qed.
(** C11: a NaN field makes its null check fail. *)
Lemma null_check_nan : exists E d f, bool_eval E d (cond (NField (Some f)) EQUALS (NField (Some (J "null")))) = Err InvalidDataType.
Proof. exists (Env (Date 2024 1 1) (fun _ _ => DNaN) (fun _ _ => DNaN)), [(J "f", VFloat true (J "NaN"))], (J "f"). vm_compute. reflexivity. Qed.
Lemma null_check_found : forall E d ks w, proper_data d -> ks <> [] -> Forall component ks -> to_lower w = J "null" ->
  (forall b t, found d ks (VFloat b t) -> exists q, float_text t q) ->
  exists b, bool_eval E d (cond (NField (Some (path_text ks))) EQUALS (NField (Some w))) = Ok b /\
            bool_eval E d (cond (NField (Some (path_text ks))) NOT_EQUAL (NField (Some w))) = Ok (negb b) /\
            (b = true <-> (forall v, ~ found d ks v) \/ exists v, found d ks v /\ show v = J "null").
Proof. intros E d ks w P Hn C Hw Hf. apply null_check_value; auto. intros v F b t ->. eauto. Qed.
