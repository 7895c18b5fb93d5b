(** C65: the order of the arguments of a function. *)
From Coq Require Import QArith Permutation Sorted.
From Verif Require Import Base JNum BigDec Dates Values Ops Funcs Ast Eval Lexer Grammar Listener Api JNumFacts SpecNum BigDecFacts NumFacts SpecCompare SpecArith SpecFunc
  OrderFacts ValuesFacts MemberFacts FuncFacts SpecTight SpecSyntax SpecText OddText SpecOrder.
Local Open Scope Z_scope.

Lemma same_refl r : same_outcome r r. Proof. left. reflexivity. Qed.
Lemma decimal_same r s q : decimal_result r q -> decimal_result s q -> same_outcome r s.
Proof.
  intros R S. destruct R as [z q Hz F|z q Hz F|x q Hx V]; inversion S as [y ? Hy G|y ? Hy G|y ? Hy W]; subst.
  - left. rewrite Hz in Hy. apply (proj1 (inject_Z_injective _ _)) in Hy. subst. reflexivity.
  - exfalso. rewrite Hz in Hy. apply (proj1 (inject_Z_injective _ _)) in Hy. subst. auto.
  - exfalso. exact (Hy z Hz).
  - exfalso. rewrite Hz in Hy. apply (proj1 (inject_Z_injective _ _)) in Hy. subst. auto.
  - left. reflexivity.
  - exfalso. exact (Hy z Hz).
  - exfalso. exact (Hx _ Hy).
  - exfalso. exact (Hx _ Hy).
  - right. exists x, y. rewrite V, W. repeat split; reflexivity.
Qed.
Lemma cast_same a b : (dec_value a == dec_value b)%Q -> same_outcome (cast_decimal a) (cast_decimal b).
Proof. intros H. apply (decimal_same _ _ (dec_value b)); apply cast_decimal_result; [exact H|reflexivity]. Qed.

(** Collecting the values *)
Lemma mapM_Forall2 A B (f : A -> res B) l ys : mapM f l = Ok ys <-> Forall2 (fun a y => f a = Ok y) l ys.
Proof.
  revert ys. induction l as [|a l IH]; intros ys; cbn; split; intros H.
  - injection H as <-. constructor.
  - inversion H. reflexivity.
  - destruct (f a) eqn:F; [|discriminate]. cbn in H. destruct (mapM f l) eqn:M; [|discriminate]. injection H as <-. constructor; auto. apply IH. reflexivity.
  - inversion H as [|? y ? ys' Ha Hl]; subst. rewrite Ha. cbn. apply IH in Hl. rewrite Hl. reflexivity.
Qed.
Lemma mapM_only A B (f : A -> res B) e0 l e : (forall a e, f a = Err e -> e = e0) -> mapM f l = Err e -> e = e0.
Proof.
  intros H. revert e. induction l as [|a l IH]; intros e M; [discriminate|]. cbn in M. destruct (f a) eqn:F; cbn in M.
  - destruct (mapM f l); [discriminate|]. injection M as <-. auto.
  - injection M as <-. eauto.
Qed.
Lemma mapM_perm A B (f : A -> res B) e0 l l' : (forall a e, f a = Err e -> e = e0) -> Permutation l l' ->
  (exists ys ys', mapM f l = Ok ys /\ mapM f l' = Ok ys' /\ Permutation ys ys') \/ (mapM f l = Err e0 /\ mapM f l' = Err e0).
Proof.
  intros H P. destruct (mapM f l) as [ys|e] eqn:M.
  - left. apply mapM_Forall2 in M. destruct (perm_Forall2 _ _ _ _ _ P _ M) as (ys' & Py & M'). apply mapM_Forall2 in M'. eauto.
  - right. rewrite (mapM_only _ _ f e0 l e H M). split; auto. destruct (mapM f l') as [ys'|e'] eqn:M'.
    + apply mapM_Forall2 in M'. destruct (perm_Forall2 _ _ _ _ _ (Permutation_sym P) _ M') as (ys & _ & M2). apply mapM_Forall2 in M2. congruence.
    + rewrite (mapM_only _ _ f e0 l' e' H M'). reflexivity.
Qed.
Lemma opt_get_only A (o : option A) e : opt_get o = Err e -> e = NoSuchElement.
Proof. destruct o; cbn; congruence. Qed.
Lemma decimals_perm l l' : Permutation l l' ->
  (exists ys ys', decimals l = Ok ys /\ decimals l' = Ok ys' /\ Permutation ys ys') \/ (decimals l = Err NoSuchElement /\ decimals l' = Err NoSuchElement).
Proof. apply mapM_perm. intros a e. apply opt_get_only. Qed.
Lemma longs_perm l l' : Permutation l l' ->
  (exists ys ys', longs l = Ok ys /\ longs l' = Ok ys' /\ Permutation ys ys') \/ (longs l = Err NoSuchElement /\ longs l' = Err NoSuchElement).
Proof. apply mapM_perm. intros a e. apply opt_get_only. Qed.
Lemma ints_perm l l' : Permutation l l' ->
  (exists ys ys', ints l = Ok ys /\ ints l' = Ok ys' /\ Permutation ys ys') \/ (ints l = Err NoSuchElement /\ ints l' = Err NoSuchElement).
Proof. apply mapM_perm. intros a e. apply opt_get_only. Qed.

Lemma existsb_perm A (p : A -> bool) l l' : Permutation l l' -> existsb p l = existsb p l'.
Proof. intros P. apply eq_true_iff_eq. rewrite !existsb_exists. split; intros (x & I & H); exists x; split; auto; [exact (Permutation_in x P I)|exact (Permutation_in x (Permutation_sym P) I)]. Qed.
Lemma forallb_perm A (p : A -> bool) l l' : Permutation l l' -> forallb p l = forallb p l'.
Proof. intros P. apply eq_true_iff_eq. rewrite !forallb_forall. split; intros H x I; apply H; [exact (Permutation_in x (Permutation_sym P) I)|exact (Permutation_in x P I)]. Qed.

Lemma has_type_perm t l l' : Permutation l l' -> has_type t l = has_type t l'.
Proof. intros P. apply existsb_perm, P. Qed.

(** Least and greatest *)
Lemma reflexive_values ds : Forall2 (fun d q => (dec_value d == q)%Q) ds (map dec_value ds).
Proof. induction ds; constructor; auto. reflexivity. Qed.
Lemma reduce_extreme f (R : Q -> Q -> Prop) ds ds' : 
  (forall p, R p p) -> (forall p q r, R p q -> R q r -> R p r) -> (forall p p' q q', (p == p')%Q -> (q == q')%Q -> R p q -> R p' q') -> (forall p q, R p q -> R q p -> (p == q)%Q) ->
  (forall a b, (f a b = a /\ R (dec_value a) (dec_value b)) \/ (f a b = b /\ R (dec_value b) (dec_value a))) ->
  Permutation ds ds' -> same_outcome (m <- reduce1 f ds ;; cast_decimal m) (m <- reduce1 f ds' ;; cast_decimal m).
Proof.
  intros Rr Rt Re Ra Hf P. destruct ds as [|x ds], ds' as [|x' ds'].
  - apply same_refl.
  - apply Permutation_nil in P. discriminate.
  - apply Permutation_sym, Permutation_nil in P. discriminate.
  - cbn [reduce1 bind]. apply cast_same.
    destruct (fold_extreme f R Rr Rt Re Hf ds (map dec_value ds) x (dec_value x) (reflexive_values ds) (Qeq_refl _)) as (q & I & V & M).
    destruct (fold_extreme f R Rr Rt Re Hf ds' (map dec_value ds') x' (dec_value x') (reflexive_values ds') (Qeq_refl _)) as (q' & I' & V' & M').
    rewrite V, V'. assert (Pq : Permutation (map dec_value (x :: ds)) (map dec_value (x' :: ds'))) by (apply Permutation_map; auto). cbn [map] in Pq.
    apply Ra; [apply M, (Permutation_in _ (Permutation_sym Pq) I')|apply M', (Permutation_in _ Pq I)].
Qed.
Lemma reduce_min zs zs' : Permutation zs zs' -> reduce1 Z.min zs = reduce1 Z.min zs'.
Proof.
  intros P. destruct zs as [|x zs], zs' as [|x' zs']; auto.
  - apply Permutation_nil in P. discriminate.
  - apply Permutation_sym, Permutation_nil in P. discriminate.
  - cbn [reduce1]. f_equal. destruct (fold_min zs x) as [I M], (fold_min zs' x') as [I' M']. apply Z.le_antisymm; [apply M, (Permutation_in _ (Permutation_sym P) I')|apply M', (Permutation_in _ P I)].
Qed.
Lemma reduce_max zs zs' : Permutation zs zs' -> reduce1 Z.max zs = reduce1 Z.max zs'.
Proof.
  intros P. destruct zs as [|x zs], zs' as [|x' zs']; auto.
  - apply Permutation_nil in P. discriminate.
  - apply Permutation_sym, Permutation_nil in P. discriminate.
  - cbn [reduce1]. f_equal. destruct (fold_max zs x) as [I M], (fold_max zs' x') as [I' M']. apply Z.le_antisymm; [apply M', (Permutation_in _ P I)|apply M, (Permutation_in _ (Permutation_sym P) I')].
Qed.
Lemma min_order l l' : Permutation l l' -> same_outcome (eval_min l) (eval_min l').
Proof.
  intros P. unfold eval_min. rewrite !(has_type_perm _ l l' P). destruct (has_type DECIMAL l').
  - destruct (decimals_perm l l' P) as [(ys & ys' & -> & -> & Py)|[-> ->]]; [|apply same_refl]. cbn [bind].
    apply (reduce_extreme bd_min2 Qle); auto using Qle_refl, Qle_antisym, min2_cases; [intros; eapply Qle_trans; eauto|].
    intros p p' q q' Hp Hq H. rewrite <- Hp, <- Hq. exact H.
  - destruct (has_type LONG l').
    + destruct (longs_perm l l' P) as [(ys & ys' & -> & -> & Py)|[-> ->]]; [|apply same_refl]. cbn [bind]. rewrite (reduce_min ys ys') by auto. apply same_refl.
    + destruct (ints_perm l l' P) as [(ys & ys' & -> & -> & Py)|[-> ->]]; [|apply same_refl]. cbn [bind]. rewrite (reduce_min ys ys') by auto. apply same_refl.
Qed.
Lemma max_order l l' : Permutation l l' -> same_outcome (eval_max l) (eval_max l').
Proof.
  intros P. unfold eval_max. rewrite !(has_type_perm _ l l' P). destruct (has_type DECIMAL l').
  - destruct (decimals_perm l l' P) as [(ys & ys' & -> & -> & Py)|[-> ->]]; [|apply same_refl]. cbn [bind].
    apply (reduce_extreme bd_max2 (fun p q => Qle q p)); auto using Qle_refl, Qle_antisym, max2_cases; [intros; eapply Qle_trans; eauto|].
    intros p p' q q' Hp Hq H. rewrite <- Hp, <- Hq. exact H.
  - destruct (has_type LONG l').
    + destruct (longs_perm l l' P) as [(ys & ys' & -> & -> & Py)|[-> ->]]; [|apply same_refl]. cbn [bind]. rewrite (reduce_max ys ys') by auto. apply same_refl.
    + destruct (ints_perm l l' P) as [(ys & ys' & -> & -> & Py)|[-> ->]]; [|apply same_refl]. cbn [bind]. rewrite (reduce_max ys ys') by auto. apply same_refl.
Qed.

(** Sums *)
Lemma total_perm qs qs' : Permutation qs qs' -> (total qs == total qs')%Q.
Proof. induction 1; cbn; [reflexivity|rewrite IHPermutation; reflexivity|ring|]. rewrite IHPermutation1. exact IHPermutation2. Qed.
Lemma sum_perm ds ds' : Permutation ds ds' -> (dec_value (bd_sum ds) == dec_value (bd_sum ds'))%Q.
Proof. intros P. rewrite !(bd_sum_value _ _ (reflexive_values _)). apply total_perm, Permutation_map, P. Qed.
Lemma whole_total_perm zs zs' : Permutation zs zs' -> whole_total zs = whole_total zs'.
Proof. unfold whole_total. induction 1; cbn [fold_right]; auto; try lia; congruence. Qed.
Lemma long_sum_perm zs zs' : Permutation zs zs' -> long_sum zs = long_sum zs'.
Proof. intros P. rewrite !long_sum_wrap, (whole_total_perm _ _ P). reflexivity. Qed.
Lemma sum_order l l' : Permutation l l' -> same_outcome (eval_sum l) (eval_sum l').
Proof.
  intros P. unfold eval_sum. rewrite !(has_type_perm _ l l' P). destruct (has_type DECIMAL l').
  - destruct (decimals_perm l l' P) as [(ys & ys' & -> & -> & Py)|[-> ->]]; [|apply same_refl]. cbn [bind]. apply cast_same, sum_perm, Py.
  - destruct (longs_perm l l' P) as [(ys & ys' & -> & -> & Py)|[-> ->]]; [|apply same_refl]. cbn [bind]. rewrite (long_sum_perm ys ys') by auto. apply same_refl.
Qed.
Lemma divide_value a b n s : unscaled n <> 0 -> (dec_value a == dec_value b)%Q -> bd_divide a n s RoundDown = bd_divide b n s RoundDown.
Proof.
  intros N H. destruct (bd_divide_down a n s N) as (x & -> & X), (bd_divide_down b n s N) as (y & -> & Y).
  do 2 f_equal. eapply truncates_unique; [exact X|]. eapply truncates_ext; [|exact Y]. rewrite H. reflexivity.
Qed.
Lemma avg_order l l' : Permutation l l' -> l <> [] -> same_outcome (eval_avg l) (eval_avg l').
Proof.
  intros P Hl. unfold eval_avg. rewrite !(has_type_perm _ l l' P), (Permutation_length P).
  assert (N : unscaled (bd_of_Z (Z.of_nat (length l'))) <> 0).
  { cbn. rewrite <- (Permutation_length P). destruct l; [congruence|]. cbn [length]. lia. }
  destruct (has_type DECIMAL l').
  - destruct (decimals_perm l l' P) as [(ys & ys' & -> & -> & Py)|[-> ->]]; [|apply same_refl]. cbn [bind].
    rewrite (divide_value (bd_sum ys) (bd_sum ys')) by (auto using sum_perm). apply same_refl.
  - destruct (longs_perm l l' P) as [(ys & ys' & -> & -> & Py)|[-> ->]]; [|apply same_refl]. cbn [bind]. rewrite (long_sum_perm ys ys') by auto. apply same_refl.
Qed.

(** Median *)
Lemma dle_values ds : StronglySorted Dle ds -> StronglySorted Qle (map dec_value ds).
Proof. intros H. eapply sorted_values; [apply reflexive_values|exact H]. Qed.
Lemma sorted_same ds ds' i : Permutation ds ds' -> 
  match nth_error (sort_decimals ds) i, nth_error (sort_decimals ds') i with Some a, Some b => (dec_value a == dec_value b)%Q | None, None => True | _, _ => False end.
Proof.
  intros P. assert (L : length (sort_decimals ds) = length (sort_decimals ds')).
  { rewrite (Permutation_length (sort_perm ds)), (Permutation_length (sort_perm ds')). apply Permutation_length, P. }
  assert (U : map Qred (map dec_value (sort_decimals ds)) = map Qred (map dec_value (sort_decimals ds'))).
  { apply (ascending_unique (map dec_value ds) (map dec_value ds')); [apply Permutation_map, P| |]; split; auto using dle_values, sort_sorted, Permutation_map, sort_perm. }
  destruct (nth_error (sort_decimals ds) i) as [a|] eqn:A, (nth_error (sort_decimals ds') i) as [b|] eqn:B; auto.
  - pose proof (nth_red _ _ i U) as H. rewrite !(nth_indep _ 0%Q (dec_value a)) in H.
    + rewrite (map_nth dec_value (sort_decimals ds) a i), (map_nth dec_value (sort_decimals ds') a i) in H.
      rewrite (nth_error_nth _ _ _ A), (nth_error_nth _ _ _ B) in H. exact H.
    + rewrite map_length. apply nth_error_Some. congruence.
    + rewrite map_length. apply nth_error_Some. congruence.
  - apply nth_error_None in B. assert (i < length (sort_decimals ds))%nat by (apply nth_error_Some; congruence). lia.
  - apply nth_error_None in A. assert (i < length (sort_decimals ds'))%nat by (apply nth_error_Some; congruence). lia.
Qed.
Lemma median_order l l' : Permutation l l' -> same_outcome (eval_median l) (eval_median l').
Proof.
  intros P. unfold eval_median. rewrite (Permutation_length P).
  destruct (decimals_perm l l' P) as [(ys & ys' & -> & -> & Py)|[-> ->]]; [|apply same_refl]. cbn [bind]. unfold list_get.
  pose proof (sorted_same ys ys' (Nat.div2 (length l')) Py) as S1. pose proof (sorted_same ys ys' (Nat.div2 (length l') - 1) Py) as S2.
  destruct (nth_error (sort_decimals ys) (Nat.div2 (length l'))) as [a|], (nth_error (sort_decimals ys') (Nat.div2 (length l'))) as [b|]; try contradiction S1;
    destruct (Nat.even (length l')); cbn [bind]; try apply same_refl; [|apply cast_same, S1].
  destruct (nth_error (sort_decimals ys) _) as [a2|], (nth_error (sort_decimals ys') _) as [b2|]; try contradiction S2; cbn [bind]; [|apply same_refl].
  rewrite (divide_value (bd_add a a2) (bd_add b b2)); [apply same_refl|discriminate|]. rewrite !dec_add. rewrite S1, S2. reflexivity.
Qed.

(** Functions in general *)
Lemma validate_order ms ms' : Permutation ms ms' -> ~ In VNull ms -> validate_items (typed ms) = validate_items (typed ms').
Proof.
  assert (V : forall ms, ~ In VNull ms -> validate_items (typed ms) = if forallb (fun v => match is_valid (get_data_type v) v with Ok b => b | Err _ => false end) ms then Ok tt else Err InvalidDataType).
  { induction ms0 as [|m ms0 IH]; intros H; auto. cbn. destruct (is_valid_own m) as [b Hb]; [intros ->; apply H; left; auto|]. rewrite Hb. cbn [bind].
    destruct b; auto. cbn. apply IH. intros X. apply H. right; auto. }
  intros P N. rewrite !V; auto; [rewrite (forallb_perm _ _ ms ms' P); reflexivity|]. intros X. apply N. exact (Permutation_in _ (Permutation_sym P) X).
Qed.
Lemma short_perm A (l l' : list A) : Permutation l l' -> (length l < 2)%nat -> l = l'.
Proof.
  intros P L. destruct l as [|a [|b l]]; [| |cbn in L; lia].
  - apply Permutation_nil in P. auto.
  - apply Permutation_length_1_inv in P. auto.
Qed.
Lemma function_order E f ms ms' : f <> F_MODE -> Permutation ms ms' -> ~ In VNull ms ->
  same_outcome (evaluate_function E f (typed ms)) (evaluate_function E f (typed ms')).
Proof.
  intros Hf P N. destruct (Nat.lt_ge_cases (length ms) 2) as [L|L]; [rewrite (short_perm _ ms ms' P L); apply same_refl|].
  assert (Pt : Permutation (typed ms) (typed ms')) by (apply Permutation_map; auto).
  assert (L' : (2 <= length ms')%nat) by (rewrite <- (Permutation_length P); auto).
  assert (U : forall l, (2 <= length l)%nat -> evaluate_function E f (typed l) =
    (if negb (existsb (container_eqb LIST) (func_containers f)) then Err InvalidContainerType
     else if negb (forallb (fun i : evaluated => mem_type (snd i) (func_types f)) (typed l)) then Err InvalidDataType
     else _ <- validate_items (typed l) ;; func_evaluate E f (typed l))).
  { intros [|a [|b l]] Hl; cbn in Hl; try lia. reflexivity. }
  rewrite (U ms L), (U ms' L'). destruct (negb (existsb _ _)) eqn:C; [apply same_refl|]. rewrite (forallb_perm _ _ _ _ Pt).
  destruct (negb (forallb _ _)); [apply same_refl|]. rewrite (validate_order ms ms' P N). destruct (validate_items (typed ms')); [|apply same_refl]. cbn [bind].
  destruct f; try discriminate C; cbn [func_evaluate]; auto using min_order, max_order, sum_order, median_order.
  - apply avg_order; auto. destruct ms; [cbn in L; lia|discriminate].
  - apply avg_order; auto. destruct ms; [cbn in L; lia|discriminate].
  - congruence.
  - left. unfold eval_len. assert (X : forall l, (2 <= length l)%nat -> match typed l with [(VStr s, _)] => Ok (VInt (Z.of_nat (length s))) | _ => Ok (VInt (Z.of_nat (length (typed l)))) end = Ok (VInt (Z.of_nat (length l)))).
    { intros [|x [|y l]] Hl; cbn in Hl; try lia. unfold typed. rewrite map_length. destruct x; reflexivity. }
    rewrite (X ms L), (X ms' L'), (Permutation_length P). reflexivity.
Qed.
Lemma call_order E d f items items' ms ms' : f <> F_MODE -> arguments E d items ms -> arguments E d items' ms' -> Permutation ms ms' -> ~ In VNull ms ->
  same_outcome (arith_eval E d (NFunc f items)) (arith_eval E d (NFunc f items')).
Proof. intros Hf A A' P N. rewrite (function_arguments E d f items ms A), (function_arguments E d f items' ms' A'). apply function_order; auto. Qed.

(** Texts *)
Lemma arguments_perm E d items items' ms : Permutation items items' -> arguments E d items ms -> exists ms', arguments E d items' ms' /\ Permutation ms ms'.
Proof.
  intros P (vs & F & ->). destruct (perm_Forall2 _ _ _ _ _ P _ F) as (vs' & Pv & F'). exists (flat_map members vs'). split; [exists vs'; auto|].
  apply Permutation_flat_map, Pv.
Qed.
Lemma text_order E d f fn ws ws' ns ms t t' : In (f, fn) function_names -> fn <> F_MODE -> listed ws ns -> Permutation ws ws' ->
  arguments E d ns ms -> ~ In VNull ms ->
  laid_out (f :: bracketed (commas ws)) t -> laid_out (f :: bracketed (commas ws')) t' ->
  same_outcome (evaluate_arith E t d) (evaluate_arith E t' d).
Proof.
  intros Hf Hn [W Fo] P A N L L'. destruct (perm_Forall2 _ _ _ _ _ P _ Fo) as (ns' & Pn & Fo').
  assert (W' : listed ws' ns'). { split; auto. intros ->. apply Permutation_sym, Permutation_nil in P. auto. }
  destruct (arguments_perm E d ns ns' ms Pn A) as (ms' & A' & Pm).
  rewrite (proj2 (layout_condition E d None Function _ _ t (w_call Nothing f fn ws ns Hf (conj W Fo)) L)).
  rewrite (proj2 (layout_condition E d None Function _ _ t' (w_call Nothing f fn ws' ns' Hf W') L')).
  eapply call_order; eauto.
Qed.

(** MODE *)
Lemma mode_order_matters : exists E d ns ns' ms ms', arguments E d ns ms /\ arguments E d ns' ms' /\ Permutation ms ms' /\ ~ In VNull ms /\
  ~ same_outcome (arith_eval E d (NFunc F_MODE ns)) (arith_eval E d (NFunc F_MODE ns')).
Proof.
  exists (Env (Date 2024 1 1) (fun _ _ => DNaN) (fun _ _ => DNaN)), [], [lit (VInt 1); lit (VInt 2)], [lit (VInt 2); lit (VInt 1)], [VInt 1; VInt 2], [VInt 2; VInt 1].
  split; [exists [VInt 1; VInt 2]; split; [repeat constructor|reflexivity]|]. split; [exists [VInt 2; VInt 1]; split; [repeat constructor|reflexivity]|].
  split; [apply perm_swap|]. split; [intros [X|[X|[]]]; discriminate X|]. intros [X|(a & b & X & _)]; vm_compute in X; discriminate X.
Qed.
