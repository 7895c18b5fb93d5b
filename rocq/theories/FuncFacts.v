(** C21 - C27: functions. *)
From Coq Require Import QArith Qpower Permutation Sorted ZifyBool.
From Verif Require Import Base JNum BigDec Dates Values Ops Funcs Ast Eval JNumFacts SpecNum SpecCompare SpecArith SpecFunc BigDecFacts NumFacts CompareFacts FieldFacts CacheFacts ArithFacts.
Local Open Scope Z_scope.

Definition typed (ms : list jval) : list evaluated := map (fun v => (v, get_data_type v)) ms.
Lemma function_arguments : forall E d f items ms, arguments E d items ms -> arith_eval E d (NFunc f items) = evaluate_function E f (typed ms).
Proof. intros E d f items ms (vs & H & ->). apply function_items; auto. Qed.

Definition valid_arg (v : jval) : Prop := is_valid (get_data_type v) v = Ok true.
Lemma validate_typed : forall ms, Forall valid_arg ms -> validate_items (typed ms) = Ok tt.
Proof. intros ms H. induction H as [|v ms V _ IH]; auto. cbn [typed map validate_items]. rewrite V. cbn [bind]. exact IH. Qed.
Lemma number_args_valid : forall ms qs, Forall2 number ms qs -> Forall valid_arg ms.
Proof. intros ms qs H. induction H; constructor; auto. eapply number_valid; eauto. Qed.

Definition list_function (f : func) : Prop := In f [F_MIN; F_MAX; F_AVG; F_SUM; F_MEAN; F_MODE; F_MEDIAN].
Lemma typed_length : forall ms, length (typed ms) = length ms. Proof. intros. apply map_length. Qed.
Lemma number_mem : forall ms qs f, Forall2 number ms qs -> list_function f \/ f = F_INT -> forallb (fun i : evaluated => mem_type (snd i) (func_types f)) (typed ms) = true.
Proof.
  intros ms qs f H L. assert (T : func_types f = [INTEGER; LONG; DECIMAL]).
  { destruct L as [[L|[L|[L|[L|[L|[L|[L|[]]]]]]]]|L]; subst f; reflexivity. }
  rewrite T. induction H as [|v q ms qs N _ IH]; auto. cbn [typed map forallb snd]. destruct (number_dtype v q N) as [->|[->| ->]]; exact IH.
Qed.
Lemma call_list : forall E d f items ms qs, arguments E d items ms -> Forall2 number ms qs -> (2 <= length ms)%nat -> list_function f ->
  arith_eval E d (NFunc f items) = func_evaluate E f (typed ms).
Proof.
  intros E d f items ms qs A N L F. rewrite (function_arguments _ _ _ _ _ A). unfold evaluate_function.
  destruct (typed ms) as [|e es] eqn:T; [destruct ms; [cbn in L; lia|discriminate T]|]. rewrite <- T. rewrite typed_length.
  destruct (1 <? length ms)%nat eqn:G; [|apply Nat.ltb_ge in G; lia].
  replace (existsb (container_eqb LIST) (func_containers f)) with true by (destruct F as [F|[F|[F|[F|[F|[F|[F|[]]]]]]]]; subst f; reflexivity).
  cbn [negb]. rewrite (number_mem ms qs f N) by auto. cbn [negb]. rewrite validate_typed by (eapply number_args_valid; eauto). reflexivity.
Qed.

(** Conversions of the arguments *)
Lemma decimals_typed : forall ms qs, Forall2 number ms qs -> exists ds, decimals (typed ms) = Ok ds /\ Forall2 (fun d q => (dec_value d == q)%Q) ds qs.
Proof.
  intros ms qs H. induction H as [|v q ms qs N _ (ds & D & F)]; [exists []; split; auto; constructor|].
  destruct (number_decimal v q N) as (x & Dx & Px). exists (x :: ds). split; [|constructor; auto].
  unfold decimals in *. cbn [typed map mapM fst]. rewrite Dx. cbn [opt_get bind]. change (map (fun v0 => (v0, get_data_type v0)) ms) with (typed ms). rewrite D. reflexivity.
Qed.
Lemma longs_typed : forall ms zs, Forall2 whole ms zs -> longs (typed ms) = Ok zs.
Proof.
  intros ms zs H. induction H as [|v z ms zs N _ IH]; auto. unfold longs in *. cbn [typed map mapM fst]. rewrite (long_of_whole v z N). cbn [opt_get bind].
  change (map (fun v0 => (v0, get_data_type v0)) ms) with (typed ms). rewrite IH. reflexivity.
Qed.
Lemma has_type_iff : forall t ms, has_type t (typed ms) = true <-> Exists (fun v => get_data_type v = t) ms.
Proof.
  intros t ms. unfold has_type. rewrite existsb_exists, Exists_exists. split.
  - intros (e & I & H). apply in_map_iff in I as (v & <- & I). exists v. split; auto. cbn in H. destruct (get_data_type v), t; auto; discriminate H.
  - intros (v & I & <-). exists (v, get_data_type v). split; [apply in_map_iff; eauto|]. cbn. destruct (get_data_type v); reflexivity.
Qed.
Lemma whole_no_decimal : forall ms zs, Forall2 whole ms zs -> has_type DECIMAL (typed ms) = false.
Proof.
  intros ms zs H. destruct (has_type DECIMAL (typed ms)) eqn:E; auto. apply has_type_iff in E. apply Exists_exists in E as (v & I & T).
  exfalso. induction H as [|w z ms zs N _ IH]; [destruct I|]. destruct I as [->|I]; auto. destruct N; discriminate T.
Qed.
Lemma ints_typed : forall ms zs, Forall2 whole ms zs -> has_type LONG (typed ms) = false -> ints (typed ms) = Ok zs.
Proof.
  intros ms zs H. induction H as [|v z ms zs N _ IH]; intros L; auto. unfold ints, has_type in *. cbn [typed map existsb snd] in L. apply orb_false_iff in L as [L1 L2].
  cbn [typed map mapM fst]. destruct N; [|discriminate L1]. cbn [integer_value opt_get bind].
  change (map (fun v0 => (v0, get_data_type v0)) ms) with (typed ms) in *. rewrite IH by exact L2. reflexivity.
Qed.
Lemma whole_numbers : forall ms zs, Forall2 whole ms zs -> Forall2 number ms (map inject_Z zs).
Proof. intros ms zs H. induction H; constructor; auto. apply whole_number; auto. Qed.

(** Casts *)
Lemma cast_decimal_result : forall b q, (dec_value b == q)%Q -> decimal_result (cast_decimal b) q.
Proof.
  intros b q H. destruct (integral_dec b) as [[z Hz]|N].
  - rewrite (cast_decimal_integral b z Hz). destruct (in_int z) eqn:I.
    + apply dr_whole; [rewrite <- H; auto|apply fits32_iff; auto].
    + apply dr_too_big with z; [rewrite <- H; auto|]. intros X. apply fits32_iff in X. congruence.
  - rewrite (cast_decimal_fraction b N). apply dr_fraction; auto. intros z X. apply N. exists z. rewrite H. auto.
Qed.
Lemma round_small : forall z, Z.abs z <= 2 ^ 53 -> round_double z = z.
Proof.
  intros z H. unfold round_double. destruct (Z.abs z <? 9007199254740992) eqn:E; [reflexivity|].
  change (2 ^ 53) with 9007199254740992 in H. assert (A : Z.abs z = 9007199254740992) by lia. rewrite A. vm_compute (Z.log2 _). 
  change (9007199254740992 / 2 ^ (53 - 52)) with 4503599627370496. change (9007199254740992 mod 2 ^ (53 - 52)) with 0.
  change (2 ^ (53 - 52 - 1) <? 0) with false. change (0 =? 2 ^ (53 - 52 - 1)) with false. cbn [orb andb].
  change (4503599627370496 * 2 ^ (53 - 52)) with 9007199254740992. lia.
Qed.
Lemma cast_small : forall z, Z.abs z <= 2 ^ 53 -> whole_result (cast_long_as_double z) z.
Proof.
  intros z H. unfold cast_long_as_double. rewrite round_small by auto. rewrite (cast_double_whole z 0 z) by (unfold double_value; rewrite Qmult_1_r; reflexivity).
  split; intros F.
  - apply fits32_iff in F. rewrite F. reflexivity.
  - destruct (in_int z) eqn:X; [apply fits32_iff in X; tauto|]. eexists. split; [reflexivity|apply dec_of_Z].
Qed.

(** C21 *)
Lemma fold_extreme : forall (f : bigdec -> bigdec -> bigdec) (R : Q -> Q -> Prop),
  (forall p, R p p) -> (forall p q r, R p q -> R q r -> R p r) -> (forall p p' q q', (p == p')%Q -> (q == q')%Q -> R p q -> R p' q') ->
  (forall a b, (f a b = a /\ R (dec_value a) (dec_value b)) \/ (f a b = b /\ R (dec_value b) (dec_value a))) ->
  forall ds qs d0 q0, Forall2 (fun d q => (dec_value d == q)%Q) ds qs -> (dec_value d0 == q0)%Q ->
  exists q, In q (q0 :: qs) /\ (dec_value (fold_left f ds d0) == q)%Q /\ forall q', In q' (q0 :: qs) -> R q q'.
Proof.
  intros f R Rr Rt Re Hf ds. induction ds as [|d ds IH]; intros qs d0 q0 F H0; inversion F as [|? q1 ? qs1 H1 F1]; subst.
  - exists q0. cbn. repeat split; auto. intros q' [<-|[]]. apply Rr.
  - cbn [fold_left]. destruct (Hf d0 d) as [[-> L]|[-> L]].
    + destruct (IH qs1 d0 q0 F1 H0) as (q & I & V & M). exists q. split; [destruct I; cbn; auto|]. split; auto.
      intros q' [<-|[<-|J]]; [apply M; left; auto| |apply M; right; auto]. apply (Rt q q0); [apply M; left; auto|]. eapply Re; eauto.
    + destruct (IH qs1 d q1 F1 H1) as (q & I & V & M). exists q. split; [destruct I; cbn; auto|]. split; auto.
      intros q' [<-|[<-|J]]; [|apply M; left; auto|apply M; right; auto]. apply (Rt q q1); [apply M; left; auto|]. eapply Re; eauto.
Qed.
Lemma min2_cases : forall a b, (bd_min2 a b = a /\ (dec_value a <= dec_value b)%Q) \/ (bd_min2 a b = b /\ (dec_value b <= dec_value a)%Q).
Proof.
  intros a b. unfold bd_min2. rewrite dec_compare. destruct (dec_value a ?= dec_value b)%Q eqn:C.
  - left. split; auto. apply Qeq_alt in C. rewrite C. apply Qle_refl.
  - left. split; auto. apply Qlt_alt in C. apply Qlt_le_weak; auto.
  - right. split; auto. apply Qgt_alt in C. apply Qlt_le_weak; auto.
Qed.
Lemma max2_cases : forall a b, (bd_max2 a b = a /\ (dec_value b <= dec_value a)%Q) \/ (bd_max2 a b = b /\ (dec_value a <= dec_value b)%Q).
Proof.
  intros a b. unfold bd_max2. rewrite dec_compare. destruct (dec_value a ?= dec_value b)%Q eqn:C.
  - left. split; auto. apply Qeq_alt in C. rewrite C. apply Qle_refl.
  - right. split; auto. apply Qlt_alt in C. apply Qlt_le_weak; auto.
  - left. split; auto. apply Qgt_alt in C. apply Qlt_le_weak; auto.
Qed.
Lemma decimal_has : forall ms, Exists decimal ms -> has_type DECIMAL (typed ms) = true.
Proof. intros ms H. apply has_type_iff. exact H. Qed.
Lemma min_decimal : forall E d items ms qs, arguments E d items ms -> Forall2 number ms qs -> (2 <= length ms)%nat -> Exists decimal ms ->
  exists q, least qs q /\ decimal_result (arith_eval E d (NFunc F_MIN items)) q.
Proof.
  intros E d items ms qs A N L D. rewrite (call_list E d F_MIN items ms qs A N L) by (cbn; auto). cbn [func_evaluate]. unfold eval_min. rewrite decimal_has by auto.
  destruct (decimals_typed ms qs N) as (ds & -> & F). cbn [bind].
  destruct ds as [|d0 ds]; [inversion F; subst; inversion N; subst; cbn in L; lia|]. inversion F as [|? q0 ? qs' H0 F']; subst. cbn [reduce1 bind].
  destruct (fold_extreme bd_min2 Qle Qle_refl Qle_trans) with (ds := ds) (qs := qs') (d0 := d0) (q0 := q0) as (q & I & V & M); auto.
  - intros p p' r r' Hp Hr X. rewrite <- Hp, <- Hr. auto.
  - apply min2_cases.
  - exists q. split; [split; auto|]. apply cast_decimal_result; auto.
Qed.
Lemma max_decimal : forall E d items ms qs, arguments E d items ms -> Forall2 number ms qs -> (2 <= length ms)%nat -> Exists decimal ms ->
  exists q, greatest qs q /\ decimal_result (arith_eval E d (NFunc F_MAX items)) q.
Proof.
  intros E d items ms qs A N L D. rewrite (call_list E d F_MAX items ms qs A N L) by (cbn; auto). cbn [func_evaluate]. unfold eval_max. rewrite decimal_has by auto.
  destruct (decimals_typed ms qs N) as (ds & -> & F). cbn [bind].
  destruct ds as [|d0 ds]; [inversion F; subst; inversion N; subst; cbn in L; lia|]. inversion F as [|? q0 ? qs' H0 F']; subst. cbn [reduce1 bind].
  destruct (fold_extreme bd_max2 (fun p q => (q <= p)%Q) Qle_refl (fun p q r H G => Qle_trans r q p G H)) with (ds := ds) (qs := qs') (d0 := d0) (q0 := q0) as (q & I & V & M); auto.
  - intros p p' r r' Hp Hr X. rewrite <- Hp, <- Hr. auto.
  - apply max2_cases.
  - exists q. split; [split; auto|]. apply cast_decimal_result; auto.
Qed.
Lemma fold_min : forall zs z0, In (fold_left Z.min zs z0) (z0 :: zs) /\ forall z, In z (z0 :: zs) -> fold_left Z.min zs z0 <= z.
Proof.
  induction zs as [|z1 zs IH]; intros z0; cbn [fold_left].
  - split; [left; auto|]. intros z [<-|[]]. lia.
  - destruct (IH (Z.min z0 z1)) as [I M]. split.
    + destruct I as [<-|I]; [|right; right; auto]. destruct (Z.min_spec z0 z1) as [[_ ->]|[_ ->]]; cbn; auto.
    + pose proof (M (Z.min z0 z1) (or_introl eq_refl)). intros z [<-|[<-|J]]; [lia|lia|apply M; right; auto].
Qed.
Lemma fold_max : forall zs z0, In (fold_left Z.max zs z0) (z0 :: zs) /\ forall z, In z (z0 :: zs) -> z <= fold_left Z.max zs z0.
Proof.
  induction zs as [|z1 zs IH]; intros z0; cbn [fold_left].
  - split; [left; auto|]. intros z [<-|[]]. lia.
  - destruct (IH (Z.max z0 z1)) as [I M]. split.
    + destruct I as [<-|I]; [|right; right; auto]. destruct (Z.max_spec z0 z1) as [[_ ->]|[_ ->]]; cbn; auto.
    + pose proof (M (Z.max z0 z1) (or_introl eq_refl)). intros z [<-|[<-|J]]; [lia|lia|apply M; right; auto].
Qed.
Lemma min_whole : forall E d items ms zs, arguments E d items ms -> Forall2 whole ms zs -> (2 <= length ms)%nat ->
  exists z, In z zs /\ (forall z', In z' zs -> z <= z') /\ (Z.abs z <= 2 ^ 53 -> whole_result (arith_eval E d (NFunc F_MIN items)) z).
Proof.
  intros E d items ms zs A W L. rewrite (call_list E d F_MIN items ms _ A (whole_numbers _ _ W) L) by (cbn; auto). cbn [func_evaluate]. unfold eval_min.
  rewrite (whole_no_decimal ms zs W). destruct zs as [|z0 zs]; [inversion W; subst; cbn in L; lia|].
  destruct (fold_min zs z0) as [I M]. exists (fold_left Z.min zs z0). split; auto. split; auto. intros B.
  destruct (has_type LONG (typed ms)) eqn:T; [rewrite (longs_typed ms _ W)|rewrite (ints_typed ms _ W T)]; cbn [bind reduce1]; apply cast_small; auto.
Qed.
Lemma max_whole : forall E d items ms zs, arguments E d items ms -> Forall2 whole ms zs -> (2 <= length ms)%nat ->
  exists z, In z zs /\ (forall z', In z' zs -> z' <= z) /\ (Z.abs z <= 2 ^ 53 -> whole_result (arith_eval E d (NFunc F_MAX items)) z).
Proof.
  intros E d items ms zs A W L. rewrite (call_list E d F_MAX items ms _ A (whole_numbers _ _ W) L) by (cbn; auto). cbn [func_evaluate]. unfold eval_max.
  rewrite (whole_no_decimal ms zs W). destruct zs as [|z0 zs]; [inversion W; subst; cbn in L; lia|].
  destruct (fold_max zs z0) as [I M]. exists (fold_left Z.max zs z0). split; auto. split; auto. intros B.
  destruct (has_type LONG (typed ms)) eqn:T; [rewrite (longs_typed ms _ W)|rewrite (ints_typed ms _ W T)]; cbn [bind reduce1]; apply cast_small; auto.
Qed.

(** C22 *)
Lemma bd_sum_value : forall ds qs, Forall2 (fun d q => (dec_value d == q)%Q) ds qs -> (dec_value (bd_sum ds) == total qs)%Q.
Proof.
  assert (G : forall ds qs b, Forall2 (fun d q => (dec_value d == q)%Q) ds qs -> (dec_value (fold_left bd_add ds b) == dec_value b + total qs)%Q).
  { induction ds as [|d ds IH]; intros qs b F; inversion F as [|? q ? qs' H F']; subst; cbn [fold_left total fold_right]; [ring|].
    rewrite (IH qs' _ F'), dec_add, H. fold (total qs'). ring. }
  intros ds qs F. unfold bd_sum. rewrite (G ds qs _ F), dec_of_Z. ring.
Qed.
Lemma long_sum_wrap : forall zs, long_sum zs = wrap64 (whole_total zs).
Proof.
  assert (W : forall a b, wrap64 (wrap64 a + b) = wrap64 (a + b)).
  { intros a b. destruct (wrap64_cong a) as [k ->]. unfold wrap64. lia. }
  assert (G : forall zs a, fold_left (fun a b => wrap64 (a + b)) zs (wrap64 a) = wrap64 (a + whole_total zs)).
  { induction zs as [|z zs IH]; intros a; cbn [fold_left whole_total fold_right]; [f_equal; lia|]. rewrite W, IH. fold (whole_total zs). f_equal. lia. }
  intros zs. exact (G zs 0).
Qed.
Lemma sum_decimal : forall E d items ms qs, arguments E d items ms -> Forall2 number ms qs -> (2 <= length ms)%nat -> Exists decimal ms ->
  decimal_result (arith_eval E d (NFunc F_SUM items)) (total qs).
Proof.
  intros E d items ms qs A N L D. rewrite (call_list E d F_SUM items ms qs A N L) by (cbn; auto 10). cbn [func_evaluate]. unfold eval_sum. rewrite decimal_has by auto.
  destruct (decimals_typed ms qs N) as (ds & -> & F). cbn [bind]. apply cast_decimal_result, bd_sum_value; auto.
Qed.
Lemma sum_whole : forall E d items ms zs, arguments E d items ms -> Forall2 whole ms zs -> (2 <= length ms)%nat ->
  Z.abs (whole_total zs) <= 2 ^ 53 -> whole_result (arith_eval E d (NFunc F_SUM items)) (whole_total zs).
Proof.
  intros E d items ms zs A W L B. rewrite (call_list E d F_SUM items ms _ A (whole_numbers _ _ W) L) by (cbn; auto 10). cbn [func_evaluate]. unfold eval_sum.
  rewrite (whole_no_decimal ms zs W), (longs_typed ms _ W). cbn [bind]. rewrite long_sum_wrap, wrap64_id by (apply in_long_iff; change (2 ^ 53) with 9007199254740992 in B; lia).
  apply cast_small; auto.
Qed.

(** C23 *)
Lemma length_nonzero : forall (ms : list jval), (2 <= length ms)%nat -> unscaled (bd_of_Z (Z.of_nat (length (typed ms)))) <> 0.
Proof. intros ms H. rewrite typed_length. cbn. lia. Qed.
Lemma Forall2_len : forall A B (R : A -> B -> Prop) l m, Forall2 R l m -> length l = length m.
Proof. intros A B R l m H. induction H; cbn; auto. Qed.
Lemma avg_decimal : forall E d items ms qs, arguments E d items ms -> Forall2 number ms qs -> (2 <= length ms)%nat -> Exists decimal ms ->
  exists z, truncates (mean qs * inject_Z 1000) z /\ decimal_result (arith_eval E d (NFunc F_AVG items)) (inject_Z z / inject_Z 1000).
Proof.
  intros E d items ms qs A N L D. rewrite (call_list E d F_AVG items ms qs A N L) by (cbn; auto 10). cbn [func_evaluate]. unfold eval_avg. rewrite decimal_has by auto.
  destruct (decimals_typed ms qs N) as (ds & -> & F). cbn [bind].
  destruct (bd_divide_down (bd_sum ds) _ 3 (length_nonzero ms L)) as (z & -> & T). cbn [bind]. exists z. split.
  - eapply truncates_ext; [|exact T]. unfold mean, bd_of_Z. rewrite dec_of_Z, (bd_sum_value ds qs F), typed_length, (Forall2_len _ _ _ _ _ N). reflexivity.
  - apply cast_decimal_result. reflexivity.
Qed.
Lemma total_whole : forall zs, (total (map inject_Z zs) == inject_Z (whole_total zs))%Q.
Proof. induction zs as [|z zs IH]; [reflexivity|]. cbn [map total fold_right whole_total]. fold (total (map inject_Z zs)) (whole_total zs). rewrite IH, <- inject_Z_plus. reflexivity. Qed.
Lemma avg_whole : forall E d items ms zs, arguments E d items ms -> Forall2 whole ms zs -> (2 <= length ms)%nat -> fits64 (whole_total zs) ->
  ((exists z, mean (map inject_Z zs) * inject_Z 100 == inject_Z z)%Q -> decimal_result (arith_eval E d (NFunc F_AVG items)) (mean (map inject_Z zs))) /\
  ((forall z, ~ mean (map inject_Z zs) * inject_Z 100 == inject_Z z)%Q -> arith_eval E d (NFunc F_AVG items) = Err ArithmeticExc).
Proof.
  intros E d items ms zs A W L B. rewrite (call_list E d F_AVG items ms _ A (whole_numbers _ _ W) L) by (cbn; auto 10). cbn [func_evaluate]. unfold eval_avg.
  rewrite (whole_no_decimal ms zs W), (longs_typed ms _ W). cbn [bind]. rewrite long_sum_wrap, wrap64_id by (apply fits64_iff; auto).
  assert (M : (dec_value (bd_of_Z (whole_total zs)) / dec_value (bd_of_Z (Z.of_nat (length (typed ms)))) * (10 # 1) ^ 2 == mean (map inject_Z zs) * inject_Z 100)%Q).
  { unfold mean, bd_of_Z. rewrite !dec_of_Z, total_whole, typed_length, map_length, (Forall2_len _ _ _ _ _ W). reflexivity. }
  destruct (bd_divide_exact (bd_of_Z (whole_total zs)) _ 2 (length_nonzero ms L)) as [(z & -> & T)|[-> T]]; cbn [bind].
  - rewrite M in T. split.
    + intros _. apply cast_decimal_result. transitivity (inject_Z z / inject_Z 100)%Q; [reflexivity|]. rewrite <- T. field.
    + intros X. exfalso. apply (X z), T.
  - split; auto. intros [z X]. exfalso. apply (T z). rewrite M. exact X.
Qed.
Lemma avg_mean : forall E d items, arith_eval E d (NFunc F_AVG items) = arith_eval E d (NFunc F_MEAN items).
Proof. intros. rewrite !arith_func. destruct (arith_items E d items); reflexivity. Qed.

(** C24 *)
Definition Dle (a b : bigdec) : Prop := (dec_value a <= dec_value b)%Q.
Lemma insert_perm : forall x l, Permutation (insert_sorted x l) (x :: l).
Proof.
  intros x l. induction l as [|y l IH]; cbn; auto. destruct (bd_compare x y); auto. rewrite IH. apply perm_swap.
Qed.
Lemma sort_perm : forall l, Permutation (sort_decimals l) l.
Proof. induction l as [|x l IH]; cbn; auto. rewrite insert_perm, IH. auto. Qed.
Lemma insert_sort : forall x l, StronglySorted Dle l -> StronglySorted Dle (insert_sorted x l).
Proof.
  intros x l H. induction H as [|y l S IH F]; cbn; [repeat constructor|]. destruct (bd_compare x y) eqn:C; rewrite dec_compare in C.
  - apply Qeq_alt in C. assert (Dle x y) by (unfold Dle; rewrite C; apply Qle_refl). constructor; [constructor; auto|]. constructor; auto.
    rewrite Forall_forall in *. intros z I. eapply Qle_trans; [exact H|apply F; auto].
  - apply Qlt_alt in C. assert (Dle x y) by (apply Qlt_le_weak; auto). constructor; [constructor; auto|]. constructor; auto.
    rewrite Forall_forall in *. intros z I. eapply Qle_trans; [exact H|apply F; auto].
  - apply Qgt_alt in C. constructor; auto. eapply Permutation_Forall; [symmetry; apply insert_perm|]. constructor; auto. apply Qlt_le_weak; auto.
Qed.
Lemma sort_sorted : forall l, StronglySorted Dle (sort_decimals l).
Proof. induction l; cbn; [constructor|apply insert_sort; auto]. Qed.
Lemma perm_Forall2 : forall A B (R : A -> B -> Prop) l l', Permutation l l' -> forall m, Forall2 R l m -> exists m', Permutation m m' /\ Forall2 R l' m'.
Proof.
  intros A B R l l' P. induction P as [|x l l' P IH|x y l|l l' l'' P1 IH1 P2 IH2]; intros m F.
  - exists m. auto.
  - inversion F as [|? b ? m0 Hb F0]; subst. destruct (IH m0 F0) as (m' & P' & F'). exists (b :: m'). auto.
  - inversion F as [|? b ? m0 Hb F0]; subst. inversion F0 as [|? c ? m1 Hc F1]; subst. exists (c :: b :: m1). split; [apply perm_swap|auto].
  - destruct (IH1 m F) as (m' & P' & F'). destruct (IH2 m' F') as (m'' & P'' & F''). exists m''. split; [etransitivity; eauto|auto].
Qed.
Lemma sorted_values : forall ds qs, Forall2 (fun d q => (dec_value d == q)%Q) ds qs -> StronglySorted Dle ds -> StronglySorted Qle qs.
Proof.
  intros ds qs F S. revert qs F. induction S as [|x l S IH H]; intros qs F; inversion F as [|? q ? qs' Hq F']; subst; constructor; auto.
  clear -H F' Hq. revert H. induction F' as [|a b l m Hab F' IH]; intros H; constructor; inversion H; subst.
  - rewrite <- Hq, <- Hab. auto.
  - apply IH; auto.
Qed.
Lemma sorted_arrangement : forall ds qs, Forall2 (fun d q => (dec_value d == q)%Q) ds qs ->
  exists s, ascending qs s /\ Forall2 (fun d q => (dec_value d == q)%Q) (sort_decimals ds) s.
Proof.
  intros ds qs F. destruct (perm_Forall2 _ _ _ _ _ (Permutation_sym (sort_perm ds)) _ F) as (s & P & Fs). exists s. split; auto.
  split; [symmetry; auto|]. eapply sorted_values; eauto. apply sort_sorted.
Qed.
Lemma Forall2_nth : forall A B (R : A -> B -> Prop) l m i b, Forall2 R l m -> (i < length m)%nat -> exists a, nth_error l i = Some a /\ R a (nth i m b).
Proof.
  intros A B R l m i b F. revert i. induction F as [|x y l m H F IH]; intros i L; cbn in L; [lia|]. destruct i; cbn; eauto. apply IH. lia.
Qed.
Lemma median_result : forall E d items ms qs, arguments E d items ms -> Forall2 number ms qs -> (2 <= length ms)%nat ->
  exists s, ascending qs s /\
    (Nat.odd (length ms) = true -> decimal_result (arith_eval E d (NFunc F_MEDIAN items)) (nth (length ms / 2) s 0%Q)) /\
    (Nat.even (length ms) = true -> exists z,
       truncates ((nth (length ms / 2 - 1) s 0 + nth (length ms / 2) s 0) / 2 * inject_Z 100)%Q z /\
       decimal_result (arith_eval E d (NFunc F_MEDIAN items)) (inject_Z z / inject_Z 100)%Q).
Proof.
  intros E d items ms qs A N L. rewrite (call_list E d F_MEDIAN items ms qs A N L) by (cbn; auto 10). cbn [func_evaluate]. unfold eval_median.
  destruct (decimals_typed ms qs N) as (ds & -> & F). cbn [bind]. destruct (sorted_arrangement ds qs F) as (s & As & Fs). exists s. split; auto.
  rewrite typed_length, Nat.div2_div. assert (Ls : length s = length ms) by (rewrite (Forall2_len _ _ _ _ _ N); apply Permutation_length; apply As).
  assert (Hn : (length ms / 2 < length s)%nat) by (rewrite Ls; apply Nat.div_lt; lia).
  destruct (Forall2_nth _ _ _ _ _ (length ms / 2)%nat 0%Q Fs Hn) as (a & Na & Va).
  unfold list_get. rewrite Na. split; intros P.
  - rewrite <- Nat.negb_odd, P. cbn [negb bind]. apply cast_decimal_result; auto.
  - rewrite P. cbn [bind]. assert (Hm : (length ms / 2 - 1 < length s)%nat) by lia.
    destruct (Forall2_nth _ _ _ _ _ (length ms / 2 - 1)%nat 0%Q Fs Hm) as (b & Nb & Vb). rewrite Nb. cbn [bind].
    destruct (bd_divide_down (bd_add a b) (BD 2 0) 2) as (z & -> & T); [discriminate|]. cbn [bind]. exists z. split.
    + eapply truncates_ext; [|exact T]. rewrite dec_add, Va, Vb, dec_of_Z. rewrite (Qplus_comm (nth (length ms / 2 - 1) s 0%Q)). reflexivity.
    + apply cast_decimal_result. reflexivity.
Qed.
(** Sorted arrangements are unique up to the representation of the numbers. *)
Lemma sorted_unique : forall s1 s2, (forall q, In q s1 -> Qred q = q) -> Permutation s1 s2 -> StronglySorted Qle s1 -> StronglySorted Qle s2 -> s1 = s2.
Proof.
  induction s1 as [|x s1 IH]; intros s2 R P S1 S2; [apply Permutation_nil in P; auto|].
  destruct s2 as [|y s2]; [symmetry in P; apply Permutation_nil in P; discriminate|].
  assert (Rs : forall q, In q (y :: s2) -> Qred q = q) by (intros q I; apply R; eapply Permutation_in; [symmetry; exact P|exact I]).
  inversion S1 as [|? ? S1' F1]; subst. inversion S2 as [|? ? S2' F2]; subst. rewrite Forall_forall in F1, F2.
  assert (E : x = y).
  { assert (Ix : In x (y :: s2)) by (eapply Permutation_in; [exact P|left; auto]). assert (Iy : In y (x :: s1)) by (eapply Permutation_in; [symmetry; exact P|left; auto]).
    destruct Ix as [|Ix]; auto. destruct Iy as [|Iy]; auto. rewrite <- (R x), <- (Rs y) by (left; auto). apply Qred_complete. apply Qle_antisym; auto. }
  subst y. f_equal. apply IH; auto.
  - intros q I. apply R. right; auto.
  - eapply Permutation_cons_inv; eauto.
Qed.
Lemma sorted_map_red : forall s, StronglySorted Qle s -> StronglySorted Qle (map Qred s).
Proof.
  intros s H. induction H as [|x s S IH F]; cbn; constructor; auto. rewrite Forall_forall in *. intros y I. apply in_map_iff in I as (z & <- & I). rewrite !Qred_correct. auto.
Qed.
Lemma ascending_unique : forall qs1 qs2 s1 s2, Permutation qs1 qs2 -> ascending qs1 s1 -> ascending qs2 s2 -> map Qred s1 = map Qred s2.
Proof.
  intros qs1 qs2 s1 s2 P [P1 S1] [P2 S2]. apply sorted_unique; auto using sorted_map_red.
  - intros q I. apply in_map_iff in I as (p & <- & I). apply Qred_complete, Qred_correct.
  - apply Permutation_map. rewrite P1, P, P2. reflexivity.
Qed.
Lemma nth_red : forall s1 s2 i, map Qred s1 = map Qred s2 -> (nth i s1 0 == nth i s2 0)%Q.
Proof.
  intros s1 s2 i H. rewrite <- (Qred_correct (nth i s1 0%Q)), <- (Qred_correct (nth i s2 0%Q)).
  assert (X : forall s, Qred (nth i s 0%Q) = nth i (map Qred s) (Qred 0)) by (intros; symmetry; apply map_nth).
  rewrite !X, H. reflexivity.
Qed.
Lemma decimal_result_ext : forall r p q, (p == q)%Q -> decimal_result r p -> decimal_result r q.
Proof.
  intros r p q H D. destruct D as [z p Hz F|z p Hz F|x p Hz F].
  - apply dr_whole; auto. rewrite <- H; auto.
  - apply dr_too_big with z; auto. rewrite <- H; auto.
  - apply dr_fraction; [|rewrite <- H; auto]. intros z. rewrite <- H. auto.
Qed.
Lemma median_permutation : forall E d items1 items2 ms1 ms2 qs1, arguments E d items1 ms1 -> arguments E d items2 ms2 -> Permutation ms1 ms2 ->
  Forall2 number ms1 qs1 -> (2 <= length ms1)%nat ->
  exists q, decimal_result (arith_eval E d (NFunc F_MEDIAN items1)) q /\ decimal_result (arith_eval E d (NFunc F_MEDIAN items2)) q.
Proof.
  intros E d items1 items2 ms1 ms2 qs1 A1 A2 P N1 L. destruct (perm_Forall2 _ _ _ _ _ P _ N1) as (qs2 & Pq & N2).
  pose proof (Permutation_length P) as Len.
  destruct (median_result E d items1 ms1 qs1 A1 N1 L) as (s1 & As1 & O1 & E1). rewrite Len in L.
  destruct (median_result E d items2 ms2 qs2 A2 N2 L) as (s2 & As2 & O2 & E2). rewrite <- Len in O2, E2.
  pose proof (ascending_unique _ _ _ _ Pq As1 As2) as U.
  destruct (Nat.even (length ms1)) eqn:Ev.
  - destruct (E1 eq_refl) as (z1 & T1 & D1), (E2 eq_refl) as (z2 & T2 & D2).
    assert (z1 = z2) as ->. { eapply truncates_unique; [exact T1|]. eapply truncates_ext; [|exact T2]. rewrite !(nth_red s1 s2 _ U). reflexivity. }
    eauto.
  - assert (Od : Nat.odd (length ms1) = true) by (rewrite <- Nat.negb_even, Ev; auto). specialize (O1 Od). specialize (O2 Od).
    exists (nth (length ms1 / 2) s1 0%Q). split; auto. eapply decimal_result_ext; [|exact O2]. symmetry. apply nth_red; auto.
Qed.

(** C25 *)
Lemma key_eq : forall a b, key_equals a b = true -> a = b.
Proof.
  intros [] []; cbn; intros H; try discriminate H; try (f_equal; lia).
  - unfold bd_equals in H. apply andb_true_iff in H as [H1 H2]. f_equal. destruct d, d0; cbn in *. f_equal; lia.
  - apply andb_true_iff in H as [H1 H2]. apply eqb_prop in H1. apply jstr_eqb_eq in H2. congruence.
  - f_equal. apply jstr_eqb_eq; auto.
Qed.
Lemma key_refl : forall v q, number v q -> key_equals v v = true.
Proof.
  intros v q []; cbn; try apply Z.eqb_refl.
  - unfold bd_equals. rewrite !Z.eqb_refl. reflexivity.
  - rewrite eqb_reflx. cbn. apply jstr_eqb_eq. reflexivity.
Qed.
Definition occ (v : jval) (l : list jval) : nat := length (filter (key_equals v) l).
Lemma occ_app : forall v l m, occ v (l ++ m) = (occ v l + occ v m)%nat.
Proof. intros. unfold occ. rewrite filter_app, app_length. reflexivity. Qed.
Lemma occ_one : forall v w, occ v [w] = if key_equals v w then 1%nat else 0%nat.
Proof. intros. unfold occ. cbn. destruct (key_equals v w); reflexivity. Qed.
Lemma times_occ : forall v l n, key_equals v v = true -> (times v l n <-> n = occ v l).
Proof.
  intros v l n R. split.
  - intros H. induction H as [|l n H IH|w l n D H IH]; auto; unfold occ in *; cbn.
    + rewrite R. cbn. congruence.
    + destruct (key_equals v w) eqn:K; auto. apply key_eq in K. congruence.
  - intros ->. induction l as [|w l IH]; [constructor|]. unfold occ in *. cbn. destruct (key_equals v w) eqn:K; cbn.
    + apply key_eq in K as <-. constructor; auto.
    + constructor; auto. intros ->. congruence.
Qed.
Lemma times_bound : forall v l n, times v l n -> (0 < n)%nat -> In v l.
Proof. intros v l n H. induction H as [|l n H IH|w l n D H IH]; intros P; [lia|left; auto|right; auto]. Qed.

Definition counts (hm : list (jval * Z)) (p : list jval) : Prop :=
  forall k, hm_get k hm = if (occ k p =? 0)%nat then None else Some (Z.of_nat (occ k p)).
Lemma counts_put : forall hm p v, counts hm p -> counts (hm_put v (Z.of_nat (occ v p) + 1) hm) (p ++ [v]).
Proof.
  intros hm p v H k. unfold hm_put. cbn [hm_get]. rewrite occ_app, occ_one. destruct (key_equals k v) eqn:K.
  - apply key_eq in K as ->. destruct (occ v p + 1 =? 0)%nat eqn:Z; [apply Nat.eqb_eq in Z; lia|]. f_equal. lia.
  - rewrite H, Nat.add_0_r. reflexivity.
Qed.
Definition reached (p : list jval) (max : Z) (temp : jval) : Prop :=
  exists p1 p2, p = p1 ++ temp :: p2 /\ Z.of_nat (occ temp (p1 ++ [temp])) = max /\
    (forall w, Z.of_nat (occ w p1) < max) /\ (forall w, Z.of_nat (occ w p) <= max).
Lemma mode_loop_reached : forall vs p hm max temp, (forall v, In v vs -> key_equals v v = true) -> counts hm p -> 1 <= max -> reached p max temp ->
  exists max', 1 <= max' /\ reached (p ++ vs) max' (mode_loop vs hm max temp).
Proof.
  induction vs as [|v vs IH]; intros p hm max temp R C M Re; [exists max; rewrite app_nil_r; auto|].
  assert (Rv : key_equals v v = true) by (apply R; left; auto).
  assert (R' : forall v, In v vs -> key_equals v v = true) by (intros; apply R; right; auto).
  cbn [mode_loop]. pose proof (C v) as Cv. pose proof (counts_put hm p v C) as C'. replace (p ++ v :: vs) with ((p ++ [v]) ++ vs) by (rewrite <- app_assoc; reflexivity).
  assert (Keep : Z.of_nat (occ v p) + 1 <= max -> reached (p ++ [v]) max temp).
  { intros Le. destruct Re as (p1 & p2 & -> & E & F & G). exists p1, (p2 ++ [v]). split; [rewrite <- app_assoc; reflexivity|]. split; auto. split; auto.
    intros w. rewrite occ_app, occ_one. destruct (key_equals w v) eqn:K; [apply key_eq in K as ->; lia|specialize (G w); lia]. }
  destruct (occ v p =? 0)%nat eqn:Z; rewrite Cv.
  - apply Nat.eqb_eq in Z. rewrite Z in C'. apply IH; auto. apply Keep. lia.
  - destruct (max <? Z.of_nat (occ v p) + 1) eqn:L.
    + apply IH; auto; [lia|]. destruct Re as (p1 & p2 & -> & E & F & G). exists (p1 ++ temp :: p2), []. split; auto.
      split; [rewrite occ_app, occ_one, Rv; lia|]. split; [intros w; specialize (G w); lia|].
      intros w. rewrite occ_app, occ_one. destruct (key_equals w v) eqn:K; [apply key_eq in K as ->; lia|specialize (G w); lia].
    + apply IH; auto. apply Keep. lia.
Qed.
Lemma typed_values : forall ms, map fst (typed ms) = ms.
Proof. intros. unfold typed. rewrite map_map. apply map_id. Qed.
Lemma cast_long_smallest : forall z, fits64 z -> smallest z (cast_long z).
Proof.
  intros z H. unfold cast_long. destruct (in_int z) eqn:I; [left|right].
  - split; auto. apply fits32_iff; auto.
  - split; auto. intros X. apply fits32_iff in X. congruence.
Qed.
Lemma mode_result : forall E d items ms qs, arguments E d items ms -> Forall2 number ms qs -> (2 <= length ms)%nat ->
  exists v, first_mode ms v /\ returned (arith_eval E d (NFunc F_MODE items)) v.
Proof.
  intros E d items ms qs A N L. rewrite (call_list E d F_MODE items ms qs A N L) by (cbn; auto 10). cbn [func_evaluate]. unfold eval_mode.
  assert (Num : forall v, In v ms -> exists q, number v q).
  { clear -N. induction N; intros u I; [destruct I|]. destruct I as [<-|I]; eauto. }
  destruct ms as [|v0 ms]; [cbn in L; lia|]. set (all := v0 :: ms) in *. assert (I0 : In v0 all) by (left; auto).
  assert (K : forall v, In v all -> key_equals v v = true) by (intros v I; destruct (Num v I) as [q Hq]; eapply key_refl; eauto).
  change (typed all) with ((v0, get_data_type v0) :: typed ms). change (map fst ((v0, get_data_type v0) :: typed ms)) with (v0 :: map fst (typed ms)). rewrite typed_values.
  cbn [mode_loop hm_get]. destruct (mode_loop_reached ms [v0] (hm_put v0 1 []) 1 v0) as (max & M & p1 & p2 & Eq & O & F & G).
  - intros v I. apply K. right; auto.
  - exact (counts_put [] [] v0 (fun k => eq_refl)).
  - lia.
  - exists [], []. split; auto. split; [cbn [app]; rewrite occ_one, (K v0 I0); reflexivity|]. split; [intros; cbn; lia|]. intros w. rewrite occ_one. destruct (key_equals w v0); lia.
  - set (m := mode_loop ms (hm_put v0 1 []) 1 v0) in *. change ([v0] ++ ms) with all in Eq, G.
    assert (Im : In m all) by (rewrite Eq; apply in_elt). exists m. split.
    + assert (T : forall w l k, incl l all -> times w l k -> (0 < k)%nat -> k = occ w l).
      { intros w l k Il T P. apply times_occ; auto. apply K, Il. eapply times_bound; eauto. }
      exists (Z.to_nat max), p1, p2. split; auto. assert (P1 : occ m (p1 ++ [m]) = Z.to_nat max) by lia.
      assert (P2 : occ m all = Z.to_nat max).
      { apply Nat.le_antisymm; [specialize (G m); lia|]. rewrite Eq. change (p1 ++ m :: p2) with (p1 ++ [m] ++ p2). rewrite app_assoc, occ_app. lia. }
      split; [apply times_occ; auto|]. split; [|split; [apply times_occ; auto|]].
      * intros w k Tk. destruct k; [lia|]. rewrite (T w all (S k)); auto using incl_refl with arith. specialize (G w). lia.
      * intros w k Tk. destruct k; [lia|]. rewrite (T w p1 (S k)); auto with arith; [specialize (F w); lia|]. rewrite Eq. apply incl_appl, incl_refl.
    + destruct (Num m Im) as [q Hq]. destruct Hq; cbn [returned]; auto.
      * exists (cast_long z). split; auto. apply cast_long_smallest; auto.
      * apply cast_decimal_result. reflexivity.
Qed.

(** C26 *)
Lemma finite_valid : forall v, finite v -> valid_arg v.
Proof.
  intros x F. unfold valid_arg. destruct x as [| | | | |b t| | | | | | | |]; try reflexivity.
  - destruct (F b t eq_refl) as [q Hq]. eapply number_valid, number_float; eauto.
  - cbn. destruct (parse_datetime s) eqn:A; cbn; [rewrite A; reflexivity|]. destruct (parse_date s) eqn:B; cbn; [rewrite B; reflexivity|reflexivity].
Qed.
Lemma len_call : forall E d items ms, arguments E d items ms -> ms <> [] -> Forall finite ms -> arith_eval E d (NFunc F_LEN items) = eval_len (typed ms).
Proof.
  intros E d items ms A N F. rewrite (function_arguments _ _ _ _ _ A). unfold evaluate_function. destruct (typed ms) as [|e es] eqn:T; [destruct ms; [congruence|discriminate T]|].
  rewrite <- T. replace (existsb _ (func_containers F_LEN)) with true by (destruct (1 <? _)%nat; reflexivity).
  replace (forallb _ (typed ms)) with true by (symmetry; apply forallb_forall; intros [v t] _; destruct t; reflexivity).
  cbn [negb]. rewrite validate_typed; [reflexivity|]. eapply Forall_impl; [|exact F]. intros; apply finite_valid; auto.
Qed.
Lemma len_text : forall E d items s, arguments E d items [VStr s] -> arith_eval E d (NFunc F_LEN items) = Ok (VInt (Z.of_nat (length s))).
Proof. intros E d items s A. rewrite (len_call E d items [VStr s] A); [reflexivity|discriminate|]. constructor; [intros b t H; discriminate H|constructor]. Qed.
Lemma len_list : forall E d items ms, arguments E d items ms -> (2 <= length ms)%nat -> Forall finite ms ->
  arith_eval E d (NFunc F_LEN items) = Ok (VInt (Z.of_nat (length ms))).
Proof.
  intros E d items ms A L F. rewrite (len_call E d items ms A) by (auto; intros ->; cbn in L; lia).
  destruct ms as [|a [|b ms]]; cbn in L; try lia. cbn [typed map eval_len]. destruct a; cbn [length]; rewrite map_length; reflexivity.
Qed.
Lemma len_single : forall E d items m, arguments E d items [m] -> finite m -> ~ text m -> arith_eval E d (NFunc F_LEN items) = Ok (VInt 1).
Proof.
  intros E d items m A F T. rewrite (len_call E d items [m] A) by (auto; discriminate). destruct m; try reflexivity. exfalso. apply T. eexists; eauto.
Qed.
Lemma len_empty : forall E d items, arguments E d items [] -> arith_eval E d (NFunc F_LEN items) = Err InvalidExpression.
Proof. intros E d items A. rewrite (function_arguments _ _ _ _ _ A). reflexivity. Qed.

(** C27 *)
Lemma int_call : forall E d n v q, arith_eval E d n = Ok v -> number v q -> arith_eval E d (NFunc F_INT [n]) = eval_int [(v, get_data_type v)].
Proof.
  intros E d n v q A N. rewrite (function_arguments E d F_INT [n] [v]).
  - unfold evaluate_function. change (typed [v]) with [(v, get_data_type v)] at 1. cbn [length typed map Nat.ltb Nat.leb func_containers existsb container_eqb orb negb].
    change [(v, get_data_type v)] with (typed [v]). rewrite (number_mem [v] [q] F_INT) by (auto; constructor; auto). cbn [negb]. rewrite (validate_typed [v]); [reflexivity|].
    eapply number_args_valid. constructor; [eauto|constructor].
  - exists [v]. split; [constructor; auto|]. destruct N; reflexivity.
Qed.
Lemma int_result : forall E d n v q, arith_eval E d n = Ok v -> number v q ->
  exists z y, truncates q z /\ arith_eval E d (NFunc F_INT [n]) = Ok (VInt y) /\ wraps 32 z y /\ (fits32 z -> y = z).
Proof.
  intros E d n v q A N. rewrite (int_call E d n v q A N). pose proof (number_decimal v q N) as (x & Dx & Px).
  destruct N as [z q F Eq|z q F Eq|b q Eq|dbl t q Ft]; cbn [get_data_type eval_int].
  - exists z, z. split; [eapply truncates_ext; [symmetry; exact Eq|apply truncates_int]|]. split; auto. split; auto. split; [unfold fits32 in F; cbn; lia|]. exists 0. lia.
  - exists z, (wrap32 z). split; [eapply truncates_ext; [symmetry; exact Eq|apply truncates_int]|]. split; auto. split; [apply wraps32|]. intros X. apply wrap32_id, fits32_iff; auto.
  - rewrite Dx. cbn [opt_get bind]. exists (bd_trunc x), (wrap32 (bd_trunc x)). split; [eapply truncates_ext; [exact Px|apply bd_trunc_truncates]|]. split; auto.
    split; [apply wraps32|]. intros X. apply wrap32_id, fits32_iff; auto.
  - rewrite Dx. cbn [opt_get bind]. exists (bd_trunc x), (wrap32 (bd_trunc x)). split; [eapply truncates_ext; [exact Px|apply bd_trunc_truncates]|]. split; auto.
    split; [apply wraps32|]. intros X. apply wrap32_id, fits32_iff; auto.
Qed.

(** Witnesses *)
Lemma min_long_rounds : exists E d items zs x y, arguments E d items (map VLong zs) /\ Forall fits64 zs /\ (2 <= length zs)%nat /\
  arith_eval E d (NFunc F_MIN items) = Ok (VDec x) /\ (dec_value x == inject_Z y)%Q /\ ~ In y zs.
Proof.
  exists exact_env, [], [lit (VLong 9007199254740993); lit (VLong 9007199254740995)], [9007199254740993; 9007199254740995], (BD 9007199254740992 0), 9007199254740992.
  split; [eexists; split; [repeat constructor|reflexivity]|]. split; [repeat constructor; discriminate|]. split; [cbn; auto|]. split; [vm_compute; reflexivity|].
  split; [reflexivity|]. intros [H|[H|[]]]; discriminate H.
Qed.
Lemma len_singleton : exists E d n ms, arith_eval E d n = Ok (VColl true ms) /\ Forall finite ms /\ ms <> [] /\
  arith_eval E d (NFunc F_LEN [n]) <> Ok (VInt (Z.of_nat (length ms))).
Proof.
  exists exact_env, [], (lit (VColl true [VStr (J "hello")])), [VStr (J "hello")]. split; [reflexivity|]. split; [constructor; [intros b t H; discriminate H|constructor]|].
  split; [discriminate|]. vm_compute. discriminate.
Qed.
