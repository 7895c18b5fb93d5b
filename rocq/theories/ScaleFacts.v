(** C75: the number of decimals of results. *)
From Coq Require Import QArith Qabs Qpower Permutation Sorted Lia Lqa ZifyBool.
From Verif Require Import RecoverFacts RecoverTexts RecoverOrigin ListenAny SpecRecover AnyText.
From Verif Require Import Base JNum BigDec Dates Version Values Ops Funcs Ast Eval JNumFacts SpecNum SpecDate SpecLex SpecCompare SpecArith SpecFunc BigDecFacts NumFacts CompareFacts FieldFacts CacheFacts ArithFacts
  FuncFacts SpecMixed MixedFacts SpecCompute ComputeFacts InsertFacts SpecScale.
Local Open Scope Z_scope.

(** ** Decimals held *)
Lemma held_decimal v b : held v b -> decimal_value v = Some b.
Proof.
  intros H. destruct H as [z Z|z Z|b|dbl neg ip fp N1 N2 D1 D2 L|dbl neg ip fp e N1 N2 D1 D2 L B].
  - unfold decimal_value, number_of. cbn [show]. apply parse_bigdec_print_Z.
  - unfold decimal_value, number_of. cbn [show]. apply parse_bigdec_print_Z.
  - reflexivity.
  - unfold decimal_value, number_of. cbn [show]. destruct (digits_head ip N1 D1) as (c & r & Hc & Hd). destruct neg.
    + change (J "-" ++ ?x) with (ch "-" :: x). rewrite parse_bigdec_neg. change (J "." ++ fp) with (ch "." :: fp). rewrite parse_unsigned_point by auto. cbn [option_map bd_neg unscaled scale].
      unfold bd_neg. cbn [unscaled scale]. do 2 f_equal; try lia.
    + cbn [app]. rewrite parse_bigdec_unsigned with (c := c) (r := r ++ J "." ++ fp); auto; [|rewrite Hc; reflexivity].
      change (J "." ++ fp) with (ch "." :: fp). rewrite parse_unsigned_point by auto. do 2 f_equal; try lia.
  - unfold decimal_value, number_of. cbn [show]. destruct (digits_head ip N1 D1) as (c & r & Hc & Hd). destruct neg.
    + change (J "-" ++ ?x) with (ch "-" :: x). rewrite parse_bigdec_neg. change (J "." ++ fp ++ J "E" ++ print_Z e) with (ch "." :: fp ++ ch "E" :: print_Z e).
      rewrite parse_unsigned_exp by (auto; lia). unfold bd_neg. cbn [option_map unscaled scale]. unfold bd_neg. cbn [unscaled scale]. do 2 f_equal; try lia.
    + cbn [app]. rewrite parse_bigdec_unsigned with (c := c) (r := r ++ J "." ++ fp ++ J "E" ++ print_Z e); auto; [|rewrite Hc; reflexivity].
      change (J "." ++ fp ++ J "E" ++ print_Z e) with (ch "." :: fp ++ ch "E" :: print_Z e). rewrite parse_unsigned_exp by (auto; lia). do 2 f_equal; try lia.
Qed.
Lemma held_number v b : held v b -> number v (dec_value b).
Proof.
  intros H. pose proof (held_decimal v b H) as D. destruct H as [z Z|z Z|b|dbl neg ip fp N1 N2 D1 D2 L|dbl neg ip fp e N1 N2 D1 D2 L B].
  - constructor; [exact Z|apply dec_of_Z].
  - constructor; [exact Z|apply dec_of_Z].
  - constructor. reflexivity.
  - set (t := _ ++ _) in *.
    assert (F : float_text t ((if neg then -1 # 1 else 1) * (inject_Z (digits_val ip) + inject_Z (digits_val fp) * (10 # 1) ^ (- Z.of_nat (length fp))) * (10 # 1) ^ 0)%Q)
      by (exists neg, ip, fp, None; repeat split; auto; try (intros; discriminate); unfold t; rewrite app_nil_r; reflexivity).
    destruct (float_parses t _ F) as (d & P & V). assert (d = BD ((if neg then -1 else 1) * digits_val (ip ++ fp)) (Z.of_nat (length fp))) as <-.
    { cbv [decimal_value number_of show] in D. congruence. }
    constructor. clear -V F. destruct F as (n & a & b & c & A1 & A2 & A3 & A4 & A5 & A6 & A7 & A8). exists n, a, b, c. repeat split; auto; try (apply A6; assumption). rewrite V. exact A8.
  - set (t := _ ++ _) in *.
    assert (F : float_text t ((if neg then -1 # 1 else 1) * (inject_Z (digits_val ip) + inject_Z (digits_val fp) * (10 # 1) ^ (- Z.of_nat (length fp))) * (10 # 1) ^ e)%Q)
      by (exists neg, ip, fp, (Some e); repeat split; auto; intros; match goal with X : Some _ = Some _ |- _ => injection X as <- end; lia).
    destruct (float_parses t _ F) as (d & P & V). assert (d = BD ((if neg then -1 else 1) * digits_val (ip ++ fp)) (Z.of_nat (length fp) - e)) as <-.
    { cbv [decimal_value number_of show] in D. congruence. }
    constructor. clear -V F. destruct F as (n & a & b & c & A1 & A2 & A3 & A4 & A5 & A6 & A7 & A8). exists n, a, b, c. repeat split; auto; try (apply A6; assumption). rewrite V. exact A8.
Qed.
(** Every number has a number of decimals. *)
Lemma number_held v q : number v q -> exists b, held v b /\ (dec_value b == q)%Q.
Proof.
  intros H. assert (X : exists b, held v b).
  { destruct H as [z q Hz Hq|z q Hz Hq|d q Hq|dbl t q (neg & ip & fp & ex & N1 & N2 & D1 & D2 & L & B & -> & V)].
    - eexists. constructor. exact Hz.
    - eexists. constructor. exact Hz.
    - eexists. constructor.
    - destruct ex as [e|].
      + eexists. apply held_float_exponent; auto.
      + rewrite app_nil_r. eexists. apply held_float; auto. }
  destruct X as [b X]. exists b. split; [exact X|]. destruct (number_decimal v q H) as (d & D & V). rewrite (held_decimal v b X) in D. injection D as <-. exact V.
Qed.
Lemma held_unique v b b' : held v b -> held v b' -> b = b'.
Proof. intros A B. apply held_decimal in A, B. congruence. Qed.

(** ** Operators *)
Lemma held_operator E d l r v w x y op : arith_eval E d l = Ok v -> arith_eval E d r = Ok w -> held v x -> held w y -> decimal v \/ decimal w ->
  (op = ADD \/ op = SUBTRACT -> exists u, arith_eval E d (bin l op r) = Ok (VDec u) /\ scale u = Z.max (scale x) (scale y)) /\
  (op = MULTIPLY -> exists u, arith_eval E d (bin l op r) = Ok (VDec u) /\ scale u = scale x + scale y).
Proof.
  intros L R Hv Hw D.
  assert (K : op = ADD \/ op = SUBTRACT \/ op = MULTIPLY -> arith_eval E d (bin l op r) = Ok (VDec (match op with ADD => bd_add x y | SUBTRACT => bd_sub x y | _ => bd_mul x y end))).
  { intros Hop. pose proof (held_number _ _ Hv) as Nv. pose proof (held_number _ _ Hw) as Nw.
    assert (A : arithmetic op) by (destruct Hop as [->|[->| ->]]; sup).
    rewrite (bin_apply _ _ _ _ _ _ _ L R A); eauto using number_valid; try (eapply number_supported; eauto; intuition; fail).
    assert (T : either DECIMAL (get_data_type v) (get_data_type w) = true) by (unfold decimal, either in *; destruct D as [-> | ->]; cbn; rewrite ?orb_true_r; reflexivity).
    assert (T' : either STRING (get_data_type v) (get_data_type w) = false /\ either VERSION (get_data_type v) (get_data_type w) = false /\ either BOOLEAN (get_data_type v) (get_data_type w) = false).
    { destruct (number_dtype v _ Nv) as [->|[->| ->]], (number_dtype w _ Nw) as [->|[->| ->]]; repeat split; reflexivity. }
    destruct T' as (T1 & T2 & T3).
    destruct Hop as [->|[->| ->]]; cbn [apply_op]; unfold eval_add, eval_subtract, eval_multiply; rewrite ?T1, ?T2, ?T3, T, (held_decimal _ _ Hv), (held_decimal _ _ Hw); reflexivity. }
  split; intros O.
  - rewrite K by tauto. destruct O as [-> | ->]; eexists; (split; [reflexivity|]); reflexivity.
  - rewrite K by tauto. subst op. eexists; (split; [reflexivity|]); reflexivity.
Qed.
Lemma cast_same b y : cast_decimal b = Ok (VDec y) -> y = b.
Proof.
  intros H. destruct (integral_dec b) as [[z Hz]|N].
  - rewrite (cast_decimal_integral b z Hz) in H. destruct (in_int z); discriminate H.
  - rewrite (cast_decimal_fraction b N) in H. congruence.
Qed.
Lemma divide_scale a b s m c : bd_divide a b s m = Ok c -> scale c = s.
Proof. unfold bd_divide. destruct (unscaled b =? 0); [discriminate|]. destruct m; [intros [= <-]; reflexivity|]. destruct (_ =? 0); [intros [= <-]; reflexivity|discriminate]. Qed.
Lemma held_divide E d l r v w p q y : arith_eval E d l = Ok v -> arith_eval E d r = Ok w -> number v p -> number w q ->
  arith_eval E d (bin l DIVIDE r) = Ok (VDec y) -> scale y = 3.
Proof.
  intros L R Nv Nw.
  rewrite (bin_apply _ _ _ DIVIDE _ _ _ L R); eauto using number_valid; try (eapply number_supported; eauto; intuition; fail); [|sup].
  destruct (number_decimal v p Nv) as (x & Dx & _), (number_decimal w q Nw) as (z & Dz & _).
  cbn [apply_op]. unfold eval_divide. rewrite Dx, Dz. cbn [opt_get bind]. destruct (bd_divide x z 3 RoundDown) as [c|] eqn:B; [|discriminate]. cbn [bind].
  intros H. apply cast_same in H. subst y. exact (divide_scale _ _ _ _ _ B).
Qed.
Lemma held_negation E d n b : arith_eval E d n = Ok (VDec b) -> arith_eval E d (neg n) = Ok (VDec (BD (- unscaled b) (scale b))).
Proof.
  intros H. cbn. unfold neg. cbn [arith_eval]. rewrite H. cbn [bind]. reflexivity.
Qed.
Lemma odd_five z k : Z.odd z = true -> 0 <= k -> (z * 5 ^ k) mod 10 <> 0.
Proof.
  intros O K H. assert (X : Z.odd (z * 5 ^ k) = true).
  { rewrite Z.odd_mul, O. destruct (Z.eq_dec k 0) as [->|N]; [reflexivity|]. rewrite Z.odd_pow by lia. reflexivity. }
  rewrite (Z.div_mod (z * 5 ^ k) 10), H, Z.add_0_r, Z.odd_mul in X by lia. discriminate X.
Qed.
Lemma odd_part_odd p : forall e, Z.odd (Zpos (fst (odd_part p e))) = true.
Proof. induction p as [p IH|p IH|]; intros e; cbn [odd_part fst]; [reflexivity|apply IH|reflexivity]. Qed.
Lemma double_scale m e b : bd_of_double (DFin m e) = Ok b -> scale b = 0 \/ (0 < scale b /\ unscaled b mod 10 <> 0).
Proof.
  unfold bd_of_double. destruct m as [|p|p].
  - intros H. injection H as <-. left. reflexivity.
  - pose proof (odd_part_odd p e) as O. destruct (odd_part p e) as [q f]. cbn [fst] in O. destruct (f <? 0) eqn:L; intros H; [|left; assert (E : b = BD (Zpos q * 2 ^ f) 0) by congruence; rewrite E; reflexivity].
    apply Z.ltb_lt in L. right. assert (E : b = BD (Zpos q * 5 ^ (- f)) (- f)) by congruence. rewrite E. split; [change (0 < - f); lia|]. apply (odd_five (Zpos q) (- f)); [exact O|lia].
  - pose proof (odd_part_odd p e) as O. destruct (odd_part p e) as [q f]. cbn [fst] in O. destruct (f <? 0) eqn:L; intros H; [|left; assert (E : b = BD (Zneg q * 2 ^ f) 0) by congruence; rewrite E; reflexivity].
    apply Z.ltb_lt in L. right. assert (E : b = BD (Zneg q * 5 ^ (- f)) (- f)) by congruence. rewrite E. split; [change (0 < - f); lia|]. apply (odd_five (Zneg q) (- f)); [exact O|lia].
Qed.
Lemma cast_double_scale u y : cast_double u = Ok (VDec y) -> scale y = 0 \/ (0 < scale y /\ unscaled y mod 10 <> 0).
Proof.
  unfold cast_double. destruct (bd_of_double u) as [b|] eqn:B; [|discriminate]. cbn [bind]. destruct ((scale b =? 0) && in_int (unscaled b)); [discriminate|]. intros [= <-].
  destruct u as [| |m e]; try discriminate B. exact (double_scale m e b B).
Qed.
Lemma held_power E d l r v w p q y : arith_eval E d l = Ok v -> arith_eval E d r = Ok w -> number v p -> number w q ->
  arith_eval E d (bin l EXPONENT r) = Ok (VDec y) -> scale y = 0 \/ (0 < scale y /\ unscaled y mod 10 <> 0).
Proof.
  intros L R Nv Nw.
  rewrite (bin_apply _ _ _ EXPONENT _ _ _ L R); eauto using number_valid; try (eapply number_supported; eauto; intuition; fail); [|sup].
  cbn [apply_op]. unfold eval_exponent. destruct (either DECIMAL _ _).
  - destruct (decimal_value v); [|discriminate]. destruct (decimal_value w); [|discriminate]. cbn [opt_get bind]. apply cast_double_scale.
  - destruct (long_value v); [|discriminate]. destruct (long_value w); [|discriminate]. cbn [opt_get bind]. apply cast_double_scale.
Qed.

(** ** Functions *)
Lemma decimals_held ms bs : Forall2 held ms bs -> decimals (typed ms) = Ok bs.
Proof.
  intros H. induction H as [|v b ms bs Hv _ IH]; [reflexivity|]. unfold decimals in *. cbn [typed map mapM fst]. rewrite (held_decimal v b Hv). cbn [opt_get bind].
  change (map (fun v0 => (v0, get_data_type v0)) ms) with (typed ms). rewrite IH. reflexivity.
Qed.
Lemma held_numbers ms bs : Forall2 held ms bs -> Forall2 number ms (map dec_value bs).
Proof. intros H. induction H; constructor; auto. apply held_number; auto. Qed.
Lemma long_scale z y : cast_long_as_double z = Ok (VDec y) -> scale y = 0.
Proof.
  unfold cast_long_as_double. intros H. assert (V : (double_value (round_double z) 0 == inject_Z (round_double z))%Q) by (unfold double_value; cbn; ring).
  rewrite (cast_double_whole _ _ _ V) in H. destruct (in_int _); [discriminate|]. injection H as <-. reflexivity.
Qed.
Lemma best_step (f : bigdec -> bigdec -> bigdec) (R : Q -> Q -> Prop) :
  (forall p, R p p) -> (forall p q r, R p q -> R q r -> R p r) -> (forall p q, R p q -> R q p -> (p == q)%Q) ->
  (forall p q q', (q == q')%Q -> R p q -> R p q') ->
  (forall a b, (f a b = a /\ R (dec_value a) (dec_value b)) \/ (f a b = b /\ R (dec_value b) (dec_value a) /\ ~ (dec_value a == dec_value b)%Q)) ->
  forall bs pre a, first_best R pre a -> first_best R (pre ++ bs) (fold_left f bs a).
Proof.
  intros Rr Rt Ra Re Hf bs. induction bs as [|b bs IH]; intros pre a (x & y & E & A & B).
  - rewrite app_nil_r. exists x, y. auto.
  - replace (pre ++ b :: bs) with ((pre ++ [b]) ++ bs) by (rewrite <- app_assoc; reflexivity). cbn [fold_left]. apply IH.
    destruct (Hf a b) as [[-> K]|[-> [K N]]].
    + exists x, (y ++ [b]). split; [rewrite E, <- app_assoc; reflexivity|]. split; [|exact B]. intros c I. apply in_app_or in I as [I|[<-|[]]]; auto.
    + exists pre, []. split; [reflexivity|]. split.
      * intros c I. apply in_app_or in I as [I|[<-|[]]]; [|apply Rr]. eapply Rt; [exact K|auto].
      * intros c I H. apply N. apply Ra; [|exact K]. eapply Re; [exact H|]. auto.
Qed.
Lemma best_fold (f : bigdec -> bigdec -> bigdec) (R : Q -> Q -> Prop) :
  (forall p, R p p) -> (forall p q r, R p q -> R q r -> R p r) -> (forall p q, R p q -> R q p -> (p == q)%Q) ->
  (forall p q q', (q == q')%Q -> R p q -> R p q') ->
  (forall a b, (f a b = a /\ R (dec_value a) (dec_value b)) \/ (f a b = b /\ R (dec_value b) (dec_value a) /\ ~ (dec_value a == dec_value b)%Q)) ->
  forall bs y, reduce1 f bs = Ok y -> first_best R bs y.
Proof.
  intros Rr Rt Ra Re Hf [|b bs] y H; [discriminate|]. cbn in H. injection H as <-. apply (best_step f R Rr Rt Ra Re Hf bs [b] b).
  exists [], []. split; [reflexivity|]. split; [intros c [<-|[]]; apply Rr|intros c []].
Qed.
Lemma min_first bs y : reduce1 bd_min2 bs = Ok y -> first_best Qle bs y.
Proof.
  apply best_fold; [apply Qle_refl|apply Qle_trans|apply Qle_antisym|intros p q q' -> H; exact H|].
  intros a b. unfold bd_min2. rewrite dec_compare. destruct (dec_value a ?= dec_value b)%Q eqn:C.
  - left. split; auto. apply Qeq_alt in C. rewrite C. apply Qle_refl.
  - left. split; auto. apply Qlt_alt in C. apply Qlt_le_weak; auto.
  - right. split; auto. apply Qgt_alt in C. split; [apply Qlt_le_weak; auto|]. intros X. rewrite X in C. apply (Qlt_irrefl _ C).
Qed.
Lemma max_first bs y : reduce1 bd_max2 bs = Ok y -> first_best (fun p q => (q <= p)%Q) bs y.
Proof.
  apply best_fold; [apply Qle_refl|intros p q r A B; exact (Qle_trans _ _ _ B A)|intros p q A B; apply Qle_antisym; auto|intros p q q' -> H; exact H|].
  intros a b. unfold bd_max2. rewrite dec_compare. destruct (dec_value a ?= dec_value b)%Q eqn:C.
  - left. split; auto. apply Qeq_alt in C. rewrite C. apply Qle_refl.
  - right. split; auto. apply Qlt_alt in C. split; [apply Qlt_le_weak; auto|]. intros X. rewrite X in C. apply (Qlt_irrefl _ C).
  - left. split; auto. apply Qgt_alt in C. apply Qlt_le_weak; auto.
Qed.
Lemma fold_scale bs : forall a, scale (fold_left bd_add bs a) = Z.max (scale a) (fold_right Z.max (scale a) (map scale bs)).
Proof. induction bs as [|b bs IH]; intros a; cbn [fold_left map fold_right]; [lia|]. rewrite IH. cbn [bd_add scale]. clear IH. generalize (scale a) (scale b) (map scale bs). clear. intros s t l. induction l as [|z l IH]; cbn [fold_right]; lia. Qed.
Lemma sum_scale bs : scale (bd_sum bs) = most_decimals bs.
Proof. unfold bd_sum, most_decimals. rewrite fold_scale. cbn [scale]. generalize (map scale bs). intros l. induction l as [|z l IH]; cbn [fold_right]; lia. Qed.

(** Sorting keeps equal elements in order. *)
Lemma lower_app y a b : lower y (a ++ b) = lower y a ++ lower y b. Proof. apply filter_app. Qed.
Lemma lower_perm y a b : Permutation a b -> length (lower y a) = length (lower y b).
Proof.
  intros P. unfold lower. induction P; cbn [filter]; auto; repeat match goal with |- context [if ?c then _ else _] => destruct c end; cbn [length]; congruence.
Qed.
Lemma insert_split x l : StronglySorted Dle l -> exists a b, l = a ++ b /\ insert_sorted x l = a ++ x :: b /\
  (forall c, In c a -> (dec_value c < dec_value x)%Q) /\ (forall c, In c b -> (dec_value x <= dec_value c)%Q).
Proof.
  intros H. induction H as [|y l S IH F]; [exists [], []; repeat split; auto; intros c []|]. cbn [insert_sorted]. rewrite dec_compare.
  assert (K : (dec_value x <= dec_value y)%Q -> forall c, In c (y :: l) -> (dec_value x <= dec_value c)%Q).
  { intros L c [<-|I]; [exact L|]. rewrite Forall_forall in F. eapply Qle_trans; [exact L|apply F, I]. }
  destruct (dec_value x ?= dec_value y)%Q eqn:C.
  - exists [], (y :: l). repeat split; auto; [intros c []|]. apply K. apply Qeq_alt in C. rewrite C. apply Qle_refl.
  - exists [], (y :: l). repeat split; auto; [intros c []|]. apply K. apply Qlt_alt in C. apply Qlt_le_weak; auto.
  - destruct IH as (a & b & -> & -> & A & B). exists (y :: a), b. repeat split; auto. intros c [<-|I]; [apply Qgt_alt in C; exact C|apply A, I].
Qed.
Lemma lower_all y a : (forall c, In c a -> (dec_value c < dec_value y)%Q) -> length (lower y a) = length a.
Proof.
  induction a as [|c a IH]; intros H; [reflexivity|]. unfold lower in *. cbn [filter]. destruct (Qle_bool (dec_value y) (dec_value c)) eqn:L.
  - apply Qle_bool_iff in L. exfalso. apply (Qlt_not_le _ _ (H c (or_introl eq_refl)) L).
  - cbn [negb length]. rewrite IH; [reflexivity|]. intros c' I. apply H. right. exact I.
Qed.
Lemma lower_none y a : (forall c, In c a -> (dec_value y <= dec_value c)%Q) -> lower y a = [].
Proof.
  induction a as [|c a IH]; intros H; [reflexivity|]. unfold lower in *. cbn [filter]. rewrite (proj2 (Qle_bool_iff _ _) (H c (or_introl eq_refl))). cbn [negb].
  apply IH. intros c' I. apply H. right. exact I.
Qed.
Lemma sort_place bs : forall k y, nth_error (sort_decimals bs) k = Some y -> in_place k bs y.
Proof.
  induction bs as [|x bs IH]; intros k y H; [destruct k; discriminate H|]. cbn [sort_decimals] in H.
  destruct (insert_split x (sort_decimals bs) (sort_sorted bs)) as (a & b & E & I & A & B). rewrite I in H.
  assert (P : length (lower x bs) = length a).
  { rewrite (lower_perm x bs (a ++ b)); [|rewrite <- E; symmetry; apply sort_perm]. rewrite lower_app, app_length, (lower_all x a A), (lower_none x b B). cbn [length]. lia. }
  destruct (Nat.lt_trichotomy k (length a)) as [L|[->|G]].
  - rewrite nth_error_app1 in H by exact L. assert (Y : (dec_value y < dec_value x)%Q) by (apply A; eapply nth_error_In; exact H).
    destruct (IH k y) as (u & w & F & C); [rewrite E, nth_error_app1 by exact L; exact H|]. exists (x :: u), w. split; [rewrite F; reflexivity|].
    unfold lower, level in *. cbn [filter]. rewrite (proj2 (Qle_bool_iff _ _) (Qlt_le_weak _ _ Y)). cbn [negb].
    destruct (Qeq_bool (dec_value x) (dec_value y)) eqn:Q; [|exact C]. apply Qeq_bool_iff in Q. rewrite Q in Y. exfalso. exact (Qlt_irrefl _ Y).
  - rewrite nth_error_app2, Nat.sub_diag in H by lia. cbn in H. injection H as <-. exists [], bs. split; [reflexivity|].
    unfold lower in *. cbn [filter]. rewrite (proj2 (Qle_bool_iff _ _) (Qle_refl _)). cbn [negb level filter length]. rewrite P. lia.
  - rewrite nth_error_app2 in H by lia. destruct (k - length a)%nat as [|j] eqn:J; [lia|]. cbn [nth_error] in H.
    assert (Y : (dec_value x <= dec_value y)%Q) by (apply B; eapply nth_error_In; exact H).
    destruct (IH (k - 1)%nat y) as (u & w & F & C); [rewrite E, nth_error_app2 by lia; replace (k - 1 - length a)%nat with j by lia; exact H|].
    exists (x :: u), w. split; [rewrite F; reflexivity|]. unfold lower, level in *. cbn [filter].
    destruct (Qle_bool (dec_value y) (dec_value x)) eqn:L; cbn [negb].
    + apply Qle_bool_iff in L. replace (Qeq_bool (dec_value x) (dec_value y)) with true by (symmetry; apply Qeq_bool_iff, Qle_antisym; auto). cbn [length]. lia.
    + replace (Qeq_bool (dec_value x) (dec_value y)) with false; [cbn [length]; lia|]. symmetry. apply not_true_iff_false. intros Q. apply Qeq_bool_iff in Q.
      assert (T : Qle_bool (dec_value y) (dec_value x) = true) by (apply Qle_bool_iff; rewrite Q; apply Qle_refl). congruence.
Qed.
Lemma list_call E d f items ms bs y : arguments E d items ms -> Forall2 held ms bs -> (2 <= length ms)%nat -> list_function f ->
  arith_eval E d (NFunc f items) = Ok (VDec y) -> func_evaluate E f (typed ms) = Ok (VDec y).
Proof. intros A H L F R. rewrite <- R. symmetry. eapply call_list; eauto using held_numbers. Qed.
Ltac listf := unfold list_function; cbn; tauto.
Lemma held_extreme E d f items ms bs y : f = F_MIN \/ f = F_MAX -> arguments E d items ms -> Forall2 held ms bs -> (2 <= length ms)%nat ->
  arith_eval E d (NFunc f items) = Ok (VDec y) ->
  (Exists decimal ms -> (f = F_MIN /\ first_best (fun p q => p <= q)%Q bs y) \/ (f = F_MAX /\ first_best (fun p q => q <= p)%Q bs y)) /\ (~ Exists decimal ms -> scale y = 0).
Proof.
  intros [-> | ->] A H L R; apply (list_call E d _ items ms bs y A H L) in R; try listf; cbn [func_evaluate] in R; unfold eval_min, eval_max in R; (split; intros D).
  - rewrite (decimal_has ms D), (decimals_held ms bs H) in R. cbn [bind] in R. destruct (reduce1 bd_min2 bs) as [x|] eqn:X; [|discriminate R]. cbn [bind] in R. apply cast_same in R. subst y. left. split; [reflexivity|exact (min_first bs x X)].
  - destruct (has_type DECIMAL (typed ms)) eqn:T; [apply has_type_iff in T; contradiction|]. destruct (has_type LONG (typed ms)).
    + destruct (longs (typed ms)) as [zs|]; [|discriminate R]. cbn [bind] in R. destruct (reduce1 Z.min zs); [|discriminate R]. exact (long_scale _ _ R).
    + destruct (ints (typed ms)) as [zs|]; [|discriminate R]. cbn [bind] in R. destruct (reduce1 Z.min zs); [|discriminate R]. exact (long_scale _ _ R).
  - rewrite (decimal_has ms D), (decimals_held ms bs H) in R. cbn [bind] in R. destruct (reduce1 bd_max2 bs) as [x|] eqn:X; [|discriminate R]. cbn [bind] in R. apply cast_same in R. subst y. right. split; [reflexivity|exact (max_first bs x X)].
  - destruct (has_type DECIMAL (typed ms)) eqn:T; [apply has_type_iff in T; contradiction|]. destruct (has_type LONG (typed ms)).
    + destruct (longs (typed ms)) as [zs|]; [|discriminate R]. cbn [bind] in R. destruct (reduce1 Z.max zs); [|discriminate R]. exact (long_scale _ _ R).
    + destruct (ints (typed ms)) as [zs|]; [|discriminate R]. cbn [bind] in R. destruct (reduce1 Z.max zs); [|discriminate R]. exact (long_scale _ _ R).
Qed.
Lemma held_sum E d items ms bs y : arguments E d items ms -> Forall2 held ms bs -> (2 <= length ms)%nat ->
  arith_eval E d (NFunc F_SUM items) = Ok (VDec y) -> scale y = most_decimals bs.
Proof.
  intros A H L R. apply (list_call E d _ items ms bs y A H L) in R; try listf. cbn [func_evaluate] in R. unfold eval_sum in R. destruct (has_type DECIMAL (typed ms)) eqn:T.
  - rewrite (decimals_held ms bs H) in R. cbn [bind] in R. apply cast_same in R. subst y. apply sum_scale.
  - destruct (longs (typed ms)) as [zs|]; [|discriminate R]. cbn [bind] in R. rewrite (long_scale _ _ R).
    assert (N : ~ Exists decimal ms) by (intros D; apply decimal_has in D; congruence). clear -H N. unfold most_decimals.
    induction H as [|v b ms bs Hv H IH]; [reflexivity|]. cbn [map fold_right]. rewrite <- IH by (intros D; apply N; right; exact D).
    assert (X : ~ decimal v) by (intros D; apply N; left; exact D). destruct Hv; try (contradiction X; reflexivity); reflexivity.
Qed.
Lemma held_average E d f items ms bs y : f = F_AVG \/ f = F_MEAN -> arguments E d items ms -> Forall2 held ms bs -> (2 <= length ms)%nat ->
  arith_eval E d (NFunc f items) = Ok (VDec y) -> (Exists decimal ms -> scale y = 3) /\ (~ Exists decimal ms -> scale y = 2).
Proof.
  intros F A H L R. assert (R' : eval_avg (typed ms) = Ok (VDec y)) by (destruct F as [-> | ->]; apply (list_call E d _ items ms bs y A H L) in R; try listf; exact R).
  clear R. unfold eval_avg in R'. split; intros D.
  - rewrite (decimal_has ms D), (decimals_held ms bs H) in R'. cbn [bind] in R'. destruct (bd_divide _ _ _ _) as [c|] eqn:B; [|discriminate R']. cbn [bind] in R'. apply cast_same in R'. subst y. exact (divide_scale _ _ _ _ _ B).
  - destruct (has_type DECIMAL (typed ms)) eqn:T; [apply has_type_iff in T; contradiction|]. destruct (longs (typed ms)) as [zs|]; [|discriminate R']. cbn [bind] in R'.
    destruct (bd_divide _ _ _ _) as [c|] eqn:B; [|discriminate R']. cbn [bind] in R'. apply cast_same in R'. subst y. exact (divide_scale _ _ _ _ _ B).
Qed.
Lemma held_median E d items ms bs y : arguments E d items ms -> Forall2 held ms bs -> (2 <= length ms)%nat ->
  arith_eval E d (NFunc F_MEDIAN items) = Ok (VDec y) ->
  (Nat.even (length ms) = true -> scale y = 2) /\ (Nat.odd (length ms) = true -> in_place (length ms / 2) bs y).
Proof.
  intros A H L R. apply (list_call E d _ items ms bs y A H L) in R; try listf. cbn [func_evaluate] in R. unfold eval_median in R.
  rewrite (decimals_held ms bs H), typed_length, Nat.div2_div in R. cbn [bind] in R. unfold list_get in R. split; intros P.
  - rewrite P in R. destruct (nth_error _ _); [|discriminate R]. cbn [bind] in R. destruct (nth_error _ _); [|discriminate R]. cbn [bind] in R.
    destruct (bd_divide _ _ _ _) as [c|] eqn:B; [|discriminate R]. cbn [bind] in R. apply cast_same in R. subst y. exact (divide_scale _ _ _ _ _ B).
  - rewrite <- Nat.negb_odd, P in R. cbn [negb] in R. destruct (nth_error _ _) as [x|] eqn:N; [|discriminate R]. cbn [bind] in R. apply cast_same in R. subst y. exact (sort_place bs _ _ N).
Qed.
Lemma mode_in vs : forall hm m t, In (mode_loop vs hm m t) (t :: vs).
Proof.
  induction vs as [|v vs IH]; intros hm m t; cbn [mode_loop]; [left; reflexivity|]. destruct (hm_get v hm).
  - destruct (_ <? _); [right; apply IH|]. destruct (IH (hm_put v (z + 1) hm) m t) as [E|I]; [left; exact E|right; right; exact I].
  - destruct (IH (hm_put v 1 hm) m t) as [E|I]; [left; exact E|right; right; exact I].
Qed.
Lemma held_mode E d items ms bs y : arguments E d items ms -> Forall2 held ms bs -> (2 <= length ms)%nat ->
  arith_eval E d (NFunc F_MODE items) = Ok (VDec y) -> In (VDec y) ms.
Proof.
  intros A H L R. apply (list_call E d _ items ms bs y A H L) in R; try listf. cbn [func_evaluate] in R. unfold eval_mode in R.
  destruct (typed ms) as [|[v0 t0] es] eqn:T; [discriminate R|]. rewrite <- T in R. assert (M : map fst (typed ms) = ms) by (unfold typed; rewrite map_map; apply map_id). rewrite M in R.
  assert (I0 : In v0 ms) by (rewrite <- M, T; left; reflexivity).
  pose proof (mode_in ms [] 1 v0) as I. destruct (mode_loop ms [] 1 v0) as [] eqn:X; try discriminate R.
  - unfold cast_long in R. destruct (in_int _); discriminate R.
  - apply cast_same in R. subst. destruct I as [<-|I]; auto.
Qed.

(** ** Printing *)
Lemma print_start n : without_zeros (print_N n).
Proof.
  destruct n as [|p]; [left; reflexivity|]. right. intros c r E C. subst c. destruct (print_N_no_zero (Npos p) r E) as [X _]. discriminate X.
Qed.
Lemma all_digits_app a b : all_digits (a ++ b) = true <-> all_digits a = true /\ all_digits b = true.
Proof. unfold all_digits. rewrite forallb_app. apply andb_true_iff. Qed.
Lemma zeros_digits n : all_digits (repeat (ch "0") n) = true.
Proof. induction n; [reflexivity|exact IHn]. Qed.
Lemma point_full n s : (0 < s)%nat -> exists a b, insert_point (print_N n) s = a ++ J "." ++ b /\ a <> [] /\ all_digits a = true /\ all_digits b = true /\ without_zeros a /\
  length b = s /\ digits_val (a ++ b) = Z.of_N n.
Proof.
  intros P. unfold insert_point. pose proof (print_N_digits n) as D. pose proof (print_start n) as W. pose proof (print_N_val n) as V. pose proof (print_N_nonnil n) as NN. set (ds := print_N n) in *.
  destruct (s <? length ds)%nat eqn:L.
  - apply Nat.ltb_lt in L. exists (firstn (length ds - s) ds), (skipn (length ds - s) ds). rewrite <- (firstn_skipn (length ds - s) ds) in D. apply all_digits_app in D as [D1 D2].
    split; [reflexivity|]. split; [destruct ds as [|c r]; [contradiction|]; destruct (length (c :: r) - s)%nat eqn:K; [cbn [length] in *; lia|discriminate]|].
    split; [exact D1|]. split; [exact D2|]. split; [|split; [rewrite skipn_length; lia|rewrite firstn_skipn; exact V]].
    destruct W as [W|W]; [rewrite W in L; cbn in L; lia|]. right. intros c r E. destruct ds as [|c' r']; [contradiction|]. destruct (length (c' :: r') - s)%nat; [discriminate E|].
    cbn [firstn] in E. injection E as <- _. apply (W c' r' eq_refl).
  - apply Nat.ltb_ge in L. exists (J "0"), (repeat (ch "0") (s - length ds) ++ ds). split; [reflexivity|]. split; [discriminate|]. split; [reflexivity|].
    split; [apply all_digits_app; split; [apply zeros_digits|exact D]|]. split; [left; reflexivity|]. split; [rewrite app_length, repeat_length; lia|].
    change (J "0" ++ repeat (ch "0") (s - length ds) ++ ds) with (repeat 48%N (S (s - length ds)) ++ ds). rewrite digits_val_app, digits_val_zeros. lia.
Qed.
Lemma sign_negative b : (unscaled b <? 0) = true <-> (dec_value b < 0)%Q.
Proof.
  rewrite Z.ltb_lt. unfold dec_value. pose proof (p10_pos (- scale b)) as P. rewrite <- inject_lt. split; intros H.
  - setoid_replace 0%Q with (0 * (10 # 1) ^ (- scale b))%Q by ring. apply Qmult_lt_compat_r; auto.
  - setoid_replace 0%Q with (0 * (10 # 1) ^ (- scale b))%Q in H by ring. apply Qmult_lt_r in H; auto.
Qed.
Lemma signed_value b v : v = Z.abs (unscaled b) -> (dec_value b == (if unscaled b <? 0 then -1 # 1 else 1) * inject_Z v * (10 # 1) ^ (- scale b))%Q.
Proof.
  intros ->. unfold dec_value. destruct (unscaled b <? 0) eqn:L.
  - apply Z.ltb_lt in L. rewrite Z.abs_neq, inject_Z_opp by lia. ring.
  - apply Z.ltb_ge in L. rewrite Z.abs_eq by lia. ring.
Qed.
Lemma sign_text b : sign_str (unscaled b) = if unscaled b <? 0 then J "-" else [].
Proof. reflexivity. Qed.
Lemma abs_value b : (Qabs (dec_value b) == inject_Z (Z.abs (unscaled b)) * (10 # 1) ^ (- scale b))%Q.
Proof.
  unfold dec_value. rewrite Qabs_Qmult. rewrite (Qabs_pos ((10 # 1) ^ (- scale b))) by (apply Qlt_le_weak, p10_pos). reflexivity.
Qed.
Lemma million n : ((1 # 1000000) == (10 # 1) ^ (n - 6) * (10 # 1) ^ (- n))%Q.
Proof. rewrite <- p10_plus. replace (n - 6 + - n) with (-6) by lia. reflexivity. Qed.
Lemma short_digits b : 0 < scale b -> (short b <-> -6 <= - scale b + (Z.of_nat (length (print_N (Z.abs_N (unscaled b)))) - 1)).
Proof.
  intros P. pose proof (print_N_digits (Z.abs_N (unscaled b))) as D. pose proof (print_start (Z.abs_N (unscaled b))) as W. pose proof (print_N_val (Z.abs_N (unscaled b))) as V. pose proof (print_N_nonnil (Z.abs_N (unscaled b))) as NN.
  rewrite N2Z.inj_abs_N in V. set (ds := print_N _) in *. pose proof (digits_val_nonneg ds D) as B. rewrite V in B.
  assert (N1 : (1 <= length ds)%nat) by (destruct ds; [contradiction|cbn; lia]). unfold short. rewrite abs_value, (million (scale b)). rewrite Qmult_le_r by apply p10_pos. split.
  - intros [_ [S|H]]; [lia|]. destruct (Z_le_gt_dec (scale b) 6) as [S|S]; [lia|]. rewrite <- p10_Z, inject_le in H by lia.
    destruct (Z_lt_le_dec (Z.of_nat (length ds)) (scale b - 5)) as [X|X]; [|lia]. exfalso.
    assert (10 ^ Z.of_nat (length ds) <= 10 ^ (scale b - 6)) by (apply Z.pow_le_mono_r; lia). lia.
  - intros H. split; [lia|]. destruct (Z_le_gt_dec (scale b) 6) as [S|S]; [left; exact S|right]. rewrite <- p10_Z, inject_le by lia.
    destruct W as [W|W]; [rewrite W in H; cbn in H; lia|].
    destruct ds as [|c r] eqn:E; [contradiction|]. rewrite digits_val_cons in V. cbn [all_digits forallb] in D. apply andb_true_iff in D as [Dc Dr].
    pose proof (digits_val_nonneg r Dr) as Br. specialize (W c r eq_refl). assert (1 <= digit_val c).
    { unfold is_digit in Dc. unfold digit_val. change (ch "0") with 48%N in W. lia. }
    cbn [length] in H. assert (10 ^ (scale b - 6) <= 10 ^ Z.of_nat (length r)) by (apply Z.pow_le_mono_r; lia). nia.
Qed.
Lemma printed_full b : short b -> in_full (show (VDec b)) (dec_value b) (scale b).
Proof.
  intros Sh. pose proof Sh as [Sp _]. cbn [show]. unfold bd_to_string. destruct (scale b =? 0) eqn:Z0.
  - apply Z.eqb_eq in Z0. exists (unscaled b <? 0), (print_N (Z.abs_N (unscaled b))), []. split; [apply print_N_nonnil|]. split; [apply print_N_digits|]. split; [reflexivity|].
    split; [apply print_start|]. split; [rewrite Z0; reflexivity|]. split; [rewrite Z0; cbn [Z.eqb]; rewrite app_nil_r; reflexivity|]. split; [apply sign_negative|].
    rewrite app_nil_r. apply signed_value. apply print_abs_val.
  - apply Z.eqb_neq in Z0. assert (P : 0 < scale b) by lia. apply (short_digits b P) in Sh. cbv zeta. apply Z.leb_le in Sh. rewrite Sh, (proj2 (Z.leb_le 0 (scale b)) Sp). cbn [andb].
    destruct (point_full (Z.abs_N (unscaled b)) (Z.to_nat (scale b)) ltac:(lia)) as (a & c & E & NA & DA & DC & W & LC & V). exists (unscaled b <? 0), a, c.
    split; [exact NA|]. split; [exact DA|]. split; [exact DC|]. split; [exact W|]. split; [rewrite LC; lia|]. split; [rewrite E, (proj2 (Z.eqb_neq _ _) Z0); reflexivity|]. split; [apply sign_negative|].
    apply signed_value. rewrite V. apply N2Z.inj_abs_N.
Qed.
Lemma printed_scientific b : scale b <> 0 -> ~ short b -> In (ch "E") (show (VDec b)).
Proof.
  intros Z0 N. cbn [show]. destruct ((0 <=? scale b) && (-6 <=? - scale b + (Z.of_nat (length (print_N (Z.abs_N (unscaled b)))) - 1))) eqn:C.
  - exfalso. apply andb_true_iff in C as [C1 C2]. apply Z.leb_le in C1, C2. apply N. apply short_digits; [lia|exact C2].
  - destruct (decimal_scientific b Z0 C) as (m & sg & ds & E & _). rewrite E. unfold signed.
    assert (I : In (ch "E") (m ++ J "E" ++ sg :: ds)) by (apply in_or_app; right; left; reflexivity). destruct (unscaled b <? 0); [right|]; exact I.
Qed.
(** A text in full tells its number of decimals. *)
Lemma full_unique s q p n m : in_full s q n -> in_full s p m -> n = m.
Proof.
  intros (neg & ip & fp & N1 & D1 & D2 & _ & L & E & _) (neg' & ip' & fp' & N1' & D1' & D2' & _ & L' & E' & _). rewrite E in E'.
  assert (X : neg = neg').
  { destruct (digits_head ip N1 D1) as (c & r & -> & H). destruct (digits_head ip' N1' D1') as (c' & r' & -> & H').
    destruct neg, neg'; auto; cbn in E'; injection E' as E' _; subst; discriminate. }
  subst neg'. apply app_inv_head in E'.
  assert (P : forall l, all_digits l = true -> forall k f, all_digits f = true -> span is_digit (l ++ (if k =? 0 then [] else J "." ++ f)) = (l, if k =? 0 then [] else J "." ++ f)).
  { intros l Dl k f Df. destruct (k =? 0); [rewrite app_nil_r; apply span_all; exact Dl|apply span_stop; [exact Dl|reflexivity]]. }
  pose proof (P ip D1 n fp D2) as A. rewrite E', (P ip' D1' m fp' D2') in A. injection A as _ A. destruct (n =? 0) eqn:Zn, (m =? 0) eqn:Zm; try discriminate A.
  - apply Z.eqb_eq in Zn, Zm. lia.
  - injection A as A. subst. reflexivity.
Qed.
Lemma full_written s q n : in_full s q n -> written_number s q.
Proof.
  intros (neg & ip & fp & N1 & D1 & D2 & _ & L & E & _ & V). exists neg, (if neg then J "-" else []), ip, fp, (if n =? 0 then [] else J "." ++ fp), 0, [].
  split; [rewrite app_nil_r; exact E|]. split; [destruct neg; constructor|]. split; [exact D1|]. split; [|split; [|split; [constructor|]]].
  - destruct (n =? 0) eqn:Z; [|constructor; exact D2]. apply Z.eqb_eq in Z. destruct fp; [constructor|cbn [length] in L; lia].
  - destruct ip; [contradiction|discriminate].
  - rewrite L. exact V.
Qed.
Lemma text_equal E d l r s q b : yields E d l (VStr s) -> yields E d r (VDec b) -> written_number s q ->
  (s = show (VDec b) -> bool_eval E d (cond l EQUALS r) = Ok true /\ bool_eval E d (cond r EQUALS l) = Ok true) /\
  (s <> show (VDec b) -> bool_eval E d (cond l EQUALS r) = Ok false /\ bool_eval E d (cond r EQUALS l) = Ok false).
Proof.
  intros L R W. pose proof (stands_number_text s q W) as Sv. assert (A0 : accepts EQUALS Eq <> None) by discriminate.
  assert (T : forall u w : jstr, exists c, text_order u w c) by (intros u w; destruct (text_order_total u w) as [c [C _]]; exists c; exact C).
  destruct (mixed_comparison E d l r EQUALS Eq _ _ _ _ A0 L R Sv (stands_dec b)) as [M1 _].
  destruct (mixed_comparison E d r l EQUALS Eq _ _ _ _ A0 R L (stands_dec b) Sv) as [M2 _].
  split; intros X.
  - split; [apply (M1 STRING (AText (show (VStr s))) (AText (show (VDec b))) Eq true)|apply (M2 STRING (AText (show (VDec b))) (AText (show (VStr s))) Eq true)]; try reflexivity; try apply read_text; apply by_units; [|symmetry]; exact X.
  - split.
    + destruct (T (show (VStr s)) (show (VDec b))) as [c C]. apply (M1 STRING (AText (show (VStr s))) (AText (show (VDec b))) c false); try reflexivity; try apply read_text; [apply by_units; exact C|]. destruct c; [contradiction X; exact C|reflexivity|reflexivity].
    + destruct (T (show (VDec b)) (show (VStr s))) as [c C]. apply (M2 STRING (AText (show (VDec b))) (AText (show (VStr s))) c false); try reflexivity; try apply read_text; [apply by_units; exact C|]. destruct c; [contradiction X; symmetry; exact C|reflexivity|reflexivity].
Qed.
Lemma text_decimals_differ E d l r s q b n : yields E d l (VStr s) -> yields E d r (VDec b) -> short b -> in_full s q n -> n <> scale b ->
  bool_eval E d (cond l EQUALS r) = Ok false /\ bool_eval E d (cond r EQUALS l) = Ok false.
Proof.
  intros L R B F N. apply (proj2 (text_equal E d l r s q b L R (full_written s q n F))). intros X. apply N. apply (full_unique s q (dec_value b)); [exact F|]. rewrite X. apply printed_full, B.
Qed.
Lemma every_held v q : number v q -> exists b, held v b /\ (dec_value b == q)%Q /\ forall c, held v c -> c = b.
Proof. intros H. destruct (number_held v q H) as (b & B & V). exists b. split; [exact B|]. split; [exact V|]. intros c C. exact (held_unique v c b C B). Qed.
Lemma printed b : (short b -> in_full (show (VDec b)) (dec_value b) (scale b)) /\ (scale b <> 0 -> ~ short b -> In (ch "E") (show (VDec b))).
Proof. split; [apply printed_full|apply printed_scientific]. Qed.
