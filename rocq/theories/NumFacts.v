(** Proofs about numbers as runtime values: conversions preserve the mathematical value. *)
From Coq Require Import QArith Qpower ZifyBool ZifyNat ZifyN Qfield.
From Verif Require Import Base JNum BigDec Dates Values JNumFacts SpecNum BigDecFacts.
Local Open Scope Z_scope.

Lemma span_all : forall p a, forallb p a = true -> span p a = (a, []).
Proof. induction a as [|c a IH]; cbn; intros H; auto. apply andb_true_iff in H as [-> H]. rewrite IH by auto. reflexivity. Qed.
Lemma span_stop : forall p a c r, forallb p a = true -> p c = false -> span p (a ++ c :: r) = (a, c :: r).
Proof.
  induction a as [|x a IH]; cbn; intros c r H Hc; [rewrite Hc; reflexivity|].
  apply andb_true_iff in H as [-> H]. rewrite IH by auto. reflexivity.
Qed.
Lemma span_spec : forall p s a r, span p s = (a, r) -> s = a ++ r /\ forallb p a = true /\ match r with c :: _ => p c = false | [] => True end.
Proof.
  induction s as [|c s IH]; cbn; intros a r H.
  - injection H as <- <-. auto.
  - destruct (p c) eqn:E.
    + destruct (span p s) as [a' r'] eqn:E2. injection H as <- <-. destruct (IH _ _ eq_refl) as (-> & H1 & H2).
      cbn. rewrite E, H1. auto.
    + injection H as <- <-. cbn. auto.
Qed.

Lemma parse_unsigned_digits : forall s, s <> [] -> all_digits s = true -> parse_unsigned_bigdec s = Some (BD (digits_val s) 0).
Proof.
  intros s Hn H. unfold parse_unsigned_bigdec. rewrite span_all by auto. rewrite app_nil_r. destruct s; [congruence|reflexivity].
Qed.
Lemma parse_bigdec_unsigned : forall s c r, s = c :: r -> is_digit c = true -> parse_bigdec s = parse_unsigned_bigdec s.
Proof. intros s c r -> H. unfold parse_bigdec. destruct (digit_not_sign c H) as [-> ->]. reflexivity. Qed.
Lemma parse_bigdec_neg : forall s, parse_bigdec (ch "-" :: s) = option_map bd_neg (parse_unsigned_bigdec s).
Proof. reflexivity. Qed.

Lemma digits_head : forall s, s <> [] -> all_digits s = true -> exists c r, s = c :: r /\ is_digit c = true.
Proof. intros [|c r] Hn H; [congruence|]. cbn in H. apply andb_true_iff in H as [H _]. eauto. Qed.

Lemma parse_bigdec_print_Z : forall z, parse_bigdec (print_Z z) = Some (BD z 0).
Proof.
  intros. unfold print_Z. destruct (z <? 0) eqn:E.
  - rewrite parse_bigdec_neg, parse_unsigned_digits by auto using print_N_nonnil, print_N_digits.
    rewrite print_N_val. cbn. unfold bd_neg. cbn. do 2 f_equal. lia.
  - destruct (digits_head (print_N (Z.to_N z)) (print_N_nonnil _) (print_N_digits _)) as (c & r & Hc & Hd).
    rewrite (parse_bigdec_unsigned _ c r Hc Hd), parse_unsigned_digits by auto using print_N_nonnil, print_N_digits.
    rewrite print_N_val. do 2 f_equal. lia.
Qed.

(** The number of digits printed. *)
Lemma print_N_length : forall n, n <> 0%N -> 10 ^ (Z.of_nat (length (print_N n)) - 1) <= Z.of_N n.
Proof.
  intros n Hn. pose proof (print_N_val n) as V. pose proof (print_N_digits n) as D. pose proof (print_N_nonnil n) as NN.
  pose proof (print_N_no_zero n) as NZ. destruct (print_N n) as [|c s]; [congruence|].
  cbn [all_digits forallb] in D. apply andb_true_iff in D as [Dc Ds].
  assert (1 <= digit_val c).
  { pose proof (digit_range c Dc). destruct (Z.eq_dec (digit_val c) 0) as [E|]; [|lia].
    assert (c = 48%N) by (unfold digit_val in E; lia). subst. destruct (NZ s eq_refl). congruence. }
  rewrite digits_val_cons in V. pose proof (digits_val_nonneg s Ds). rewrite <- V.
  replace (Z.of_nat (length (c :: s)) - 1) with (Z.of_nat (length s)) by (cbn [length]; lia).
  pose proof (Z.pow_pos_nonneg 10 (Z.of_nat (length s)) ltac:(lia) ltac:(lia)). nia.
Qed.
Lemma print_N_length_le : forall n k, 1 <= k -> Z.of_N n < 10 ^ k -> Z.of_nat (length (print_N n)) <= k.
Proof.
  intros n k Hk H. destruct (N.eq_dec n 0) as [->|Hn]; [cbn; lia|].
  pose proof (print_N_length n Hn) as L. destruct (Z_le_gt_dec (Z.of_nat (length (print_N n))) k); auto.
  exfalso. assert (10 ^ k <= 10 ^ (Z.of_nat (length (print_N n)) - 1)) by (apply Z.pow_le_mono_r; lia). lia.
Qed.

Lemma drop_zeros_length : forall s, (length (drop_zeros s) <= length s)%nat.
Proof.
  intros. unfold drop_zeros. destruct (span (fun c => (c =? 48)%N) s) eqn:E. apply span_spec in E as (-> & _).
  cbn. rewrite app_length. lia.
Qed.

Lemma parse_exponent_print : forall e, -1000 <= e <= 1000 -> parse_exponent (print_Z e) = Some e.
Proof.
  intros e H. unfold print_Z. destruct (e <? 0) eqn:E.
  - unfold parse_exponent. change ((ch "-" =? ch "-")%N) with true. cbn iota.
    pose proof (print_N_nonnil (Z.to_N (- e))) as NN. pose proof (print_N_length_le (Z.to_N (- e)) 4 ltac:(lia) ltac:(lia)) as L.
    pose proof (drop_zeros_length (print_N (Z.to_N (- e)))) as DL.
    pose proof (print_N_digits (Z.to_N (- e))) as D. pose proof (print_N_val (Z.to_N (- e))) as V.
    destruct (print_N (Z.to_N (- e))) as [|c r] eqn:P; [congruence|].
    rewrite D. destruct (10 <? length (drop_zeros (c :: r)))%nat eqn:G; [lia|]. f_equal. lia.
  - pose proof (print_N_nonnil (Z.to_N e)) as NN. pose proof (print_N_length_le (Z.to_N e) 4 ltac:(lia) ltac:(lia)) as L.
    pose proof (drop_zeros_length (print_N (Z.to_N e))) as DL.
    pose proof (print_N_digits (Z.to_N e)) as D. pose proof (print_N_val (Z.to_N e)) as V.
    destruct (print_N (Z.to_N e)) as [|c r] eqn:P; [congruence|].
    unfold parse_exponent. pose proof D as D'. cbn [all_digits forallb] in D'. apply andb_true_iff in D' as [Dc _].
    destruct (digit_not_sign c Dc) as [-> ->]. cbn iota.
    rewrite D. destruct (10 <? length (drop_zeros (c :: r)))%nat eqn:G; [lia|]. f_equal. lia.
Qed.

Lemma is_digit_dot : is_digit (ch ".") = false. Proof. reflexivity. Qed.

Lemma parse_unsigned_point : forall ip fp, ip <> [] -> all_digits ip = true -> all_digits fp = true ->
  parse_unsigned_bigdec (ip ++ ch "." :: fp) = Some (BD (digits_val (ip ++ fp)) (Z.of_nat (length fp))).
Proof.
  intros ip fp Hn Hi Hf. unfold parse_unsigned_bigdec. rewrite span_stop by auto using is_digit_dot.
  change ((ch "." =? ch ".")%N) with true. cbn iota. rewrite (span_all is_digit fp) by auto.
  destruct ip; [congruence|]. reflexivity.
Qed.
Lemma parse_unsigned_exp : forall ip fp e, ip <> [] -> all_digits ip = true -> all_digits fp = true -> -1000 <= e <= 1000 ->
  Z.of_nat (length fp) <= 2000000000 ->
  parse_unsigned_bigdec (ip ++ ch "." :: fp ++ ch "E" :: print_Z e) = Some (BD (digits_val (ip ++ fp)) (Z.of_nat (length fp) - e)).
Proof.
  intros ip fp e Hn Hi Hf He Hl. unfold parse_unsigned_bigdec. rewrite span_stop by auto using is_digit_dot.
  change ((ch "." =? ch ".")%N) with true. cbn iota. rewrite (span_stop is_digit fp) by auto.
  destruct ip; [congruence|]. cbn [app].
  change ((ch "E" =? ch "e")%N || (ch "E" =? ch "E")%N) with true. cbn iota.
  rewrite parse_exponent_print by auto.
  replace (in_int (Z.of_nat (length fp) - e)) with true by (symmetry; apply in_int_iff; lia). reflexivity.
Qed.

Lemma float_parses : forall t q, float_text t q -> exists d, parse_bigdec t = Some d /\ (dec_value d == q)%Q.
Proof.
  intros t q (neg & ip & fp & ex & Hip & Hfp & Dip & Dfp & Lfp & Hex & -> & Hq).
  destruct (digits_head ip Hip Dip) as (c & r & Hc & Hd).
  assert (U : exists d, parse_unsigned_bigdec (ip ++ J "." ++ fp ++ match ex with Some e => J "E" ++ print_Z e | None => [] end) = Some d /\
     (dec_value d == (inject_Z (digits_val ip) + inject_Z (digits_val fp) * p10 (- Z.of_nat (length fp))) * p10 (match ex with Some e => e | None => 0 end))%Q).
  { assert (V : (inject_Z (digits_val (ip ++ fp)) == inject_Z (digits_val ip) * p10 (Z.of_nat (length fp)) + inject_Z (digits_val fp))%Q).
    { rewrite digits_val_app, inject_Z_plus, inject_Z_mult, p10_Z by lia. reflexivity. }
    destruct ex as [e|].
    - exists (BD (digits_val (ip ++ fp)) (Z.of_nat (length fp) - e)). split.
      + apply (parse_unsigned_exp ip fp e); auto; lia.
      + unfold dec_value. cbn [unscaled scale]. rewrite V.
        replace (- (Z.of_nat (length fp) - e)) with (- Z.of_nat (length fp) + e) by lia. rewrite p10_plus, Qpower_opp. field. apply p10_nz.
    - exists (BD (digits_val (ip ++ fp)) (Z.of_nat (length fp))). split.
      + rewrite app_nil_r. apply (parse_unsigned_point ip fp); auto.
      + unfold dec_value. cbn [unscaled scale]. rewrite V. rewrite Qpower_opp. change (p10 0) with 1%Q. field. apply p10_nz. }
  destruct U as (d & U1 & U2). destruct neg.
  - exists (bd_neg d). change (J "-" ++ ?x) with (ch "-" :: x). rewrite parse_bigdec_neg, U1. split; [reflexivity|].
    rewrite dec_neg, U2, Hq. ring.
  - exists d. cbn [app]. split.
    + rewrite <- U1. apply parse_bigdec_unsigned with c (r ++ J "." ++ fp ++ match ex with Some e => J "E" ++ print_Z e | None => [] end); auto.
      rewrite Hc. reflexivity.
    + rewrite U2, Hq. ring.
Qed.

(** Integer.parseInt(number.stripTrailingZeros().toPlainString()) *)
Lemma parse_integer_dot : forall s, In (ch ".") s -> parse_integer s = None.
Proof.
  assert (D : forall s, In (ch ".") s -> all_digits s = false).
  { intros s H. destruct (all_digits s) eqn:E; auto. unfold all_digits in E. rewrite forallb_forall in E. apply E in H. discriminate. }
  intros [|c s] H; [destruct H|]. unfold parse_integer.
  destruct H as [->|H].
  - change ((ch "." =? ch "-")%N) with false. change ((ch "." =? ch "+")%N) with false. cbn iota. reflexivity.
  - rewrite (D s H). destruct (c =? ch "-")%N; [destruct s; auto|]. destruct (c =? ch "+")%N; [destruct s; auto|].
    replace (all_digits (c :: s)) with false; auto. change (all_digits (c :: s)) with (is_digit c && all_digits s).
    rewrite (D s H), andb_false_r. reflexivity.
Qed.
Lemma insert_point_dot : forall ds n, In (ch ".") (insert_point ds n).
Proof.
  intros. unfold insert_point. destruct (n <? length ds)%nat.
  - apply in_or_app. right. left. reflexivity.
  - right. left. reflexivity.
Qed.
Lemma parse_signed_digits : forall u ds, ds <> [] -> all_digits ds = true ->
  parse_integer (sign_str u ++ ds) = Some (if u <? 0 then - digits_val ds else digits_val ds).
Proof.
  intros u ds Hn H. unfold sign_str. destruct (u <? 0); [apply parse_integer_neg|apply parse_integer_digits]; auto.
Qed.
Lemma print_abs_val : forall u, digits_val (print_N (Z.abs_N u)) = Z.abs u.
Proof. intros. rewrite print_N_val. lia. Qed.

Lemma parse_plain : forall b, unscaled b <> 0 \/ scale b <= 0 ->
  parse_integer (bd_to_plain b) = if scale b <=? 0 then Some (unscaled b * 10 ^ (- scale b)) else None.
Proof.
  intros [u s] Hz. unfold bd_to_plain. cbn [unscaled scale] in *.
  pose proof (print_N_nonnil (Z.abs_N u)) as NN. pose proof (print_N_digits (Z.abs_N u)) as D. pose proof (print_abs_val u) as V.
  destruct (s =? 0) eqn:E0.
  - rewrite parse_signed_digits, V by auto. replace (s <=? 0) with true by lia. assert (s = 0) by lia. subst. cbn [Z.opp Z.pow].
    f_equal. destruct (u <? 0) eqn:Eu; lia.
  - destruct (s <? 0) eqn:E1.
    + replace (s <=? 0) with true by lia. destruct (u =? 0) eqn:Eu.
      * assert (u = 0) by lia. subst. reflexivity.
      * rewrite parse_signed_digits.
        -- rewrite digits_val_app, V, digits_val_zeros, repeat_length, Z2Nat.id by lia. f_equal. destruct (u <? 0) eqn:Eu'; lia.
        -- destruct (print_N (Z.abs_N u)); [congruence|discriminate].
        -- rewrite all_digits_app, D. apply all_digits_zeros.
    + replace (s <=? 0) with false by lia. apply parse_integer_dot. apply in_or_app. right. apply insert_point_dot.
Qed.

Lemma parse_plain_strip : forall d z, parse_integer (bd_to_plain (bd_strip d)) = Some z <-> (dec_value d == inject_Z z)%Q.
Proof.
  intros d z. rewrite parse_plain.
  - rewrite <- bd_strip_value. destruct (scale (bd_strip d) <=? 0) eqn:E.
    + assert (V : (dec_value (bd_strip d) == inject_Z (unscaled (bd_strip d) * 10 ^ (- scale (bd_strip d))))%Q).
      { unfold dec_value. rewrite inject_Z_mult, p10_Z by lia. reflexivity. }
      rewrite V, inject_eq. split; [intros [= <-]; auto|intros ->; auto].
    + split; [discriminate|]. intros H. exfalso. rewrite bd_strip_value in H.
      assert (scale (bd_strip d) <= 0) by (apply strip_scale_integral; exists z; auto). lia.
  - destruct (Z.eq_dec (unscaled d) 0) as [E|E].
    + right. unfold bd_strip. rewrite E. cbn. lia.
    + left. intros H. apply (bd_strip_complete d E). rewrite H. reflexivity.
Qed.
Lemma parse_int_plain_strip : forall d z, parse_int (bd_to_plain (bd_strip d)) = Some z <-> (dec_value d == inject_Z z)%Q /\ in_int z = true.
Proof.
  intros d z. unfold parse_int. rewrite <- parse_plain_strip. destruct (parse_integer _) as [x|].
  - destruct (in_int x) eqn:E; split; try discriminate; intros H; try (injection H as <-; auto).
    + destruct H; auto. + destruct H as [[= ->] H]. congruence.
  - split; [discriminate|]. intros [H _]. discriminate.
Qed.
Lemma parse_long_plain_strip : forall d z, parse_long (bd_to_plain (bd_strip d)) = Some z <-> (dec_value d == inject_Z z)%Q /\ in_long z = true.
Proof.
  intros d z. unfold parse_long. rewrite <- parse_plain_strip. destruct (parse_integer _) as [x|].
  - destruct (in_long x) eqn:E; split; try discriminate; intros H; try (injection H as <-; auto).
    + destruct H; auto. + destruct H as [[= ->] H]. congruence.
  - split; [discriminate|]. intros [H _]. discriminate.
Qed.

(** Conversions of numbers *)
Lemma number_decimal : forall v q, number v q -> exists d, decimal_value v = Some d /\ (dec_value d == q)%Q.
Proof.
  intros v q H. destruct H as [z q Hz Hq|z q Hz Hq|d q Hq|dbl t q Hq].
  - exists (BD z 0). unfold decimal_value, number_of. cbn [show]. rewrite parse_bigdec_print_Z. split; auto. rewrite dec_of_Z, Hq. reflexivity.
  - exists (BD z 0). unfold decimal_value, number_of. cbn [show]. rewrite parse_bigdec_print_Z. split; auto. rewrite dec_of_Z, Hq. reflexivity.
  - exists d. split; auto. rewrite Hq. reflexivity.
  - exact (float_parses t q Hq).
Qed.
Lemma long_value_int : forall z, in_long z = true -> long_value (VInt z) = Some z.
Proof.
  intros z H. unfold long_value, number_of. cbn [show]. rewrite parse_bigdec_print_Z. apply parse_long_plain_strip.
  split; auto. apply dec_of_Z.
Qed.
Lemma number_type : forall v q, number v q ->
  (exists z, v = VInt z /\ in_int z = true /\ q == inject_Z z)%Q \/ (exists z, v = VLong z /\ in_long z = true /\ q == inject_Z z)%Q \/
  get_data_type v = DECIMAL.
Proof.
  intros v q H. destruct H; [left|right; left|right; right; reflexivity|right; right; reflexivity].
  - exists z. repeat split; auto. apply in_int_iff; auto.
  - exists z. repeat split; auto. apply in_long_iff; auto.
Qed.
