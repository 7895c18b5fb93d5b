(** Proofs about BigDecimal: values as rationals. *)
From Coq Require Import QArith Qpower ZifyBool ZifyNat ZifyN Qfield.
From Verif Require Import Base JNum BigDec JNumFacts Values SpecNum.
Local Open Scope Z_scope.

Lemma ten_nonzero : ~ (10 # 1 == 0)%Q. Proof. discriminate. Qed.
Notation p10 n := ((10 # 1) ^ n)%Q.
Lemma p10_pos : forall n, (0 < p10 n)%Q.
Proof. intros. apply Qpower_0_lt. reflexivity. Qed.
Lemma p10_nz : forall n, ~ (p10 n == 0)%Q.
Proof. intros n H. pose proof (p10_pos n) as P. rewrite H in P. discriminate. Qed.
Lemma p10_plus : forall a b, (p10 (a + b) == p10 a * p10 b)%Q.
Proof. intros. apply Qpower_plus. discriminate. Qed.
Lemma p10_Z : forall n, 0 <= n -> (inject_Z (10 ^ n) == p10 n)%Q.
Proof. intros. rewrite Zpower_Qpower by auto. reflexivity. Qed.

Lemma inject_Z_compare : forall a b, (inject_Z a ?= inject_Z b)%Q = (a ?= b).
Proof. intros. unfold Qcompare. cbn. rewrite !Z.mul_1_r. reflexivity. Qed.

Lemma Qcompare_scale : forall x y k, (0 < k)%Q -> (x * k ?= y * k)%Q = (x ?= y)%Q.
Proof.
  intros x y k Hk. destruct (x ?= y)%Q eqn:E.
  - apply Qeq_alt in E. apply Qeq_alt. rewrite E. reflexivity.
  - apply Qlt_alt in E. apply Qlt_alt. apply Qmult_lt_compat_r; auto.
  - apply Qgt_alt in E. apply Qgt_alt. apply Qmult_lt_compat_r; auto.
Qed.

Lemma dec_rescale : forall b s, scale b <= s -> (dec_value b == inject_Z (rescale b s) * p10 (- s))%Q.
Proof.
  intros b s H. unfold dec_value, rescale, pow10. rewrite inject_Z_mult, p10_Z by lia.
  replace (- scale b) with ((s - scale b) + (- s)) by lia. rewrite p10_plus. ring.
Qed.

Lemma dec_of_Z : forall z, (dec_value (BD z 0) == inject_Z z)%Q.
Proof. intros. unfold dec_value. cbn. ring. Qed.

Lemma dec_add : forall a b, (dec_value (bd_add a b) == dec_value a + dec_value b)%Q.
Proof.
  intros. unfold bd_add. set (s := Z.max (scale a) (scale b)).
  rewrite (dec_rescale a s), (dec_rescale b s) by lia. unfold dec_value. cbn [unscaled scale].
  rewrite inject_Z_plus. ring.
Qed.
Lemma dec_sub : forall a b, (dec_value (bd_sub a b) == dec_value a - dec_value b)%Q.
Proof.
  intros. unfold bd_sub. set (s := Z.max (scale a) (scale b)).
  rewrite (dec_rescale a s), (dec_rescale b s) by lia. unfold dec_value. cbn [unscaled scale].
  unfold Zminus. rewrite inject_Z_plus, inject_Z_opp. ring.
Qed.
Lemma dec_mul : forall a b, (dec_value (bd_mul a b) == dec_value a * dec_value b)%Q.
Proof.
  intros. unfold dec_value, bd_mul. cbn [unscaled scale].
  replace (- (scale a + scale b)) with (- scale a + - scale b) by lia. rewrite p10_plus, inject_Z_mult. ring.
Qed.
Lemma dec_neg : forall a, (dec_value (bd_neg a) == - dec_value a)%Q.
Proof. intros. unfold dec_value, bd_neg. cbn [unscaled scale]. rewrite inject_Z_opp. ring. Qed.

Lemma dec_compare : forall a b, bd_compare a b = (dec_value a ?= dec_value b)%Q.
Proof.
  intros. unfold bd_compare. set (s := Z.max (scale a) (scale b)).
  rewrite (dec_rescale a s), (dec_rescale b s) by lia. rewrite Qcompare_scale by apply p10_pos.
  rewrite inject_Z_compare. reflexivity.
Qed.

(** Truncation *)
Lemma inject_lt : forall a b, (inject_Z a < inject_Z b)%Q <-> a < b.
Proof. intros. rewrite <- Zlt_Qlt. reflexivity. Qed.
Lemma inject_le : forall a b, (inject_Z a <= inject_Z b)%Q <-> a <= b.
Proof. intros. rewrite <- Zle_Qle. reflexivity. Qed.
Lemma inject_eq : forall a b, (inject_Z a == inject_Z b)%Q <-> a = b.
Proof. intros. split; [apply inject_Z_injective|intros ->; reflexivity]. Qed.

Lemma truncates_unique : forall q a b, truncates q a -> truncates q b -> a = b.
Proof.
  intros q a b [A1 A2] [B1 B2]. destruct (Qlt_le_dec q 0) as [H|H].
  - apply Qlt_le_weak in H. destruct (A2 H), (B2 H).
    assert (a - 1 < b) by (apply inject_lt; eapply Qlt_le_trans; eauto).
    assert (b - 1 < a) by (apply inject_lt; eapply Qlt_le_trans; eauto). lia.
  - destruct (A1 H), (B1 H).
    assert (a < b + 1) by (apply inject_lt; eapply Qle_lt_trans; eauto).
    assert (b < a + 1) by (apply inject_lt; eapply Qle_lt_trans; eauto). lia.
Qed.
Lemma truncates_ext : forall q q' z, (q == q')%Q -> truncates q z -> truncates q' z.
Proof. intros q q' z H [A B]. split; rewrite <- H; auto. Qed.
Lemma truncates_int : forall z, truncates (inject_Z z) z.
Proof.
  intros. split; intros _; split; try apply Qle_refl.
  - apply inject_lt; lia.
  - apply inject_lt; lia.
Qed.

(** The quotient of integers truncates the rational quotient. *)
Lemma truncates_quot : forall n d, d <> 0 -> truncates (inject_Z n / inject_Z d) (Z.quot n d).
Proof.
  intros n d Hd.
  assert (G : forall n d, 0 < d -> truncates (inject_Z n / inject_Z d) (Z.quot n d)).
  { clear. intros n d Hd. assert (Hq : (0 < inject_Z d)%Q) by (apply (inject_lt 0); auto).
    pose proof (Z.quot_rem' n d) as E.
    assert (Hmul : forall z, (inject_Z z == inject_Z (z * d) / inject_Z d)%Q).
    { intros. rewrite inject_Z_mult. field. intros H. rewrite H in Hq. discriminate. }
    assert (Hle : forall a b, a <= b -> (inject_Z a / inject_Z d <= inject_Z b / inject_Z d)%Q).
    { intros. apply Qmult_le_compat_r; [apply inject_le; auto|]. apply Qlt_le_weak, Qinv_lt_0_compat; auto. }
    assert (Hlt : forall a b, a < b -> (inject_Z a / inject_Z d < inject_Z b / inject_Z d)%Q).
    { intros. apply Qmult_lt_compat_r; [apply Qinv_lt_0_compat; auto|]. apply inject_lt; auto. }
    assert (Hback : forall a b, (inject_Z a / inject_Z d <= inject_Z b / inject_Z d)%Q -> a <= b).
    { intros a b H. destruct (Z_le_gt_dec a b); auto. exfalso. apply (Qlt_not_le _ _ (Hlt b a ltac:(lia))). auto. }
    assert (H0 : (0 == inject_Z 0 / inject_Z d)%Q) by (field; intros H; rewrite H in Hq; discriminate).
    split; intros H; rewrite H0 in H; apply Hback in H; rewrite !(Hmul (Z.quot n d)), ?(Hmul (Z.quot n d + 1)), ?(Hmul (Z.quot n d - 1)); split.
    - apply Hle. pose proof (Z.rem_bound_pos n d H Hd). nia.
    - apply Hlt. pose proof (Z.rem_bound_pos n d H Hd). nia.
    - apply Hlt. assert (- d < Z.rem n d <= 0). { pose proof (Z.rem_opp_l n d ltac:(lia)). pose proof (Z.rem_bound_pos (- n) d ltac:(lia) Hd). lia. } nia.
    - apply Hle. assert (- d < Z.rem n d <= 0). { pose proof (Z.rem_opp_l n d ltac:(lia)). pose proof (Z.rem_bound_pos (- n) d ltac:(lia) Hd). lia. } nia. }
  destruct (Z_lt_le_dec 0 d) as [H|H]; [apply G; auto|].
  apply truncates_ext with (inject_Z (- n) / inject_Z (- d))%Q.
  - rewrite !inject_Z_opp. field. intros E. apply Hd. apply (inject_eq d 0); auto.
  - rewrite <- Z.quot_opp_opp by auto. apply G. lia.
Qed.

Lemma bd_trunc_truncates : forall b, truncates (dec_value b) (bd_trunc b).
Proof.
  intros [u s]. unfold bd_trunc, pow10. cbn [scale unscaled]. destruct (s <=? 0) eqn:E.
  - eapply truncates_ext; [|apply truncates_int]. unfold dec_value. cbn [unscaled scale].
    rewrite inject_Z_mult, p10_Z by lia. reflexivity.
  - eapply truncates_ext; [|apply truncates_quot; lia]. unfold dec_value. cbn [unscaled scale].
    rewrite p10_Z by lia. unfold Qdiv. rewrite Qpower_opp. reflexivity.
Qed.

(** Division: the scaled quotient truncated, or exact. *)
Lemma bd_divide_down : forall a b s, unscaled b <> 0 ->
  exists z, bd_divide a b s RoundDown = Ok (BD z s) /\ truncates (dec_value a / dec_value b * p10 s) z.
Proof.
  intros [ua sa] [ub sb] s Hb. unfold bd_divide. cbn [unscaled scale] in *.
  destruct (ub =? 0) eqn:E; [lia|]. eexists; split; [reflexivity|].
  unfold pow10. set (k := s + sb - sa).
  eapply truncates_ext; [|apply truncates_quot; lia].
  rewrite !inject_Z_mult, !p10_Z by lia. unfold dec_value. cbn [unscaled scale].
  assert (Hub : ~ (inject_Z ub == 0)%Q) by (intros H; apply Hb; apply (inject_eq ub 0); auto).
  assert (Hk : (p10 (Z.max k 0) == p10 (- sa) * p10 s * p10 sb * p10 (Z.max (- k) 0))%Q).
  { rewrite <- !p10_plus. replace (- sa + s + sb + Z.max (- k) 0) with (Z.max k 0) by lia. reflexivity. }
  rewrite Hk. rewrite !Qpower_opp. field. repeat split; auto using p10_nz.
Qed.
Lemma quot_rem_zero : forall n d, d <> 0 -> Z.rem n d = 0 -> n = Z.quot n d * d.
Proof. intros. pose proof (Z.quot_rem' n d). lia. Qed.
Lemma bd_divide_exact : forall a b s, unscaled b <> 0 ->
  (exists z, bd_divide a b s RoundUnnecessary = Ok (BD z s) /\ (dec_value a / dec_value b * p10 s == inject_Z z)%Q) \/
  (bd_divide a b s RoundUnnecessary = Err ArithmeticExc /\ forall z, ~ (dec_value a / dec_value b * p10 s == inject_Z z)%Q).
Proof.
  intros [ua sa] [ub sb] s Hb. unfold bd_divide. cbn [unscaled scale] in *.
  destruct (ub =? 0) eqn:E; [lia|]. unfold pow10. set (k := s + sb - sa).
  set (n := ua * 10 ^ Z.max k 0). set (d := ub * 10 ^ Z.max (- k) 0).
  assert (Hd : d <> 0) by (unfold d; lia).
  assert (Hq : (dec_value (BD ua sa) / dec_value (BD ub sb) * p10 s == inject_Z n / inject_Z d)%Q).
  { unfold n, d. rewrite !inject_Z_mult, !p10_Z by lia. unfold dec_value. cbn [unscaled scale].
    assert (Hub : ~ (inject_Z ub == 0)%Q) by (intros H; apply Hb; apply (inject_eq ub 0); auto).
    assert (Hk : (p10 (Z.max k 0) == p10 (- sa) * p10 s * p10 sb * p10 (Z.max (- k) 0))%Q).
    { rewrite <- !p10_plus. replace (- sa + s + sb + Z.max (- k) 0) with (Z.max k 0) by lia. reflexivity. }
    rewrite Hk. rewrite !Qpower_opp. field. repeat split; auto using p10_nz. }
  assert (Hdq : ~ (inject_Z d == 0)%Q) by (intros H; apply Hd; apply (inject_eq d 0); auto).
  destruct (Z.rem n d =? 0) eqn:R; [left|right].
  - eexists; split; [reflexivity|]. rewrite Hq. rewrite (quot_rem_zero n d Hd ltac:(lia)) at 1.
    rewrite inject_Z_mult. field. auto.
  - split; auto. intros z Hz. rewrite Hq in Hz.
    assert (n = z * d).
    { apply inject_eq. rewrite inject_Z_mult, <- Hz. field. auto. }
    rewrite H, Z.rem_mul in R by auto. discriminate.
Qed.

(** Stripping zeros *)
Lemma strip_value : forall f u s, (dec_value (strip_zeros f u s) == dec_value (BD u s))%Q.
Proof.
  induction f as [|f IH]; intros u s; cbn [strip_zeros]; [reflexivity|].
  destruct (Z.rem u 10 =? 0) eqn:E; [|reflexivity]. rewrite IH. unfold dec_value. cbn [unscaled scale].
  rewrite (quot_rem_zero u 10) at 2 by lia. rewrite inject_Z_mult.
  replace (- (s - 1)) with (- s + 1) by lia. rewrite p10_plus. change (p10 1) with (10 # 1)%Q. change (inject_Z 10) with (10 # 1)%Q. ring.
Qed.
Lemma strip_complete : forall f u s, u <> 0 -> Z.abs u < 2 ^ Z.of_nat f -> let r := strip_zeros f u s in Z.rem (unscaled r) 10 <> 0 /\ unscaled r <> 0.
Proof.
  induction f as [|f IH]; intros u s Hu Hb; [cbn in Hb; lia|].
  cbn [strip_zeros]. destruct (Z.rem u 10 =? 0) eqn:E.
  - apply IH.
    + pose proof (quot_rem_zero u 10 ltac:(lia) ltac:(lia)). lia.
    + rewrite Nat2Z.inj_succ, Z.pow_succ_r in Hb by lia. pose proof (quot_rem_zero u 10 ltac:(lia) ltac:(lia)). lia.
  - cbn [unscaled]. lia.
Qed.
Lemma bd_strip_value : forall b, (dec_value (bd_strip b) == dec_value b)%Q.
Proof.
  intros [u s]. unfold bd_strip. cbn [unscaled scale]. destruct (u =? 0) eqn:E.
  - assert (u = 0) by lia. subst. unfold dec_value. cbn [unscaled scale]. ring.
  - apply strip_value.
Qed.
Lemma bd_strip_complete : forall b, unscaled b <> 0 -> Z.rem (unscaled (bd_strip b)) 10 <> 0.
Proof.
  intros [u s] H. unfold bd_strip. cbn [unscaled scale] in *. destruct (u =? 0) eqn:E; [lia|].
  apply strip_complete; auto. rewrite Nat2Z.inj_succ, Z2Nat.id by apply Z.log2_nonneg.
  apply Z.log2_spec. lia.
Qed.

Definition integral (b : bigdec) : Prop := exists z, (dec_value b == inject_Z z)%Q.
Lemma integral_trunc : forall b z, (dec_value b == inject_Z z)%Q -> bd_trunc b = z.
Proof.
  intros b z H. eapply truncates_unique; [apply bd_trunc_truncates|]. eapply truncates_ext; [symmetry; exact H|apply truncates_int].
Qed.
Lemma strip_scale_integral : forall b, scale (bd_strip b) <= 0 <-> integral b.
Proof.
  intros b. split.
  - intros H. exists (unscaled (bd_strip b) * 10 ^ (- scale (bd_strip b))).
    rewrite <- bd_strip_value. unfold dec_value. rewrite inject_Z_mult, p10_Z by lia. reflexivity.
  - intros [z H]. destruct (Z.eq_dec (unscaled b) 0) as [E|E].
    + unfold bd_strip. rewrite E. cbn. lia.
    + destruct (Z_le_gt_dec (scale (bd_strip b)) 0) as [L|G]; auto. exfalso.
      apply (bd_strip_complete b E). rewrite <- bd_strip_value in H. unfold dec_value in H.
      set (u := unscaled (bd_strip b)) in *. set (s := scale (bd_strip b)) in *.
      assert (u = z * 10 ^ s).
      { apply inject_eq. rewrite inject_Z_mult, p10_Z by lia. rewrite <- H, Qpower_opp. field. apply p10_nz. }
      rewrite H0. replace s with (1 + (s - 1)) by lia. rewrite Z.pow_add_r by lia.
      replace (z * (10 ^ 1 * 10 ^ (s - 1))) with (z * 10 ^ (s - 1) * 10) by lia. apply Z.rem_mul. lia.
Qed.

Lemma cast_decimal_integral : forall b z, (dec_value b == inject_Z z)%Q ->
  cast_decimal b = if in_int z then Ok (VInt z) else Err ArithmeticExc.
Proof.
  intros b z H. unfold cast_decimal.
  assert (scale (bd_strip b) <= 0) by (apply strip_scale_integral; exists z; auto).
  replace (scale (bd_strip b) <=? 0) with true by lia. rewrite !orb_true_r.
  unfold int_value_exact. rewrite (integral_trunc b z H). rewrite dec_compare. unfold bd_of_Z. rewrite dec_of_Z, H.
  rewrite (proj1 (Qeq_alt _ _) (Qeq_refl _)). reflexivity.
Qed.
Lemma cast_decimal_fraction : forall b, ~ integral b -> cast_decimal b = Ok (VDec b).
Proof.
  intros b H. unfold cast_decimal.
  destruct (unscaled b =? 0) eqn:E1.
  { exfalso. apply H. exists 0. unfold dec_value. replace (unscaled b) with 0 by lia. ring. }
  destruct (scale b <=? 0) eqn:E2.
  { exfalso. apply H. exists (unscaled b * 10 ^ (- scale b)). unfold dec_value. rewrite inject_Z_mult, p10_Z by lia. reflexivity. }
  destruct (scale (bd_strip b) <=? 0) eqn:E3; auto. exfalso. apply H, strip_scale_integral. lia.
Qed.
Lemma integral_dec : forall b, integral b \/ ~ integral b.
Proof.
  intros b. destruct (Z_le_gt_dec (scale (bd_strip b)) 0) as [L|G].
  - left. apply strip_scale_integral; auto.
  - right. intros H. apply strip_scale_integral in H. lia.
Qed.
