(** Whole numbers beyond 2^53 pass through a double. *)
From Coq Require Import QArith.
From Verif Require Import Base JNum BigDec Dates Values Ops Funcs Ast Eval SpecNum SpecCompare SpecArith SpecFunc CompareFacts BigDecFacts ArithFacts FuncFacts.
Local Open Scope Z_scope.

Lemma representable_opp z : representable z -> representable (- z).
Proof. intros (m & e & -> & M & L). exists (- m), e. repeat split; try lia. Qed.
Lemma nearest_opp z y : nearest_double z y -> nearest_double (- z) (- y).
Proof.
  intros [R N]. split; [now apply representable_opp |]. intros w W D. destruct (N (- w)) as [L | (L & m & n & e & E & Y & X & A & V)].
  - now apply representable_opp.
  - lia.
  - left. lia.
  - right. split; [lia |]. exists (- m), (- n), e. repeat split; try lia. destruct V as [k ->]. exists (- k). lia.
Qed.

Lemma far_multiple P H a q n : P = 2 * H -> 1 <= H -> Z.abs (q * P - a) <= H -> n <= q - 2 \/ q + 2 <= n -> Z.abs (q * P - a) < Z.abs (n * P - a).
Proof.
  intros -> H1 D [G | G].
  - assert (n * (2 * H) <= (q - 2) * (2 * H)) as M by (apply Z.mul_le_mono_nonneg_r; lia). rewrite Z.mul_sub_distr_r in M. lia.
  - assert ((q + 2) * (2 * H) <= n * (2 * H)) as M by (apply Z.mul_le_mono_nonneg_r; lia). rewrite Z.mul_add_distr_r in M. lia.
Qed.
Lemma near_multiple P H a q r n : P = 2 * H -> 1 <= H -> a = P * q + r -> 0 <= r < P -> n = q + 2 \/ n = q + 1 \/ n = q \/ n = q - 1 ->
  n * P - a = (if n =? q + 2 then 2 * P - r else if n =? q + 1 then P - r else if n =? q then - r else - P - r).
Proof.
  intros -> H1 -> R [-> | [-> | [-> | ->]]].
  - rewrite Z.eqb_refl. ring.
  - destruct (q + 1 =? q + 2) eqn:X; [lia|]. rewrite Z.eqb_refl. ring.
  - destruct (q =? q + 2) eqn:X; [lia|]. destruct (q =? q + 1) eqn:Y; [lia|]. rewrite Z.eqb_refl. ring.
  - destruct (q - 1 =? q + 2) eqn:X; [lia|]. destruct (q - 1 =? q + 1) eqn:Y; [lia|]. destruct (q - 1 =? q) eqn:W; [lia|]. ring.
Qed.
Lemma next_nearest P H a q r q' n : P = 2 * H -> 1 <= H -> a = P * q + r -> 0 <= r < P -> q' = q \/ q' = q + 1 ->
  (q' = q -> r < H \/ (r = H /\ Z.Even q)) -> (q' = q + 1 -> H < r \/ (r = H /\ Z.Even (q + 1))) -> Z.abs (n - q') = 1 ->
  Z.abs (q' * P - a) < Z.abs (n * P - a) \/ (Z.abs (q' * P - a) = Z.abs (n * P - a) /\ Z.Even q').
Proof.
  intros E H1 A R Q C1 C2 N. assert (In' : n = q + 2 \/ n = q + 1 \/ n = q \/ n = q - 1) by (clear - Q N; lia).
  rewrite (near_multiple P H a q r n E H1 A R In'), (near_multiple P H a q r q' E H1 A R) by (clear - Q; lia). clear A.
  destruct Q as [-> | ->].
  - assert (n = q + 1 \/ n = q - 1) as [-> | ->] by (clear - N; lia); clear N In' C2; destruct (C1 eq_refl) as [B | [B V]]; clear C1;
      repeat match goal with |- context [?x =? ?y] => destruct (Z.eqb_spec x y); try lia end; (left; lia) || (right; split; [lia|exact V]).
  - assert (n = q + 2 \/ n = q) as [-> | ->] by (clear - N; lia); clear N In' C1; destruct (C2 eq_refl) as [B | [B V]]; clear C2;
      repeat match goal with |- context [?x =? ?y] => destruct (Z.eqb_spec x y); try lia end; (left; lia) || (right; split; [lia|exact V]).
Qed.
Lemma below_multiple P H a q r q' w : P = 2 * H -> 1 <= H -> a = P * q + r -> 0 <= r < P -> 4503599627370496 <= q -> Z.abs (q' * P - a) <= H -> q' = q \/ q' = q + 1 ->
  (q' = q -> r < H \/ (r = H /\ Z.Even q)) -> (q' = q + 1 -> H < r \/ (r = H /\ Z.Even (q + 1))) ->
  w < 4503599627370496 * P -> Z.abs (q' * P - a) < Z.abs (w - a).
Proof.
  intros E H1 A R Q1 D Q C1 C2 W. assert (4503599627370496 * P <= q * P) as M by (apply Z.mul_le_mono_nonneg_r; lia).
  rewrite (near_multiple P H a q r q' E H1 A R) by (clear - Q; lia). assert (w < a - r) as G by (rewrite A; lia). clear - G R C1 C2 Q E H1.
  destruct Q as [-> | ->].
  - destruct (q =? q + 2) eqn:X; [lia|]. destruct (q =? q + 1) eqn:Y; [lia|]. rewrite Z.eqb_refl. lia.
  - destruct (q + 1 =? q + 2) eqn:X; [lia|]. rewrite Z.eqb_refl. destruct (C2 eq_refl) as [B | [B _]]; lia.
Qed.

Lemma round_nearest_pos a : 2 ^ 53 <= a -> a <= 2 ^ 63 -> nearest_double a (round_double a).
Proof.
  intros L U. unfold round_double. change 9007199254740992 with (2 ^ 53). assert (P53 : 2 ^ 53 = 9007199254740992) by reflexivity.
  rewrite (Z.abs_eq a) by lia. destruct (a <? 2 ^ 53) eqn:X; [lia |]. clear X. cbv zeta.
  pose proof (Z.log2_spec a ltac:(lia)) as [LL LU]. set (e := Z.log2 a - 52).
  assert (E1 : 1 <= e) by (assert (53 <= Z.log2 a) by (apply Z.log2_le_pow2; lia); unfold e; lia).
  assert (E2 : e <= 11). { assert (Z.log2 a <= 63) by (apply Z.log2_le_mono in U; rewrite Z.log2_pow2 in U; lia). unfold e. lia. }
  replace (Z.log2 a) with (52 + e) in LL, LU by (unfold e; lia). replace (Z.succ (52 + e)) with (53 + e) in LU by lia. clearbody e.
  rewrite Z.pow_add_r in LL, LU by lia. assert (P52 : 2 ^ 52 = 4503599627370496) by reflexivity. rewrite P52 in LL. rewrite P53 in *.
  set (P := 2 ^ e) in *. set (H := 2 ^ (e - 1)). assert (HP : P = 2 * H) by (unfold P, H; rewrite <- Z.pow_succ_r by lia; f_equal; lia).
  assert (H1 : 1 <= H) by (unfold H; assert (0 < 2 ^ (e - 1)) by (apply Z.pow_pos_nonneg; lia); lia).
  pose proof (Z.div_mod a P ltac:(lia)) as DM. pose proof (Z.mod_pos_bound a P ltac:(lia)) as MB. set (q := a / P) in *. set (r := a mod P) in *.
  assert (Q1 : 4503599627370496 <= q) by nia. assert (Q2 : q < 9007199254740992) by nia.
  replace (Z.sgn a) with 1 by lia.
  assert (B : exists q', (if (H <? r) || ((r =? H) && Z.odd q) then q + 1 else q) = q' /\ (q' = q \/ q' = q + 1) /\ Z.abs (q' * P - a) <= H /\
    (q' = q -> r < H \/ (r = H /\ Z.Even q)) /\ (q' = q + 1 -> H < r \/ (r = H /\ Z.Even (q + 1)))).
  { eexists. split; [reflexivity |]. destruct (H <? r) eqn:A; [| destruct (r =? H) eqn:C; [destruct (Z.odd q) eqn:O |]]; cbn [orb andb].
    - repeat split; try lia; nia.
    - apply Z.eqb_eq in C. repeat split; try lia; try nia. intros _. right. split; [exact C |]. apply Z.odd_spec in O. destruct O as [k O]. exists (k + 1). lia.
    - apply Z.eqb_eq in C. repeat split; try lia; try nia. intros _. right. split; [exact C |]. apply Z.even_spec. rewrite <- Z.negb_odd, O. reflexivity.
    - apply Z.eqb_neq in C. repeat split; try lia; nia. }
  destruct B as (q' & -> & QQ & D & C1 & C2). rewrite Z.mul_1_l.
  assert (PE : P * 2 = 2 ^ (e + 1)) by (unfold P; rewrite Z.pow_add_r by lia; reflexivity).
  split.
  - destruct (Z.eq_dec q' 9007199254740992) as [-> | NQ].
    + exists 4503599627370496, (e + 1). rewrite <- PE. repeat split; lia.
    + exists q', e. repeat split; lia.
  - intros w (m & f & W & M & F1 & F2) NE.
    assert (C : (exists n, w = n * P) \/ w < 4503599627370496 * P).
    { destruct (Z.le_gt_cases e f) as [G | G].
      - left. exists (m * 2 ^ (f - e)). rewrite W. unfold P. rewrite <- Z.mul_assoc, <- Z.pow_add_r by lia. do 2 f_equal. lia.
      - right. rewrite W. assert (2 * 2 ^ f <= P).
        { unfold P. rewrite <- Z.pow_succ_r by lia. apply Z.pow_le_mono_r; lia. }
        assert (0 < 2 ^ f) by (apply Z.pow_pos_nonneg; lia).
        assert (m * 2 ^ f <= 9007199254740991 * 2 ^ f) by (apply Z.mul_le_mono_nonneg_r; lia). lia. }
    clear - C DM MB HP H1 Q1 D QQ C1 C2 NE E1. destruct C as [[n ->] | C].
    + assert (NQ : n <> q') by congruence.
      destruct (Z.eq_dec (Z.abs (n - q')) 1) as [A1 | A1].
      * destruct (next_nearest P H a q r q' n HP H1 DM MB QQ C1 C2 A1) as [G | [G V]]; [left; exact G|right]. split; [exact G|].
        exists q', n, e. repeat split; auto; try (clear - E1; lia). clear - A1. lia.
      * left. apply (far_multiple P H a q' n); auto. clear - A1 NQ. lia.
    + left. exact (below_multiple P H a q r q' w HP H1 DM MB Q1 D QQ C1 C2 C).
Qed.
Lemma representable_half z : Z.abs z <= 2 ^ 53 -> representable z.
Proof.
  intros H. destruct (Z.eq_dec (Z.abs z) (2 ^ 53)) as [E | E].
  - exists (Z.sgn z * 2 ^ 52), 1. change (2 ^ 53) with 9007199254740992 in *. change (2 ^ 52) with 4503599627370496. change (2 ^ 1) with 2.
    repeat split; try lia; destruct z; cbn [Z.sgn] in *; lia.
  - exists z, 0. change (2 ^ 0) with 1. change (2 ^ 53) with 9007199254740992 in *. repeat split; lia.
Qed.
Lemma round_nearest z : Z.abs z <= 2 ^ 63 -> nearest_double z (round_double z).
Proof.
  intros H. destruct (Z.le_gt_cases (2 ^ 53) (Z.abs z)) as [L | L].
  - destruct (Z.le_gt_cases 0 z) as [P | P].
    + rewrite Z.abs_eq in L, H by lia. now apply round_nearest_pos.
    + rewrite Z.abs_neq in L, H by lia. pose proof (nearest_opp _ _ (round_nearest_pos (- z) L H)) as N. rewrite Z.opp_involutive in N.
      replace (round_double z) with (- round_double (- z)); [exact N |]. unfold round_double. rewrite Z.abs_opp, Z.sgn_opp.
      destruct (Z.abs z <? 9007199254740992); lia.
  - rewrite round_small by lia. split; [apply representable_half; lia |]. intros w W N. left. lia.
Qed.

(** C21, C22 *)
Lemma cast_long z : Z.abs z <= 2 ^ 63 -> exists y, nearest_double z y /\ whole_result (cast_long_as_double z) y.
Proof.
  intros H. exists (round_double z). split; [now apply round_nearest |]. unfold cast_long_as_double.
  rewrite (cast_double_whole (round_double z) 0 (round_double z)) by (unfold double_value; rewrite Qmult_1_r; reflexivity).
  split; intros F.
  - apply fits32_iff in F. rewrite F. reflexivity.
  - destruct (in_int (round_double z)) eqn:X; [apply fits32_iff in X; tauto|]. eexists. split; [reflexivity|apply dec_of_Z].
Qed.

Lemma whole_in ms zs z : Forall2 whole ms zs -> In z zs -> Z.abs z <= 2 ^ 63.
Proof.
  intros F. induction F as [| v x ms zs W F IH]; [intros [] |]. intros [<- | I]; [| auto].
  change (2 ^ 63) with 9223372036854775808. destruct W as [z0 W | z0 W]; unfold fits32, fits64 in W; lia.
Qed.
Lemma min_long : forall E d items ms zs, arguments E d items ms -> Forall2 whole ms zs -> (2 <= length ms)%nat ->
  exists z y, In z zs /\ (forall z', In z' zs -> z <= z') /\ nearest_double z y /\ whole_result (arith_eval E d (NFunc F_MIN items)) y.
Proof.
  intros E d items ms zs A W L. rewrite (call_list E d F_MIN items ms _ A (whole_numbers _ _ W) L) by (cbn; auto). cbn [func_evaluate]. unfold eval_min.
  rewrite (whole_no_decimal ms zs W). destruct zs as [|z0 zs]; [inversion W; subst; cbn in L; lia|].
  destruct (fold_min zs z0) as [I M]. exists (fold_left Z.min zs z0). destruct (cast_long _ (whole_in _ _ _ W I)) as (y & N & R). exists y. repeat split; auto; try apply N; try apply R;
  destruct (has_type LONG (typed ms)) eqn:T; [rewrite (longs_typed ms _ W)|rewrite (ints_typed ms _ W T)|rewrite (longs_typed ms _ W)|rewrite (ints_typed ms _ W T)]; cbn [bind reduce1]; apply R.
Qed.
Lemma max_long : forall E d items ms zs, arguments E d items ms -> Forall2 whole ms zs -> (2 <= length ms)%nat ->
  exists z y, In z zs /\ (forall z', In z' zs -> z' <= z) /\ nearest_double z y /\ whole_result (arith_eval E d (NFunc F_MAX items)) y.
Proof.
  intros E d items ms zs A W L. rewrite (call_list E d F_MAX items ms _ A (whole_numbers _ _ W) L) by (cbn; auto). cbn [func_evaluate]. unfold eval_max.
  rewrite (whole_no_decimal ms zs W). destruct zs as [|z0 zs]; [inversion W; subst; cbn in L; lia|].
  destruct (fold_max zs z0) as [I M]. exists (fold_left Z.max zs z0). destruct (cast_long _ (whole_in _ _ _ W I)) as (y & N & R). exists y. repeat split; auto; try apply N; try apply R;
  destruct (has_type LONG (typed ms)) eqn:T; [rewrite (longs_typed ms _ W)|rewrite (ints_typed ms _ W T)|rewrite (longs_typed ms _ W)|rewrite (ints_typed ms _ W T)]; cbn [bind reduce1]; apply R.
Qed.
Lemma sum_long : forall E d items ms zs, arguments E d items ms -> Forall2 whole ms zs -> (2 <= length ms)%nat ->
  exists z y, wraps 64 (whole_total zs) z /\ nearest_double z y /\ whole_result (arith_eval E d (NFunc F_SUM items)) y.
Proof.
  intros E d items ms zs A W L. rewrite (call_list E d F_SUM items ms _ A (whole_numbers _ _ W) L) by (cbn; auto 10). cbn [func_evaluate]. unfold eval_sum.
  rewrite (whole_no_decimal ms zs W), (longs_typed ms _ W). cbn [bind]. rewrite long_sum_wrap. exists (wrap64 (whole_total zs)).
  destruct (cast_long (wrap64 (whole_total zs))) as (y & N & R).
  { pose proof (wraps64 (whole_total zs)) as [B _]. change (2 ^ (64 - 1)) with 9223372036854775808 in B. change (2 ^ 63) with 9223372036854775808. lia. }
  exists y. split; [apply wraps64 | split; [exact N | exact R]].
Qed.
Lemma nearest_unique : forall z y w, nearest_double z y -> nearest_double z w -> y = w.
Proof.
  intros z y w [RY NY] [RW NW]. destruct (Z.eq_dec y w) as [| D]; auto. exfalso.
  destruct (NY w RW ltac:(congruence)) as [A | (A & m & n & e & E & Y & W & O & V)]; destruct (NW y RY D) as [B | (B & m' & n' & e' & E' & W' & Y' & O' & V')]; try lia.
  assert (P : 0 < 2 ^ e) by (apply Z.pow_pos_nonneg; lia). assert (P' : 0 < 2 ^ e') by (apply Z.pow_pos_nonneg; lia).
  assert (Q : 2 ^ e = 2 ^ e') by (assert (m = n + 1 \/ m = n - 1) as [-> | ->] by lia; assert (m' = n' + 1 \/ m' = n' - 1) as [-> | ->] by lia; lia).
  rewrite <- Q in *. assert (m = n') by (apply (Z.mul_reg_r _ _ (2 ^ e)); lia). destruct V as [k ->], V' as [k' ->]. lia.
Qed.
