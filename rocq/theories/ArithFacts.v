(** C15 - C20, C29, C44, C45: arithmetic operators. *)
From Coq Require Import QArith Qpower ZifyBool.
From Verif Require Import Base JNum BigDec Dates Values Ops Funcs Ast Eval JNumFacts SpecNum SpecCompare SpecArith BigDecFacts NumFacts CompareFacts FieldFacts.
Local Open Scope Z_scope.

Lemma bin_eval : forall E d l op r, op <> UNARY -> arith_eval E d (bin l op r) =
  (lv <- arith_eval E d l ;; rv <- arith_eval E d r ;; evaluate_arithmetic E op lv (get_data_type lv) (Some (rv, get_data_type rv))).
Proof. intros. unfold bin. cbn [arith_eval]. destruct op; try reflexivity. congruence. Qed.
Lemma neg_eval : forall E d l, arith_eval E d (neg l) = (lv <- arith_eval E d l ;; evaluate_arithmetic E UNARY lv (get_data_type lv) None).
Proof. reflexivity. Qed.

Definition apply_op (E : env) (op : operator) (l : jval) (lt : dtype) (r : jval) (rt : dtype) : res jval :=
  match op with
  | ADD => eval_add l lt r rt | SUBTRACT => eval_subtract l lt r rt | MULTIPLY => eval_multiply l lt r rt
  | DIVIDE => eval_divide l r | MODULUS => eval_modulus l lt r rt | EXPONENT => eval_exponent E l lt r rt | _ => eval_unary l lt
  end.
Lemma bin_apply : forall E d l op r v w, arith_eval E d l = Ok v -> arith_eval E d r = Ok w -> arithmetic op ->
  supported op (get_data_type v) -> supported op (get_data_type w) ->
  is_valid (get_data_type v) v = Ok true -> is_valid (get_data_type w) w = Ok true ->
  arith_eval E d (bin l op r) = apply_op E op v (get_data_type v) w (get_data_type w).
Proof.
  intros E d l op r v w L R A Sv Sw Vv Vw. rewrite bin_eval by (intros ->; destruct A as [A|[A|[A|[A|[A|[A|[]]]]]]]; discriminate A).
  rewrite L, R. cbn [bind]. unfold evaluate_arithmetic.
  destruct A as [A|[A|[A|[A|[A|[A|[]]]]]]]; subst op; cbn [arithmetic_types]; cbn [supported] in *;
    (replace (mem_type (get_data_type v) _) with true by (destruct (get_data_type v); intuition discriminate));
    (replace (mem_type (get_data_type w) _) with true by (destruct (get_data_type w); intuition discriminate));
    rewrite Vv; cbn [negb bind];
    (replace (match w with VNull => Ok true | _ => is_valid (get_data_type w) w end) with (Ok true) by (rewrite Vw; destruct w; reflexivity)); reflexivity.
Qed.

Lemma fits32_iff : forall z, fits32 z <-> in_int z = true. Proof. intros. unfold fits32. rewrite in_int_iff. reflexivity. Qed.
Lemma fits64_iff : forall z, fits64 z <-> in_long z = true. Proof. intros. unfold fits64. rewrite in_long_iff. reflexivity. Qed.
Lemma whole_number : forall v z, whole v z -> number v (inject_Z z).
Proof. intros v z [z' H|z' H]; constructor; auto; reflexivity. Qed.
Lemma whole_type : forall v z, whole v z -> get_data_type v = INTEGER /\ v = VInt z /\ fits32 z \/ get_data_type v = LONG /\ v = VLong z /\ fits64 z.
Proof. intros v z [z' H|z' H]; auto. Qed.
Lemma long_of_int : forall z, fits32 z -> long_value (VInt z) = Some z.
Proof. intros z H. apply long_value_int, fits64_iff. unfold fits32, fits64 in *. lia. Qed.
Lemma long_of_whole : forall v z, whole v z -> long_value v = Some z.
Proof. intros v z [z' H|z' H]; auto. apply long_of_int; auto. Qed.
Lemma whole_fits64 : forall v z, whole v z -> fits64 z.
Proof. intros v z [z' H|z' H]; auto. unfold fits32, fits64 in *. lia. Qed.

Lemma wraps64 : forall z, wraps 64 z (wrap64 z).
Proof.
  intros z. split; [|apply wrap64_cong]. pose proof (wrap64_in z) as H. apply in_long_iff in H. change (2 ^ (64 - 1)) with 9223372036854775808. lia.
Qed.
Lemma wraps32 : forall z, wraps 32 z (wrap32 z).
Proof.
  intros z. split; [|apply wrap32_cong]. pose proof (wrap32_in z) as H. apply in_int_iff in H. change (2 ^ (32 - 1)) with 2147483648. lia.
Qed.
Lemma cast_smallest : forall z, fits64 z -> smallest z (cast_long z).
Proof.
  intros z H. unfold smallest, cast_long. destruct (in_int z) eqn:E.
  - left. split; auto. apply fits32_iff; auto.
  - right. split; auto. intros X. apply fits32_iff in X. congruence.
Qed.
Lemma wrap64_fits : forall z, fits64 (wrap64 z).
Proof. intros. apply fits64_iff, wrap64_in. Qed.
Lemma wrap32_fits : forall z, fits32 (wrap32 z).
Proof. intros. apply fits32_iff, wrap32_in. Qed.

Lemma whole_types : forall v w a b, whole v a -> whole w b ->
  either DECIMAL (get_data_type v) (get_data_type w) = false /\ either STRING (get_data_type v) (get_data_type w) = false /\
  either VERSION (get_data_type v) (get_data_type w) = false /\ either BOOLEAN (get_data_type v) (get_data_type w) = false.
Proof. intros v w a b Hv Hw. destruct Hv, Hw; repeat split; reflexivity. Qed.

Ltac sup := unfold arithmetic, supported; cbn; auto 12.

Lemma whole_supported : forall v z op, whole v z -> arithmetic op -> supported op (get_data_type v).
Proof. intros v z op H A. destruct A as [A|[A|[A|[A|[A|[A|[]]]]]]]; subst op; destruct H; cbn; auto. Qed.
Lemma whole_valid : forall v z, whole v z -> is_valid (get_data_type v) v = Ok true.
Proof. intros v z H. eapply number_valid, whole_number; eauto. Qed.
Lemma whole_bin : forall E d l op r v w a b, arith_eval E d l = Ok v -> arith_eval E d r = Ok w -> whole v a -> whole w b -> arithmetic op ->
  arith_eval E d (bin l op r) = apply_op E op v (get_data_type v) w (get_data_type w).
Proof. intros. eapply bin_apply; eauto using whole_supported, whole_valid. Qed.

(** C15 *)
Lemma add_multiply : forall E d l r v w a b op, arith_eval E d l = Ok v -> arith_eval E d r = Ok w -> whole v a -> whole w b ->
  op = ADD \/ op = MULTIPLY ->
  exists y x, arith_eval E d (bin l op r) = Ok x /\ smallest y x /\ wraps 64 (exact_op op a b) y /\
              (fits64 (exact_op op a b) -> y = exact_op op a b).
Proof.
  intros E d l r v w a b op L R Hv Hw Hop. exists (wrap64 (exact_op op a b)), (cast_long (wrap64 (exact_op op a b))).
  assert (A : arithmetic op) by (destruct Hop; subst; sup).
  rewrite (whole_bin _ _ _ _ _ _ _ _ _ L R Hv Hw A). destruct (whole_types v w a b Hv Hw) as (T1 & T2 & T3 & T4).
  repeat split; try apply wraps64; try (apply cast_smallest, wrap64_fits).
  - destruct Hop; subst op; cbn [apply_op]; unfold eval_add, eval_multiply; rewrite ?T1, ?T2, ?T3, ?T4; cbn [orb];
      rewrite (long_of_whole v a Hv), (long_of_whole w b Hw); reflexivity.
  - intros F. apply wrap64_id, fits64_iff, F.
Qed.
Lemma small_exact : forall a b op, fits32 a -> fits32 b -> op = ADD \/ op = MULTIPLY -> fits64 (exact_op op a b).
Proof.
  intros a b op A B [-> | ->]; unfold fits32, fits64, exact_op in *; [lia|].
  assert (Z.abs (a * b) <= 2147483648 * 2147483648) by (rewrite Z.abs_mul; apply Z.mul_le_mono_nonneg; lia). lia.
Qed.

(** C16 *)
Lemma subtract_ints : forall E d l r a b, arith_eval E d l = Ok (VInt a) -> arith_eval E d r = Ok (VInt b) -> fits32 a -> fits32 b ->
  exists y, arith_eval E d (bin l SUBTRACT r) = Ok (VInt y) /\ wraps 32 (a - b) y /\ (fits32 (a - b) -> y = a - b).
Proof.
  intros E d l r a b L R A B. exists (wrap32 (a - b)). split; [|split; [apply wraps32|]].
  - rewrite (whole_bin _ _ _ _ _ _ _ a b L R) by (sup; constructor; auto). reflexivity.
  - intros F. apply wrap32_id, fits32_iff, F.
Qed.
Lemma subtract_longs : forall E d l r v w a b, arith_eval E d l = Ok v -> arith_eval E d r = Ok w -> whole v a -> whole w b ->
  get_data_type v = LONG \/ get_data_type w = LONG ->
  exists y, arith_eval E d (bin l SUBTRACT r) = Ok (VLong y) /\ wraps 64 (a - b) y /\ (fits64 (a - b) -> y = a - b).
Proof.
  intros E d l r v w a b L R Hv Hw T. exists (wrap64 (a - b)). split; [|split; [apply wraps64|]].
  - rewrite (whole_bin _ _ _ _ _ _ _ a b L R) by (sup). cbn [apply_op]. unfold eval_subtract.
    destruct (whole_types v w a b Hv Hw) as (T1 & _). rewrite T1.
    replace (either LONG (get_data_type v) (get_data_type w)) with true by (destruct T as [-> | ->]; unfold either; cbn; rewrite ?orb_true_r; reflexivity).
    rewrite (long_of_whole v a Hv), (long_of_whole w b Hw). reflexivity.
  - intros F. apply wrap64_id, fits64_iff, F.
Qed.
Lemma negate_whole : forall E d n a,
  (arith_eval E d n = Ok (VInt a) -> fits32 a -> exists y, arith_eval E d (neg n) = Ok (VInt y) /\ wraps 32 (- a) y /\ (fits32 (- a) -> y = - a)) /\
  (arith_eval E d n = Ok (VLong a) -> fits64 a -> exists y, arith_eval E d (neg n) = Ok (VLong y) /\ wraps 64 (- a) y /\ (fits64 (- a) -> y = - a)).
Proof.
  intros E d n a. split; intros N F; rewrite neg_eval, N; cbn [bind].
  - exists (wrap32 (- a)). split; [reflexivity|]. split; [apply wraps32|]. intros G. apply wrap32_id, fits32_iff, G.
  - exists (wrap64 (- a)). split; [reflexivity|]. split; [apply wraps64|]. intros G. apply wrap64_id, fits64_iff, G.
Qed.
Lemma negate_decimal : forall E d n b, arith_eval E d n = Ok (VDec b) ->
  exists c, arith_eval E d (neg n) = Ok (VDec c) /\ (dec_value c == - dec_value b)%Q.
Proof. intros E d n b N. exists (bd_neg b). rewrite neg_eval, N. split; [reflexivity|apply dec_neg]. Qed.
Lemma negate_float : forall E d n dbl t q, arith_eval E d n = Ok (VFloat dbl t) -> float_text t q -> arith_eval E d (neg n) = Err ClassCast.
Proof.
  intros E d n dbl t q N F. rewrite neg_eval, N. cbn [bind]. unfold evaluate_arithmetic. cbn [arithmetic_types get_data_type]. change (mem_type DECIMAL [INTEGER; LONG; DECIMAL]) with true. cbn [negb].
  pose proof (number_valid (VFloat dbl t) q (number_float dbl t q F)) as V. cbn [get_data_type] in V. rewrite V. reflexivity.
Qed.
Lemma subtract_is_add_neg : forall E d l r a b, arith_eval E d l = Ok (VInt a) -> arith_eval E d r = Ok (VInt b) -> fits32 a -> fits32 b ->
  fits32 (a - b) -> fits32 (- b) -> arith_eval E d (bin l SUBTRACT r) = arith_eval E d (bin l ADD (neg r)).
Proof.
  intros E d l r a b L R A B F G. destruct (subtract_ints E d l r a b L R A B) as (y & -> & _ & Hy).
  destruct (proj1 (negate_whole E d r b) R B) as (z & N & _ & Hz). rewrite (Hz G) in N.
  destruct (add_multiply E d l (neg r) _ _ a (- b) ADD L N) as (s & x & -> & S & _ & Hs); [constructor; auto|constructor; auto|auto|].
  cbn [exact_op] in Hs. replace (a + - b) with (a - b) in Hs by lia. rewrite Hs in S by (unfold fits32, fits64 in *; lia).
  destruct S as [[_ ->]|[X _]]; [|tauto]. rewrite Hy; auto.
Qed.

(** C17 *)
Lemma number_supported : forall v q op, number v q -> op = ADD \/ op = SUBTRACT \/ op = MULTIPLY \/ op = DIVIDE \/ op = EXPONENT -> supported op (get_data_type v).
Proof. intros v q op H Hop. destruct (number_dtype v q H) as [->|[->| ->]]; destruct Hop as [->|[->|[->|[->| ->]]]]; cbn; auto. Qed.
Lemma decimal_exact : forall E d l r v w p q op, arith_eval E d l = Ok v -> arith_eval E d r = Ok w -> number v p -> number w q ->
  decimal v \/ decimal w -> op = ADD \/ op = SUBTRACT \/ op = MULTIPLY ->
  exists x, arith_eval E d (bin l op r) = Ok (VDec x) /\ (dec_value x == rational_op op p q)%Q.
Proof.
  intros E d l r v w p q op L R Hv Hw D Hop.
  assert (A : arithmetic op) by (destruct Hop as [->|[->| ->]]; sup).
  rewrite (bin_apply _ _ _ _ _ _ _ L R A); eauto using number_valid; try (eapply number_supported; eauto; intuition; fail).
  destruct (number_decimal v p Hv) as (x & Dx & Px), (number_decimal w q Hw) as (y & Dy & Py).
  assert (T : either DECIMAL (get_data_type v) (get_data_type w) = true) by (unfold decimal, either in *; destruct D as [-> | ->]; cbn; rewrite ?orb_true_r; reflexivity).
  assert (T' : either STRING (get_data_type v) (get_data_type w) = false /\ either VERSION (get_data_type v) (get_data_type w) = false /\ either BOOLEAN (get_data_type v) (get_data_type w) = false).
  { destruct (number_dtype v p Hv) as [->|[->| ->]], (number_dtype w q Hw) as [->|[->| ->]]; repeat split; reflexivity. }
  destruct T' as (T1 & T2 & T3).
  destruct Hop as [->|[->| ->]]; cbn [apply_op]; unfold eval_add, eval_subtract, eval_multiply; rewrite ?T1, ?T2, ?T3, T, Dx, Dy; cbn [orb opt_get bind]; eexists; (split; [reflexivity|]); cbn [rational_op].
  - rewrite dec_add, Px, Py. reflexivity.
  - rewrite dec_sub, Px, Py. reflexivity.
  - rewrite dec_mul, Px, Py. reflexivity.
Qed.

(** C18 *)
Lemma dec_zero : forall b, unscaled b = 0 <-> (dec_value b == 0)%Q.
Proof.
  intros b. unfold dec_value. split; intros H.
  - rewrite H. ring.
  - apply Qmult_integral in H as [H|H]; [|exfalso; eapply p10_nz; eauto]. apply (proj1 (inject_eq _ 0)) in H. auto.
Qed.
Lemma divide_numbers : forall E d l r v w p q, arith_eval E d l = Ok v -> arith_eval E d r = Ok w -> number v p -> number w q -> ~ (q == 0)%Q ->
  exists z, truncates (p / q * inject_Z 1000) z /\
    (forall n, z = 1000 * n -> arith_eval E d (bin l DIVIDE r) = if in_int n then Ok (VInt n) else Err ArithmeticExc) /\
    ((forall n, z <> 1000 * n) -> exists x, arith_eval E d (bin l DIVIDE r) = Ok (VDec x) /\ (dec_value x == inject_Z z / inject_Z 1000)%Q).
Proof.
  intros E d l r v w p q L R Hv Hw Hq.
  rewrite (bin_apply _ _ _ DIVIDE _ _ _ L R); eauto using number_valid; try (eapply number_supported; eauto; intuition; fail); [|sup].
  destruct (number_decimal v p Hv) as (x & Dx & Px), (number_decimal w q Hw) as (y & Dy & Py).
  cbn [apply_op]. unfold eval_divide. rewrite Dx, Dy. cbn [opt_get bind].
  assert (Hy : unscaled y <> 0) by (intros H; apply dec_zero in H; rewrite Py in H; auto).
  destruct (bd_divide_down x y 3 Hy) as (z & -> & T). cbn [bind]. exists z.
  assert (Vz : (dec_value (BD z 3) == inject_Z z / inject_Z 1000)%Q) by (unfold dec_value; reflexivity).
  split; [|split].
  - eapply truncates_ext; [|exact T]. rewrite Px, Py. reflexivity.
  - intros n ->. apply cast_decimal_integral. rewrite Vz, inject_Z_mult. field.
  - intros H. exists (BD z 3). split; [|exact Vz]. apply cast_decimal_fraction. intros [n Hn]. apply (H n).
    apply inject_eq. rewrite Vz in Hn. rewrite inject_Z_mult, <- Hn. field.
Qed.
Lemma divide_zero : forall E d l r v w p q, arith_eval E d l = Ok v -> arith_eval E d r = Ok w -> number v p -> number w q -> (q == 0)%Q ->
  arith_eval E d (bin l DIVIDE r) = Err ArithmeticExc.
Proof.
  intros E d l r v w p q L R Hv Hw Hq.
  rewrite (bin_apply _ _ _ DIVIDE _ _ _ L R); eauto using number_valid; try (eapply number_supported; eauto; intuition; fail); [|sup].
  destruct (number_decimal v p Hv) as (x & Dx & Px), (number_decimal w q Hw) as (y & Dy & Py).
  cbn [apply_op]. unfold eval_divide. rewrite Dx, Dy. cbn [opt_get bind]. unfold bd_divide.
  assert (unscaled y = 0) as -> by (apply dec_zero; rewrite Py; auto). reflexivity.
Qed.

(** C19 *)
Lemma rem_spec : forall a b, b <> 0 -> exists q, a = b * q + Z.rem a b /\ Z.abs (Z.rem a b) < Z.abs b /\ 0 <= a * Z.rem a b.
Proof.
  intros a b H. exists (Z.quot a b). split; [apply Z.quot_rem'|]. split; [apply Z.rem_bound_abs; auto|].
  rewrite Z.mul_comm. apply Z.rem_sign_mul; auto.
Qed.
Lemma modulus_whole : forall E d l r v w a b, arith_eval E d l = Ok v -> arith_eval E d r = Ok w -> whole v a -> whole w b -> b <> 0 ->
  exists x q m, arith_eval E d (bin l MODULUS r) = Ok x /\ whole x m /\ a = b * q + m /\ Z.abs m < Z.abs b /\ 0 <= a * m /\
    (get_data_type x = INTEGER <-> get_data_type v = INTEGER /\ get_data_type w = INTEGER).
Proof.
  intros E d l r v w a b L R Hv Hw Hb. rewrite (whole_bin _ _ _ MODULUS _ _ _ a b L R) by (sup).
  destruct (rem_spec a b Hb) as (q & E1 & E2 & E3). cbn [apply_op]. unfold eval_modulus.
  assert (Lm : forall c, fits64 b -> Z.abs c < Z.abs b -> fits64 c) by (unfold fits64; lia).
  assert (Im : forall c, fits32 b -> Z.abs c < Z.abs b -> fits32 c) by (unfold fits32; lia).
  assert (Nb : (b =? 0) = false) by lia.
  pose proof (whole_fits64 w b Hw) as Fb.
  destruct (either LONG (get_data_type v) (get_data_type w)) eqn:T.
  - exists (VLong (Z.rem a b)), q, (Z.rem a b). rewrite (long_of_whole v a Hv), (long_of_whole w b Hw). cbn [opt_get bind]. rewrite Nb.
    do 5 (split; [try constructor; auto|]). split; [discriminate|].
    intros [X Y]. rewrite X, Y in T. discriminate T.
  - exists (VInt (Z.rem a b)), q, (Z.rem a b). destruct Hv; [|discriminate T]. destruct Hw; [|discriminate T]. cbn [integer_value opt_get bind]. rewrite Nb.
    repeat split; auto. constructor; auto.
Qed.
Lemma modulus_zero : forall E d l r v w a, arith_eval E d l = Ok v -> arith_eval E d r = Ok w -> whole v a -> whole w 0 ->
  arith_eval E d (bin l MODULUS r) = Err ArithmeticExc.
Proof.
  intros E d l r v w a L R Hv Hw. rewrite (whole_bin _ _ _ MODULUS _ _ _ a 0 L R) by (sup). cbn [apply_op]. unfold eval_modulus.
  destruct (either LONG _ _) eqn:T.
  - rewrite (long_of_whole v a Hv), (long_of_whole w 0 Hw). reflexivity.
  - destruct Hv; [|discriminate T]. inversion Hw; subst; [|discriminate T]. reflexivity.
Qed.

Lemma modulus_decimal : forall E d l r v w, arith_eval E d l = Ok v -> arith_eval E d r = Ok w ->
  decimal v \/ (decimal w /\ exists a, whole v a) -> arith_eval E d (bin l MODULUS r) = Err InvalidDataType.
Proof.
  intros E d l r v w L R H. rewrite bin_eval by discriminate. rewrite L, R. cbn [bind]. unfold evaluate_arithmetic. cbn [arithmetic_types].
  unfold decimal in *. destruct H as [-> | [-> [a Ha]]]; [reflexivity|].
  rewrite (whole_valid v a Ha). destruct Ha; reflexivity.
Qed.

(** C20 *)
Lemma odd_part_spec : forall p e q f, odd_part p e = (q, f) -> e <= f /\ Zpos p = Zpos q * 2 ^ (f - e) /\ Z.odd (Zpos q) = true.
Proof.
  induction p as [p IH|p IH|]; intros e q f H; cbn [odd_part] in H.
  - injection H as <- <-. rewrite Z.sub_diag. repeat split; try lia.
  - apply IH in H as (A & B & C). split; [lia|]. split; auto. rewrite Pos2Z.inj_xO, B. replace (f - e) with (1 + (f - (e + 1))) by lia.
    rewrite Z.pow_add_r by lia. lia.
  - injection H as <- <-. rewrite Z.sub_diag. repeat split; try lia.
Qed.
Notation p2 n := ((2 # 1) ^ n)%Q.
Lemma p2_Z : forall n, 0 <= n -> (inject_Z (2 ^ n) == p2 n)%Q.
Proof. intros. rewrite Zpower_Qpower by auto. reflexivity. Qed.
Lemma p2_plus : forall a b, (p2 (a + b) == p2 a * p2 b)%Q.
Proof. intros. apply Qpower_plus. discriminate. Qed.
Lemma p2_p10 : forall k, 0 <= k -> (p2 (- k) == inject_Z (5 ^ k) * (10 # 1) ^ (- k))%Q.
Proof.
  intros k Hk. assert (T : ((10 # 1) ^ k == p2 k * inject_Z (5 ^ k))%Q).
  { rewrite <- (p10_Z k Hk), <- (p2_Z k Hk), <- inject_Z_mult. rewrite <- Z.pow_mul_l. reflexivity. }
  assert (P2 : ~ (p2 k == 0)%Q) by (apply Qpower_not_0; discriminate).
  assert (P5 : ~ (inject_Z (5 ^ k) == 0)%Q). { intros X. apply (proj1 (inject_eq _ 0)) in X. pose proof (Z.pow_pos_nonneg 5 k). lia. }
  rewrite !Qpower_opp, T. field. split; auto.
Qed.
Lemma odd_not_half : forall q k z, Z.odd q = true -> 0 < k -> ~ (inject_Z q * p2 (- k) == inject_Z z)%Q.
Proof.
  intros q k z O Hk H. assert (T : (inject_Z q == inject_Z (z * 2 ^ k))%Q).
  { rewrite inject_Z_mult, <- H, (p2_Z k) by lia. rewrite Qpower_opp. field. apply Qpower_not_0. discriminate. }
  apply (proj1 (inject_eq _ _)) in T. subst q. rewrite Z.odd_mul, Z.odd_pow in O by lia. rewrite andb_false_r in O. discriminate.
Qed.
Lemma signed_double : forall s p e, s = 1 \/ s = -1 ->
  exists b, (let (q, e') := odd_part p e in Ok (if e' <? 0 then BD (s * Zpos q * 5 ^ (- e')) (- e') else BD (s * Zpos q * 2 ^ e') 0)) = Ok b /\
    (dec_value b == double_value (s * Zpos p) e)%Q /\ (forall z, (dec_value b == inject_Z z)%Q -> b = BD z 0).
Proof.
  intros s p e Hs. destruct (odd_part p e) as [q f] eqn:O. apply odd_part_spec in O as (A & B & C). unfold double_value.
  assert (V : (inject_Z (s * Z.pos p) * p2 e == inject_Z (s * Z.pos q) * p2 f)%Q).
  { rewrite B, Z.mul_assoc, (inject_Z_mult (s * Zpos q)), p2_Z by lia. rewrite <- Qmult_assoc, <- p2_plus. replace (f - e + e) with f by lia. reflexivity. }
  destruct (f <? 0) eqn:F.
  - eexists. split; [reflexivity|]. assert (W : (dec_value (BD (s * Z.pos q * 5 ^ (- f)) (- f)) == inject_Z (s * Z.pos q) * p2 f)%Q).
    { unfold dec_value. cbn [unscaled scale]. rewrite inject_Z_mult. replace f with (- - f) at 3 by lia. rewrite (p2_p10 (- f)) by lia. ring. }
    split; [rewrite W, V; reflexivity|]. intros z Hz. exfalso. rewrite W in Hz. replace f with (- - f) in Hz by lia.
    eapply odd_not_half; [| |exact Hz]; [|lia]. rewrite Z.odd_mul, C. destruct Hs; subst s; reflexivity.
  - eexists. split; [reflexivity|]. assert (W : (dec_value (BD (s * Z.pos q * 2 ^ f) 0) == inject_Z (s * Z.pos q) * p2 f)%Q).
    { rewrite dec_of_Z, inject_Z_mult, p2_Z by lia. reflexivity. }
    split; [rewrite W, V; reflexivity|]. intros z Hz. rewrite dec_of_Z in Hz. apply (proj1 (inject_eq _ _)) in Hz. congruence.
Qed.
Lemma bd_of_double_spec : forall m e, exists b, bd_of_double (DFin m e) = Ok b /\ (dec_value b == double_value m e)%Q /\
  (forall z, (dec_value b == inject_Z z)%Q -> b = BD z 0).
Proof.
  intros m e. unfold bd_of_double. destruct m as [|p|p].
  - exists (BD 0 0). split; [reflexivity|]. split; [unfold double_value; rewrite dec_of_Z; ring|]. intros z H. rewrite dec_of_Z in H. apply (proj1 (inject_eq _ _)) in H. congruence.
  - destruct (signed_double 1 p e (or_introl eq_refl)) as (b & H & V & I). exists b. destruct (odd_part p e) as [q f].
    rewrite <- H. rewrite !Z.mul_1_l in *. auto.
  - destruct (signed_double (-1) p e (or_intror eq_refl)) as (b & H & V & I). exists b. destruct (odd_part p e) as [q f].
    rewrite <- H. change (-1 * Z.pos q) with (Z.neg q) in *. change (-1 * Z.pos p) with (Z.neg p) in *. auto.
Qed.
Lemma cast_double_whole : forall m e z, (double_value m e == inject_Z z)%Q -> cast_double (DFin m e) = Ok (if in_int z then VInt z else VDec (BD z 0)).
Proof.
  intros m e z H. unfold cast_double. destruct (bd_of_double_spec m e) as (b & -> & V & I). cbn [bind].
  rewrite (I z) by (rewrite V; auto). cbn [scale unscaled]. rewrite Z.eqb_refl. destruct (in_int z); reflexivity.
Qed.
Lemma power_exact : forall E d l r v w a b, pow_documented E -> arith_eval E d l = Ok v -> arith_eval E d r = Ok w -> whole v a -> whole w b ->
  Z.abs a <= 2 ^ 53 -> 0 <= b <= 2 ^ 53 -> representable (a ^ b) ->
  (fits32 (a ^ b) -> arith_eval E d (bin l EXPONENT r) = Ok (VInt (a ^ b))) /\
  (~ fits32 (a ^ b) -> exists x, arith_eval E d (bin l EXPONENT r) = Ok (VDec x) /\ (dec_value x == inject_Z (a ^ b))%Q).
Proof.
  intros E d l r v w a b P L R Hv Hw Ha Hb Hr. rewrite (whole_bin _ _ _ EXPONENT _ _ _ a b L R) by (sup). cbn [apply_op]. unfold eval_exponent.
  destruct (whole_types v w a b Hv Hw) as (T & _). rewrite T, (long_of_whole v a Hv), (long_of_whole w b Hw). cbn [opt_get bind].
  destruct (P a b Ha Hb Hr) as (m & e & -> & V). rewrite (cast_double_whole m e _ V). split; intros F.
  - apply fits32_iff in F. rewrite F. reflexivity.
  - destruct (in_int (a ^ b)) eqn:X; [apply fits32_iff in X; tauto|]. eexists. split; [reflexivity|apply dec_of_Z].
Qed.

(** C29 *)
Lemma supported_mem : forall op types t, arithmetic_types op = Some types -> (mem_type t types = true <-> supported op t).
Proof. intros op types t H. destruct op; try discriminate H; injection H as <-; destruct t; cbn; intuition (try discriminate; auto). Qed.
Lemma reject_left : forall E d l r op v w, arithmetic op -> arith_eval E d l = Ok v -> arith_eval E d r = Ok w -> ~ supported op (get_data_type v) ->
  arith_eval E d (bin l op r) = Err InvalidDataType.
Proof.
  intros E d l r op v w A L R S. rewrite bin_eval by (intros ->; destruct A as [A|[A|[A|[A|[A|[A|[]]]]]]]; discriminate A). rewrite L, R. cbn [bind]. unfold evaluate_arithmetic.
  destruct (arithmetic_types op) as [types|] eqn:T; [|destruct A as [A|[A|[A|[A|[A|[A|[]]]]]]]; subst; discriminate T].
  destruct (mem_type (get_data_type v) types) eqn:M; [|reflexivity]. apply (supported_mem _ _ _ T) in M. tauto.
Qed.
Lemma is_valid_err : forall v, get_data_type v <> BOOLEAN -> forall e, is_valid (get_data_type v) v <> Err e.
Proof.
  intros v _ e H. destruct v; cbn in H; try discriminate H. destruct (parse_datetime s) eqn:A; cbn in H; [discriminate H|].
  destruct (parse_date s); cbn in H; discriminate H.
Qed.
Lemma own_valid_res : forall v, exists b, is_valid (get_data_type v) v = Ok b.
Proof.
  intros v. destruct v; cbn; eauto. destruct (parse_datetime s) eqn:A; cbn; eauto. destruct (parse_date s); cbn; eauto.
Qed.
Lemma reject_right : forall E d l r op v w, arithmetic op -> arith_eval E d l = Ok v -> arith_eval E d r = Ok w -> ~ supported op (get_data_type w) ->
  arith_eval E d (bin l op r) = Err InvalidDataType.
Proof.
  intros E d l r op v w A L R S. rewrite bin_eval by (intros ->; destruct A as [A|[A|[A|[A|[A|[A|[]]]]]]]; discriminate A). rewrite L, R. cbn [bind]. unfold evaluate_arithmetic.
  destruct (arithmetic_types op) as [types|] eqn:T; [|destruct A as [A|[A|[A|[A|[A|[A|[]]]]]]]; subst; discriminate T].
  destruct (mem_type (get_data_type v) types); [|reflexivity]. cbn [negb]. destruct (own_valid_res v) as [[] ->]; [|reflexivity]. cbn [bind negb].
  destruct (mem_type (get_data_type w) types) eqn:M; [|reflexivity]. apply (supported_mem _ _ _ T) in M. tauto.
Qed.
Lemma reject_unary : forall E d n v, arith_eval E d n = Ok v -> ~ supported UNARY (get_data_type v) -> arith_eval E d (neg n) = Err InvalidDataType.
Proof.
  intros E d n v N S. rewrite neg_eval, N. cbn [bind]. unfold evaluate_arithmetic.
  destruct (arithmetic_types UNARY) as [types|] eqn:T; [|discriminate T]. destruct (mem_type (get_data_type v) types) eqn:M; [|reflexivity].
  apply (supported_mem _ _ _ T) in M. tauto.
Qed.
Lemma func_supported_mem : forall f t, mem_type t (func_types f) = true <-> func_supported f t.
Proof. intros f t. destruct f, t; cbn; intuition (try discriminate; auto). Qed.
Lemma function_items : forall E d f items vs, Forall2 (fun i v => arith_eval E d i = Ok v) items vs ->
  arith_eval E d (NFunc f items) = evaluate_function E f (map (fun v => (v, get_data_type v)) (flat_map members vs)).
Proof.
  intros E d f items vs H. rewrite arith_func. assert (M : arith_items E d items = Ok vs).
  { unfold arith_items. induction H as [|i v is vs' Hi _ IH]; auto. cbn. rewrite Hi. cbn. rewrite IH. reflexivity. }
  rewrite M. reflexivity.
Qed.
Lemma reject_function : forall E d f items vs m, Forall2 (fun i v => arith_eval E d i = Ok v) items vs -> In m (flat_map members vs) ->
  ~ func_supported f (get_data_type m) ->
  arith_eval E d (NFunc f items) = Err InvalidDataType \/ arith_eval E d (NFunc f items) = Err InvalidContainerType.
Proof.
  intros E d f items vs m H I S. rewrite (function_items _ _ _ _ _ H). unfold evaluate_function.
  destruct (map _ (flat_map members vs)) as [|e es] eqn:M; [apply map_eq_nil in M; rewrite M in I; destruct I|]. rewrite <- M.
  destruct (negb (existsb _ _)); [right; reflexivity|]. left.
  destruct (forallb _ _) eqn:F; [|reflexivity]. exfalso. rewrite forallb_forall in F.
  assert (X : mem_type (get_data_type m) (func_types f) = true).
  { apply (F (m, get_data_type m)). apply in_map_iff. eauto. }
  apply func_supported_mem in X. tauto.
Qed.

(** C44 *)
Lemma either_iff : forall t v w, either t (get_data_type v) (get_data_type w) = true <-> get_data_type v = t \/ get_data_type w = t.
Proof. intros. unfold either. destruct (get_data_type v), (get_data_type w), t; cbn; intuition (try discriminate; auto). Qed.
Lemma textual_either : forall v w, either STRING (get_data_type v) (get_data_type w) || either VERSION (get_data_type v) (get_data_type w) || either BOOLEAN (get_data_type v) (get_data_type w) = true <-> textual v \/ textual w.
Proof. intros. unfold textual. cbn. unfold either. destruct (get_data_type v), (get_data_type w); cbn; intuition (try discriminate; auto). Qed.
Lemma concat_text : forall E d l r v w, arith_eval E d l = Ok v -> arith_eval E d r = Ok w -> textual v \/ textual w ->
  supported ADD (get_data_type v) -> supported ADD (get_data_type w) ->
  (forall b t, v = VFloat b t \/ w = VFloat b t -> exists q, float_text t q) ->
  arith_eval E d (bin l ADD r) = Ok (VStr (show v ++ show w)).
Proof.
  intros E d l r v w L R T Sv Sw F.
  assert (V : forall x, v = x \/ w = x -> is_valid (get_data_type x) x = Ok true).
  { intros x Hx. destruct x as [| | | | |b t| | | | | | | |]; try reflexivity.
    - destruct (F b t Hx) as [q Hq]. eapply number_valid, number_float; eauto.
    - cbn. destruct (parse_datetime s) eqn:A; cbn; [rewrite A; reflexivity|]. destruct (parse_date s) eqn:B; cbn; [rewrite B; reflexivity|reflexivity]. }
  rewrite (bin_apply E d l ADD r v w); auto; [|sup]. cbn [apply_op]. unfold eval_add. apply textual_either in T. rewrite T. reflexivity.
Qed.
Lemma cast_long_number : forall z, number_result (cast_long (wrap64 z)).
Proof.
  intros z. unfold cast_long. destruct (in_int (wrap64 z)) eqn:I; [left|right; left]; eexists; split; try reflexivity.
  - apply fits32_iff; auto. - apply wrap64_fits.
Qed.
Lemma cast_decimal_number : forall b x, cast_decimal b = Ok x -> number_result x.
Proof.
  intros b x H. destruct (integral_dec b) as [[z Hz]|N].
  - rewrite (cast_decimal_integral b z Hz) in H. destruct (in_int z) eqn:I; [|discriminate]. injection H as <-. left. eexists. split; eauto. apply fits32_iff; auto.
  - rewrite (cast_decimal_fraction b N) in H. injection H as <-. right. right. eauto.
Qed.
Lemma cast_double_number : forall u x, cast_double u = Ok x -> number_result x.
Proof.
  intros u x H. unfold cast_double in H. destruct (bd_of_double u) as [b|]; [|discriminate]. cbn [bind] in H.
  destruct ((scale b =? 0) && in_int (unscaled b)) eqn:I; injection H as <-.
  - apply andb_true_iff in I as [_ I]. left. eexists. split; eauto. apply fits32_iff; auto.
  - right. right. eauto.
Qed.
Lemma long_value_fits : forall v z, java_value v -> long_value v = Some z -> fits64 z.
Proof.
  intros v z J H. assert (G : forall o, match o with Some d => parse_long (bd_to_plain (bd_strip d)) | None => None end = Some z -> fits64 z).
  { intros [d|] X; [|discriminate]. apply parse_long_plain_strip in X as [_ X]. apply fits64_iff; auto. }
  destruct v; cbn [long_value] in H; try (apply G in H; exact H). injection H as <-. exact J.
Qed.
Lemma integer_value_fits : forall v z, java_value v -> integer_value v = Some z -> fits32 z.
Proof.
  intros v z J H. assert (G : forall o, match o with Some d => parse_int (bd_to_plain (bd_strip d)) | None => None end = Some z -> fits32 z).
  { intros [d|] X; [|discriminate]. apply parse_int_plain_strip in X as [_ X]. apply fits32_iff; auto. }
  destruct v; cbn [integer_value] in H; try (apply G in H; exact H). injection H as <-. exact J.
Qed.
Lemma rem_fits : forall b c a, b <> 0 -> (- c - 1 <= a <= c) -> (- c - 1 <= b <= c) -> - c - 1 <= Z.rem a b <= c.
Proof. intros b c a Hb Ha Hc. pose proof (Z.rem_bound_abs a b Hb). lia. Qed.
Lemma result_type : forall E d l op r v w x, arithmetic op -> arith_eval E d l = Ok v -> arith_eval E d r = Ok w -> java_value v -> java_value w ->
  arith_eval E d (bin l op r) = Ok x ->
  number_result x \/ (op = ADD /\ (textual v \/ textual w) /\ x = VStr (show v ++ show w)).
Proof.
  intros E d l op r v w x A L R Jv Jw H. rewrite bin_eval in H by (intros ->; destruct A as [A|[A|[A|[A|[A|[A|[]]]]]]]; discriminate A). rewrite L, R in H. cbn [bind] in H.
  assert (K : apply_op E op v (get_data_type v) w (get_data_type w) = Ok x).
  { unfold evaluate_arithmetic in H. destruct (arithmetic_types op); [|discriminate]. destruct (negb _); [discriminate|].
    destruct (is_valid _ v) as [[]|]; cbn [bind negb] in H; try discriminate. destruct (negb _); [discriminate|].
    destruct (match w with VNull => _ | _ => _ end) as [[]|]; cbn [bind negb] in H; try discriminate. destruct op; exact H. }
  clear H. destruct A as [A|[A|[A|[A|[A|[A|[]]]]]]]; subst op; cbn [apply_op] in K.
  - unfold eval_add in K. destruct (_ || _) eqn:T.
    + injection K as <-. right. apply textual_either in T. auto.
    + left. destruct (either DECIMAL _ _).
      * destruct (opt_get (decimal_value v)); [|discriminate]. destruct (opt_get (decimal_value w)); [|discriminate]. injection K as <-. right; right; eauto.
      * destruct (opt_get (long_value v)); [|discriminate]. destruct (opt_get (long_value w)); [|discriminate]. injection K as <-. apply cast_long_number.
  - left. unfold eval_subtract in K. destruct (either DECIMAL _ _); [|destruct (either LONG _ _)].
    + destruct (opt_get (decimal_value v)); [|discriminate]. destruct (opt_get (decimal_value w)); [|discriminate]. injection K as <-. right; right; eauto.
    + destruct (opt_get (long_value v)); [|discriminate]. destruct (opt_get (long_value w)); [|discriminate]. injection K as <-. right. left. eexists. split; eauto. apply wrap64_fits.
    + destruct (opt_get (integer_value v)); [|discriminate]. destruct (opt_get (integer_value w)); [|discriminate]. injection K as <-. left. eexists. split; eauto. apply wrap32_fits.
  - left. unfold eval_multiply in K. destruct (either DECIMAL _ _).
    + destruct (opt_get (decimal_value v)); [|discriminate]. destruct (opt_get (decimal_value w)); [|discriminate]. injection K as <-. right; right; eauto.
    + destruct (opt_get (long_value v)); [|discriminate]. destruct (opt_get (long_value w)); [|discriminate]. injection K as <-. apply cast_long_number.
  - left. unfold eval_divide in K. destruct (opt_get (decimal_value v)); [|discriminate]. destruct (opt_get (decimal_value w)); [|discriminate]. cbn [bind] in K.
    destruct (bd_divide _ _ _ _); [|discriminate]. eapply cast_decimal_number; eauto.
  - left. unfold eval_modulus in K. destruct (either LONG _ _).
    + destruct (long_value v) as [a|] eqn:Va; [|discriminate]. destruct (long_value w) as [b|] eqn:Vb; [|discriminate]. cbn [opt_get bind] in K.
      destruct (b =? 0) eqn:B; [discriminate|]. injection K as <-. right. left. eexists. split; eauto.
      apply long_value_fits in Va; auto. apply long_value_fits in Vb; auto. unfold fits64 in *. pose proof (rem_fits b 9223372036854775807 a). lia.
    + destruct (integer_value v) as [a|] eqn:Va; [|discriminate]. destruct (integer_value w) as [b|] eqn:Vb; [|discriminate]. cbn [opt_get bind] in K.
      destruct (b =? 0) eqn:B; [discriminate|]. injection K as <-. left. eexists. split; eauto.
      apply integer_value_fits in Va; auto. apply integer_value_fits in Vb; auto. unfold fits32 in *. pose proof (rem_fits b 2147483647 a). lia.
  - left. unfold eval_exponent in K. destruct (either DECIMAL _ _).
    + destruct (opt_get (decimal_value v)); [|discriminate]. destruct (opt_get (decimal_value w)); [|discriminate]. eapply cast_double_number; eauto.
    + destruct (opt_get (long_value v)); [|discriminate]. destruct (opt_get (long_value w)); [|discriminate]. eapply cast_double_number; eauto.
Qed.
Lemma negate_result : forall E d n x, arith_eval E d (neg n) = Ok x -> number_result x.
Proof.
  intros E d n x H. rewrite neg_eval in H. destruct (arith_eval E d n) as [v|]; [|discriminate]. cbn [bind] in H. unfold evaluate_arithmetic in H. cbn [arithmetic_types] in H.
  destruct (negb _); [discriminate|]. destruct (is_valid _ v) as [[]|]; cbn [bind negb] in H; try discriminate.
  unfold eval_unary in H. destruct (get_data_type v); destruct v; try discriminate; injection H as <-;
    try (left; eexists; split; [reflexivity|apply wrap32_fits]); try (right; left; eexists; split; [reflexivity|apply wrap64_fits]); right; right; eauto.
Qed.
(** Witnesses *)
Definition exact_env : env := Env (Date 2024 1 1) (fun a b => DFin (a ^ b) 0) (fun _ _ => DNaN).
Lemma exact_env_documented : pow_documented exact_env.
Proof. intros a b _ _ _. exists (a ^ b), 0. split; [reflexivity|]. unfold double_value. rewrite Qmult_1_r. reflexivity. Qed.
Lemma representable_small : forall z, Z.abs z < 2 ^ 53 -> representable z.
Proof. intros z H. exists z, 0. rewrite Z.mul_1_r. repeat split; auto; lia. Qed.
Lemma subtraction_identity_fails : exists E d a b, fits32 a /\ fits32 b /\
  arith_eval E d (bin (lit (VInt a)) SUBTRACT (lit (VInt b))) <> arith_eval E d (bin (lit (VInt a)) ADD (neg (lit (VInt b)))).
Proof. exists exact_env, [], (-2147483648), 1. unfold fits32. repeat split; try lia. vm_compute. discriminate. Qed.
