(** Proofs about integers: wrap, printing, parsing. *)
From Coq Require Import Decimal DecimalN DecimalPos DecimalFacts ZifyBool ZifyNat ZifyN.
From Verif Require Import Base JNum.
Local Open Scope Z_scope.

Ltac Zify.zify_post_hook ::= Z.div_mod_to_equations.

Lemma in_int_iff : forall z, in_int z = true <-> -2147483648 <= z <= 2147483647.
Proof. intros. unfold in_int, int_min, int_max. lia. Qed.
Lemma in_long_iff : forall z, in_long z = true <-> -9223372036854775808 <= z <= 9223372036854775807.
Proof. intros. unfold in_long, long_min, long_max. lia. Qed.
Lemma in_int_long : forall z, in_int z = true -> in_long z = true.
Proof. intros z H. apply in_int_iff in H. apply in_long_iff. lia. Qed.

Lemma wrap32_in : forall z, in_int (wrap32 z) = true.
Proof. intros. apply in_int_iff. unfold wrap32. lia. Qed.
Lemma wrap64_in : forall z, in_long (wrap64 z) = true.
Proof. intros. apply in_long_iff. unfold wrap64. lia. Qed.
Lemma wrap32_id : forall z, in_int z = true -> wrap32 z = z.
Proof. intros z H. apply in_int_iff in H. unfold wrap32. lia. Qed.
Lemma wrap64_id : forall z, in_long z = true -> wrap64 z = z.
Proof. intros z H. apply in_long_iff in H. unfold wrap64. lia. Qed.
Lemma wrap32_cong : forall z, exists k, wrap32 z = z + k * 4294967296.
Proof. intros. exists (- ((z + 2147483648) / 4294967296)). unfold wrap32. lia. Qed.
Lemma wrap64_cong : forall z, exists k, wrap64 z = z + k * 18446744073709551616.
Proof. intros. exists (- ((z + 9223372036854775808) / 18446744073709551616)). unfold wrap64. lia. Qed.

(** Digits *)
Lemma digits_val_fold : forall s acc, fold_left (fun acc c => acc * 10 + digit_val c) s acc = acc * 10 ^ Z.of_nat (length s) + digits_val s.
Proof.
  unfold digits_val. induction s as [|c s IH]; intros acc; [cbn; lia|].
  cbn [fold_left]. rewrite IH, (IH (0 * 10 + digit_val c)). cbn [length]. rewrite Nat2Z.inj_succ, Z.pow_succ_r by lia. lia.
Qed.
Lemma digits_val_app : forall a b, digits_val (a ++ b) = digits_val a * 10 ^ Z.of_nat (length b) + digits_val b.
Proof. intros. unfold digits_val at 1. rewrite fold_left_app, digits_val_fold. reflexivity. Qed.
Lemma digits_val_cons : forall c b, digits_val (c :: b) = digit_val c * 10 ^ Z.of_nat (length b) + digits_val b.
Proof. intros. unfold digits_val at 1. cbn [fold_left]. rewrite digits_val_fold. lia. Qed.
Lemma digit_range : forall c, is_digit c = true -> 0 <= digit_val c <= 9.
Proof. unfold is_digit, digit_val. intros. lia. Qed.
Lemma digits_val_nonneg : forall s, all_digits s = true -> 0 <= digits_val s < 10 ^ Z.of_nat (length s).
Proof.
  induction s as [|c s IH]; intros H; [cbn; lia|].
  cbn [all_digits forallb] in H. apply andb_true_iff in H as [Hc Hs]. apply digit_range in Hc. specialize (IH Hs).
  rewrite digits_val_cons. cbn [length]. rewrite Nat2Z.inj_succ, Z.pow_succ_r by lia. nia.
Qed.
Lemma digits_val_zeros : forall n, digits_val (repeat 48%N n) = 0.
Proof. induction n; [reflexivity|]. cbn [repeat]. rewrite digits_val_cons, IHn. reflexivity. Qed.
Lemma all_digits_app : forall a b, all_digits (a ++ b) = all_digits a && all_digits b.
Proof. intros. apply forallb_app. Qed.
Lemma all_digits_zeros : forall n, all_digits (repeat 48%N n) = true.
Proof. induction n; auto. Qed.

(** print_N *)
Lemma chars_of_uint_digits : forall u, all_digits (chars_of_uint u) = true.
Proof. unfold all_digits. induction u; cbn; auto. Qed.
Lemma print_N_digits : forall n, all_digits (print_N n) = true.
Proof. intros. apply chars_of_uint_digits. Qed.
Lemma chars_acc : forall u p, fold_left (fun acc c => acc * 10 + digit_val c) (chars_of_uint u) (Zpos p) = Zpos (Pos.of_uint_acc u p).
Proof.
  induction u; intros p; cbn [chars_of_uint fold_left Pos.of_uint_acc]; auto;
    rewrite <- IHu; f_equal; unfold digit_val; lia.
Qed.
Lemma chars_val : forall u, digits_val (chars_of_uint u) = Z.of_N (N.of_uint u).
Proof.
  unfold digits_val, N.of_uint. induction u; cbn [chars_of_uint fold_left Pos.of_uint]; auto;
    cbn [Z.of_N]; rewrite <- chars_acc; f_equal.
Qed.
Lemma print_N_val : forall n, digits_val (print_N n) = Z.of_N n.
Proof. intros. unfold print_N. rewrite chars_val. f_equal. apply DecimalN.Unsigned.of_to. Qed.
Lemma print_N_nonnil : forall n, print_N n <> [].
Proof.
  intros n H. unfold print_N in H. destruct n; [discriminate|].
  pose proof (print_N_val (Npos p)) as E. unfold print_N in E. rewrite H in E. cbn in E. lia.
Qed.
Lemma nz_nonzero : forall u v, nzhead u <> D0 v.
Proof. induction u; cbn; intros v H; try discriminate. exact (IHu v H). Qed.
Lemma unorm_head : forall u, unorm u = u -> (exists v, u = D0 v) -> u = zero.
Proof.
  intros u Hu [v ->]. unfold unorm in Hu. destruct (nzhead (D0 v)) eqn:E; try congruence.
  exfalso. exact (nz_nonzero _ _ E).
Qed.
Lemma to_uint_norm : forall n, unorm (N.to_uint n) = N.to_uint n.
Proof. intros. rewrite <- DecimalN.Unsigned.to_of. rewrite DecimalN.Unsigned.of_to. reflexivity. Qed.
Lemma print_N_no_zero : forall n r, print_N n = 48%N :: r -> n = 0%N /\ r = [].
Proof.
  intros n r H. unfold print_N in H. pose proof (to_uint_norm n) as Hn.
  destruct (N.to_uint n) eqn:E; cbn in H; try discriminate.
  pose proof (unorm_head _ Hn (ex_intro _ _ eq_refl)) as Hz. injection H as <-. split; [|injection Hz as ->; reflexivity].
  rewrite <- (DecimalN.Unsigned.of_to n), E, Hz. reflexivity.
Qed.

Lemma digit_not_sign : forall c, is_digit c = true -> (c =? ch "-")%N = false /\ (c =? ch "+")%N = false.
Proof. unfold is_digit. intros. cbn. lia. Qed.

Lemma parse_integer_digits : forall s, s <> [] -> all_digits s = true -> parse_integer s = Some (digits_val s).
Proof.
  intros [|c s] Hn H; [congruence|]. unfold parse_integer.
  pose proof H as H'. cbn [all_digits forallb] in H'. apply andb_true_iff in H' as [Hc _].
  destruct (digit_not_sign c Hc) as [-> ->]. rewrite H. reflexivity.
Qed.
Lemma parse_integer_neg : forall s, s <> [] -> all_digits s = true -> parse_integer (ch "-" :: s) = Some (- digits_val s).
Proof. intros [|c s] Hn H; [congruence|]. unfold parse_integer. cbn [N.eqb ch]. rewrite H. reflexivity. Qed.

Lemma parse_print_Z : forall z, parse_integer (print_Z z) = Some z.
Proof.
  intros. unfold print_Z. destruct (z <? 0) eqn:E.
  - rewrite parse_integer_neg by (auto using print_N_nonnil, print_N_digits). rewrite print_N_val. f_equal. lia.
  - rewrite parse_integer_digits by (auto using print_N_nonnil, print_N_digits). rewrite print_N_val. f_equal. lia.
Qed.
