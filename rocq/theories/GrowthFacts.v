(** Bounds on the size of results. *)
From Coq Require Import QArith Qabs Qpower Lia Lqa Permutation.
From Verif Require Import RecoverFacts RecoverTexts RecoverOrigin ListenAny SpecRecover AnyText.
From Verif Require Import Base JNum BigDec Dates Values Ops Funcs Ast Eval Lexer Grammar Listener Api SpecLex SpecNum SpecCompare SpecArith SpecFunc SpecDate SpecMixed SpecCompute SpecCall SpecList SpecScale SpecExact SpecPath SpecSize
  NumFacts LexFacts LexSplit FieldFacts ArithFacts FuncFacts CallFacts DateFacts ScaleFacts ExactFacts SizeFacts SizeText SpecMeaning MeaningFacts SensibleFacts MeaningText SpecPlaces PlacesFacts SpecGrowth.
Local Open Scope Z_scope.

(** ** Powers of ten *)
Definition ten (k : Z) : Q := ((10 # 1) ^ k)%Q.
Definition within (k : Z) (q : Q) : Prop := (Qabs q <= ten k)%Q.
Lemma ten_pos k : (0 < ten k)%Q.
Proof. apply Qpower_0_lt. reflexivity. Qed.
Lemma ten_le j k : j <= k -> (ten j <= ten k)%Q.
Proof. intros L. apply Qpower_le_compat_l; [exact L|unfold Qle; cbn; lia]. Qed.
Lemma ten_plus j k : (ten (j + k) == ten j * ten k)%Q.
Proof. apply Qpower_plus. discriminate. Qed.
Lemma ten_1 j : 1 <= j -> (10 <= ten j)%Q.
Proof. intros L. apply (ten_le 1 j) in L. exact L. Qed.
Lemma ten_0 j : 0 <= j -> (1 <= ten j)%Q.
Proof. intros L. apply (ten_le 0 j) in L. exact L. Qed.
Lemma ten_Z k : 0 <= k -> (ten k == inject_Z (10 ^ k))%Q.
Proof. intros L. unfold ten. rewrite Zpower_Qpower by exact L. reflexivity. Qed.
Lemma within_le j k q : j <= k -> within j q -> within k q.
Proof. intros L H. unfold within in *. eapply Qle_trans; [exact H|apply ten_le, L]. Qed.
Lemma within_eq k p q : (p == q)%Q -> within k p -> within k q.
Proof. intros X H. unfold within in *. rewrite <- X. exact H. Qed.
Lemma within_less k p q : (Qabs q <= Qabs p)%Q -> within k p -> within k q.
Proof. intros L H. unfold within in *. eapply Qle_trans; eauto. Qed.
Lemma sum_product a b : (10 <= a -> 10 <= b -> a + b <= a * b)%Q.
Proof. intros. nra. Qed.
Lemma within_add j k p q : 1 <= j -> 1 <= k -> within j p -> within k q -> within (j + k) (p + q).
Proof.
  intros J K P H. unfold within in *. eapply Qle_trans; [apply Qabs_triangle|]. rewrite ten_plus. eapply Qle_trans; [apply Qplus_le_compat; [exact P|exact H]|].
  apply sum_product; apply ten_1; assumption.
Qed.
Lemma within_opp k q : within k q -> within k (- q).
Proof. unfold within. rewrite Qabs_opp. auto. Qed.
Lemma within_mul j k p q : within j p -> within k q -> within (j + k) (p * q).
Proof. unfold within. intros P H. rewrite Qabs_Qmult, ten_plus. apply Qmult_le_compat_nonneg; split; auto using Qabs_nonneg. Qed.
Lemma within_div j k p q : within j p -> (ten (- k) <= Qabs q)%Q -> within (j + k) (p / q).
Proof.
  intros P H. unfold Qdiv. apply within_mul; [exact P|]. unfold within. rewrite Qabs_Qinv. pose proof (ten_pos (- k)) as T.
  assert (I0 : (ten k == / ten (- k))%Q) by (unfold ten; rewrite Qpower_opp, Qinv_involutive; reflexivity). rewrite I0. apply Qle_shift_inv_r; [eapply Qlt_le_trans; [exact T|exact H]|].
  apply Qle_trans with (/ ten (- k) * ten (- k))%Q; [|apply Qmult_le_l; [apply Qinv_lt_0_compat, T|exact H]]. assert (Y : (/ ten (- k) * ten (- k) == 1)%Q) by (field; intros Y; rewrite Y in T; exact (Qlt_irrefl _ T)). rewrite Y. apply Qle_refl.
Qed.
Lemma trunc_less q z : truncates q z -> (Qabs (inject_Z z) <= Qabs q)%Q.
Proof.
  intros [A B]. destruct (Qlt_le_dec q 0) as [L|L].
  - destruct (B (Qlt_le_weak _ _ L)) as [B1 B2]. assert (Z0 : z <= 0).
    { destruct (Z_le_gt_dec z 0) as [X|X]; [exact X|]. exfalso. assert (Y : (inject_Z 0 <= inject_Z (z - 1))%Q) by (rewrite <- Zle_Qle; lia). change (inject_Z 0) with 0%Q in Y. lra. }
    assert (Y : (inject_Z z <= 0)%Q) by (change 0%Q with (inject_Z 0); rewrite <- Zle_Qle; exact Z0). rewrite !Qabs_neg by lra. lra.
  - destruct (A L) as [A1 A2]. assert (Z0 : 0 <= z).
    { destruct (Z_lt_le_dec z 0) as [X|X]; [|exact X]. exfalso. assert (Y : (inject_Z (z + 1) <= inject_Z 0)%Q) by (rewrite <- Zle_Qle; lia). change (inject_Z 0) with 0%Q in Y. lra. }
    assert (Y : (0 <= inject_Z z)%Q) by (change 0%Q with (inject_Z 0); rewrite <- Zle_Qle; exact Z0). rewrite !Qabs_pos by lra. lra.
Qed.
Lemma shorten_less q z n : 0 < n -> truncates (q * inject_Z n) z -> (Qabs (inject_Z z / inject_Z n) <= Qabs q)%Q.
Proof.
  intros N T. apply trunc_less in T. assert (P : (0 < inject_Z n)%Q) by (change 0%Q with (inject_Z 0); rewrite <- Zlt_Qlt; exact N).
  unfold Qdiv. rewrite Qabs_Qmult in *. rewrite Qabs_Qinv, (Qabs_pos (inject_Z n)) in * by lra. apply Qle_shift_div_r; assumption.
Qed.
Lemma quotient_less p n : 1 <= n -> (Qabs (p / inject_Z n) <= Qabs p)%Q.
Proof.
  intros N. assert (P : (1 <= inject_Z n)%Q) by (change 1%Q with (inject_Z 1); rewrite <- Zle_Qle; exact N).
  unfold Qdiv. rewrite Qabs_Qmult, Qabs_Qinv, (Qabs_pos (inject_Z n)) by lra. apply Qle_shift_div_r; [lra|]. pose proof (Qabs_nonneg p). nra.
Qed.
Lemma within_Z k z : 0 <= k -> Z.abs z <= 10 ^ k -> within k (inject_Z z).
Proof. intros K L. unfold within. rewrite (ten_Z k K). change (Qabs (inject_Z z)) with (inject_Z (Z.abs z)). rewrite <- Zle_Qle. exact L. Qed.
Lemma small_Z k z : 20 <= k -> Z.abs z <= 18446744073709551616 -> within k (inject_Z z).
Proof. intros K L. apply (within_le 20 k _ K). apply within_Z; [lia|]. change (10 ^ 20) with 100000000000000000000. lia. Qed.

(** ** Values *)
Definition sized (k t : Z) (v : jval) : Prop := magnitude k v /\ print_length t v.
Lemma sized_le k k' t t' v : k <= k' -> t <= t' -> sized k t v -> sized k' t' v.
Proof. intros K T [A B]. split; [intros b Hb; apply (within_le k k' _ K), A, Hb|unfold print_length in *; lia]. Qed.
Lemma int_held z b : held (VInt z) b -> b = BD z 0 /\ Z.abs z <= 18446744073709551616.
Proof. intros H. inversion H; subst. split; [reflexivity|lia]. Qed.
Lemma long_held z b : held (VLong z) b -> b = BD z 0 /\ Z.abs z <= 18446744073709551616.
Proof. intros H. inversion H; subst. split; [reflexivity|lia]. Qed.
Lemma whole_value z : (dec_value (BD z 0) == inject_Z z)%Q.
Proof. unfold dec_value. cbn [unscaled scale]. change ((10 # 1) ^ (- 0))%Q with 1%Q. ring. Qed.
Lemma print_short z : Z.abs z <= 18446744073709551616 -> Z.of_nat (length (print_Z z)) <= 21.
Proof.
  intros L. unfold print_Z. change (10 ^ 20) with 100000000000000000000.
  destruct (z <? 0) eqn:N; [apply Z.ltb_lt in N|apply Z.ltb_ge in N].
  - cbn [length]. rewrite Nat2Z.inj_succ. pose proof (print_N_length_le (Z.to_N (- z)) 20 ltac:(lia) ltac:(change (10 ^ 20) with 100000000000000000000; lia)). lia.
  - pose proof (print_N_length_le (Z.to_N z) 20 ltac:(lia) ltac:(change (10 ^ 20) with 100000000000000000000; lia)). lia.
Qed.
Lemma int_sized k t z : 20 <= k -> 21 <= t -> fits32 z -> sized k t (VInt z).
Proof.
  intros K T F. unfold fits32 in F. split.
  - intros b Hb. destruct (int_held z b Hb) as [-> L]. apply (within_eq k (inject_Z z)); [symmetry; apply whole_value|]. apply small_Z; [exact K|lia].
  - unfold print_length. cbn [show]. pose proof (print_short z ltac:(lia)). lia.
Qed.
Lemma long_sized k t z : 20 <= k -> 21 <= t -> fits64 z -> sized k t (VLong z).
Proof.
  intros K T F. unfold fits64 in F. split.
  - intros b Hb. destruct (long_held z b Hb) as [-> L]. apply (within_eq k (inject_Z z)); [symmetry; apply whole_value|]. apply small_Z; [exact K|lia].
  - unfold print_length. cbn [show]. pose proof (print_short z ltac:(lia)). lia.
Qed.
(** The digits of a decimal. *)
Lemma unscaled_bound b k s : 0 <= k -> 0 <= s -> within k (dec_value b) -> Z.abs (scale b) <= s -> Z.abs (unscaled b) <= 10 ^ (k + s).
Proof.
  intros K S0 W P. assert (X : within (k + s) (inject_Z (unscaled b))).
  { apply (within_eq _ (dec_value b * ten (scale b))).
    - unfold dec_value. change ((10 # 1) ^ (- scale b))%Q with (ten (- scale b)). rewrite <- Qmult_assoc, <- ten_plus. replace (- scale b + scale b) with 0 by lia. change (ten 0) with 1%Q. ring.
    - apply within_mul; [exact W|]. unfold within. rewrite Qabs_pos by (apply Qlt_le_weak, ten_pos). apply ten_le. lia. }
  unfold within in X. rewrite ten_Z in X by lia. change (Qabs (inject_Z (unscaled b))) with (inject_Z (Z.abs (unscaled b))) in X. rewrite <- Zle_Qle in X. exact X.
Qed.
Lemma print_N_any n k : 0 <= k -> Z.of_N n <= k -> Z.of_nat (length (print_N n)) <= k + 1.
Proof. intros K L. apply print_N_length_le; [lia|]. pose proof (Z.pow_gt_lin_r 10 (k + 1) ltac:(lia) ltac:(lia)). lia. Qed.
Lemma print_Z_any z : Z.of_nat (length (print_Z z)) <= Z.abs z + 2.
Proof.
  unfold print_Z. destruct (z <? 0) eqn:N; [apply Z.ltb_lt in N|apply Z.ltb_ge in N].
  - cbn [length]. pose proof (print_N_any (Z.to_N (- z)) (Z.abs z) ltac:(lia) ltac:(lia)). lia.
  - pose proof (print_N_any (Z.to_N z) (Z.abs z) ltac:(lia) ltac:(lia)). lia.
Qed.
Lemma sign_length z : (length (sign_str z) <= 1)%nat.
Proof. unfold sign_str. destruct (z <? 0); cbn; lia. Qed.
Lemma point_length ds n : (length (insert_point ds n) <= length ds + n + 2)%nat.
Proof.
  unfold insert_point. destruct (n <? length ds)%nat eqn:L.
  - rewrite app_length. cbn [length]. rewrite firstn_length, skipn_length. lia.
  - rewrite !app_length, repeat_length. change (length (J "0.")) with 2%nat. lia.
Qed.
Lemma decimal_length b k s : 0 <= k -> 0 <= s -> within k (dec_value b) -> Z.abs (scale b) <= s -> Z.of_nat (length (bd_to_string b)) <= 2 * k + 3 * s + 10.
Proof.
  intros K S0 W P. pose proof (unscaled_bound b k s K S0 W P) as U.
  assert (L : Z.of_nat (length (print_N (Z.abs_N (unscaled b)))) <= k + s + 1).
  { apply print_N_length_le; [lia|]. rewrite N2Z.inj_abs_N. assert (10 ^ (k + s) < 10 ^ (k + s + 1)) by (apply Z.pow_lt_mono_r; lia). lia. }
  pose proof (sign_length (unscaled b)) as Sg. unfold bd_to_string. set (ds := print_N (Z.abs_N (unscaled b))) in *. cbv zeta.
  destruct (scale b =? 0); [rewrite app_length; lia|].
  destruct ((0 <=? scale b) && (-6 <=? - scale b + (Z.of_nat (length ds) - 1))) eqn:C.
  - rewrite app_length. pose proof (point_length ds (Z.to_nat (scale b))). lia.
  - rewrite !app_length. set (adj := - scale b + (Z.of_nat (length ds) - 1)).
    assert (A : Z.abs adj <= k + 2 * s + 1) by (unfold adj; lia).
    assert (M : (length (match ds with [] => [] | [d] => [d] | d :: l => d :: ch "." :: l end) <= length ds + 1)%nat) by (destruct ds as [|c [|c' l]]; cbn [length]; lia).
    assert (X : Z.of_nat (length (if adj =? 0 then [] else ch "E" :: (if 0 <? adj then [ch "+"] else []) ++ print_Z adj)) <= 4 + Z.abs adj).
    { destruct (adj =? 0); [cbn [length]; lia|]. cbn [length]. rewrite app_length. pose proof (print_Z_any adj). destruct (0 <? adj); cbn [length]; lia. }
    lia.
Qed.

(** ** Operations *)
Lemma dec_within b y q k : exactly q (Ok (VDec y)) -> b = y -> within k q -> within k (dec_value b).
Proof. intros (y' & X & V) -> W. assert (y = y') by congruence. subst y'. apply (within_eq k q); [symmetry; exact V|exact W]. Qed.
Lemma nonzero_value t s : Z.abs (scale t) <= s -> ~ (dec_value t == 0)%Q -> (ten (- s) <= Qabs (dec_value t))%Q.
Proof.
  intros L N. unfold dec_value in *. change ((10 # 1) ^ (- scale t))%Q with (ten (- scale t)) in *. rewrite Qabs_Qmult. rewrite (Qabs_pos (ten _)) by (apply Qlt_le_weak, ten_pos).
  assert (U : unscaled t <> 0) by (intros U; apply N; rewrite U; change (inject_Z 0) with 0%Q; ring).
  assert (A : (1 <= Qabs (inject_Z (unscaled t)))%Q) by (change (Qabs (inject_Z (unscaled t))) with (inject_Z (Z.abs (unscaled t))); change 1%Q with (inject_Z 1); rewrite <- Zle_Qle; lia).
  pose proof (ten_le (- s) (- scale t) ltac:(lia)) as T. pose proof (ten_pos (- scale t)) as T0. nra.
Qed.
Lemma power_within u y k : 309 <= k -> (forall m e, u = DFin m e -> (Qabs (double_value m e) < (2 # 1) ^ 1024)%Q) -> SpecCompute.returned u (Ok (VDec y)) -> within k (dec_value y).
Proof.
  intros K F R. destruct u as [| |m e]; try discriminate R. cbn [SpecCompute.returned] in R. destruct R as [R1 R2].
  assert (X : forall z, (double_value m e == inject_Z z)%Q -> ~ fits32 z) by (intros z Hz Fz; discriminate (R1 z Hz Fz)). specialize (R2 X).
  apply (dec_within y y _ k R2 eq_refl). unfold within. apply Qle_trans with ((2 # 1) ^ 1024)%Q; [apply Qlt_le_weak, (F m e eq_refl)|].
  apply Qle_trans with (ten 309); [|apply ten_le, K]. rewrite ten_Z by lia. change ((2 # 1) ^ 1024)%Q with ((inject_Z 2) ^ 1024)%Q. rewrite <- Zpower_Qpower by lia. rewrite <- Zle_Qle. vm_compute. discriminate.
Qed.
Lemma operation_size E d l r op v w y j k s : finite_doubles E -> arithmetic op -> arith_eval E d l = Ok v -> arith_eval E d r = Ok w ->
  genuine v -> genuine w -> 309 <= j -> 309 <= k -> s <= k -> magnitude j v -> magnitude k w -> places s w -> arith_eval E d (bin l op r) = Ok (VDec y) -> within (j + k) (dec_value y).
Proof.
  intros (T & Fl & Fd) A L R Gv Gw J K Sk Mv Mw Pw H. assert (NU : op <> UNARY) by (intros ->; destruct A as [X|[X|[X|[X|[X|[X|[]]]]]]]; discriminate X).
  pose proof H as O. apply (operator_determined E d l r op v w A L R Gv Gw) in O. destruct O as [N O].
  assert (TV : forall u, genuine u -> (u = v \/ u = w) -> exists a, argument_type u a).
  { intros u [t G] U. destruct G as [G|[G|(dbl & x & -> & F & _)]]; [exists t; left; exact G|exists t; right; exact G|].
    exfalso. assert (X : Ok (VDec y) = Err InvalidDataType) by (apply (N dbl x F); destruct U as [<-|<-]; auto). discriminate X. }
  destruct (TV v Gv (or_introl eq_refl)) as [a Ta]. destruct (TV w Gw (or_intror eq_refl)) as [b Tb]. destruct (O a b Ta Tb) as (O1 & O2 & O3).
  assert (Dsu : forall t, supported op t \/ ~ supported op t) by (intros t; clear; destruct op, t; cbn; intuition discriminate).
  assert (Dw : forall t, wordy t \/ ~ wordy t) by (intros t; clear; unfold wordy; destruct t; intuition discriminate).
  destruct (Dsu a) as [Sa|Sa]; [|discriminate O1; intros [X _]; contradiction]. destruct (Dsu b) as [Sb|Sb]; [|discriminate O1; intros [_ X]; contradiction].
  destruct (Dw a) as [Wa|Wa]; [discriminate (O2 Sa Sb (or_introl Wa))|]. destruct (Dw b) as [Wb|Wb]; [discriminate (O2 Sa Sb (or_intror Wb))|].
  destruct (O3 Sa Sb Wa Wb) as (p & q & Hp & Hq & C & _ & Ex). specialize (Mv p Hp). specialize (Mw q Hq). specialize (Pw q Hq).
  fold (ten j) in Mv. fold (ten k) in Mw. fold (within j (dec_value p)) in Mv. fold (within k (dec_value q)) in Mw.
  assert (Df : (a = DECIMAL \/ b = DECIMAL) \/ ~ (a = DECIMAL \/ b = DECIMAL)) by (clear; destruct a, b; intuition discriminate).
  assert (Dl : (a = LONG \/ b = LONG) \/ ~ (a = LONG \/ b = LONG)) by (clear; destruct a, b; intuition discriminate).
  assert (Nn : forall u c x, argument_type u c -> held u x -> supported op c -> ~ wordy c -> c <> DECIMAL -> exists z, (dec_value x == inject_Z z)%Q).
  { intros u c x Tc Hx Sc Wc Nc. assert (IL : c = INTEGER \/ c = LONG) by (clear -Sc Wc Nc; unfold wordy in Wc; destruct op, c; cbn in Sc; intuition discriminate).
    destruct Tc as [Tc|[_ Tc]]; [|destruct IL; congruence]. destruct (held_whole u c x Tc Hx IL) as (z & _ & Z0). exists z. exact Z0. }
  assert (Wh : ~ (a = DECIMAL \/ b = DECIMAL) -> exists m n, (dec_value p == inject_Z m)%Q /\ (dec_value q == inject_Z n)%Q).
  { intros Nf. destruct (Nn v a p Ta Hp Sa Wa ltac:(tauto)) as [m Hm]. destruct (Nn w b q Tb Hq Sb Wb ltac:(tauto)) as [n Hn]. exists m, n. split; assumption. }
  destruct A as [X|[X|[X|[X|[X|[X|[]]]]]]]; subst op; cbn [computes rational_op] in C; cbv zeta in C.
  - destruct C as [C1 C2]. destruct Df as [Df|Df].
    + apply (dec_within y y _ _ (C1 Df) eq_refl). apply within_add; try lia; assumption.
    + destruct (Wh Df) as (m & n & Hm & Hn). destruct (C2 Df m n Hm Hn) as (z & u & _ & [[_ ->]|[_ [_ ->]]] & X); discriminate X.
  - destruct C as (C1 & C2 & C3). destruct Df as [Df|Df].
    + apply (dec_within y y _ _ (C1 Df) eq_refl). apply within_add; try lia; [assumption|apply within_opp; assumption].
    + destruct (Wh Df) as (m & n & Hm & Hn). destruct Dl as [Dl|Dl]; [destruct (C2 Df Dl m n Hm Hn) as (z & _ & X)|destruct (C3 Df Dl m n Hm Hn) as (z & _ & X)]; discriminate X.
  - destruct C as [C1 C2]. destruct Df as [Df|Df].
    + apply (dec_within y y _ _ (C1 Df) eq_refl). apply within_mul; assumption.
    + destruct (Wh Df) as (m & n & Hm & Hn). destruct (C2 Df m n Hm Hn) as (z & u & _ & [[_ ->]|[_ [_ ->]]] & X); discriminate X.
  - destruct C as [C1 C2]. destruct (Qeq_dec (dec_value q) 0) as [Z0|Z0]; [discriminate (C1 Z0)|]. destruct (C2 Z0) as (z & Tr & C3 & C4).
    assert (Nz : forall n, z <> 1000 * n).
    { intros n Zn. destruct (C3 n Zn) as [D1 D2]. destruct (fits32_dec n) as [F|F]; [discriminate (D1 F)|discriminate (D2 F)]. }
    apply (dec_within y y _ _ (C4 Nz) eq_refl). apply (within_less _ (dec_value p / dec_value q)); [apply shorten_less; [lia|exact Tr]|].
    apply within_div; [exact Mv|]. apply nonzero_value; [lia|exact Z0].
  - exfalso. rewrite (bin_eval E d l MODULUS r NU), L, R in H. cbn [bind] in H. apply modulus_whole in H. exact H.
  - destruct C as [C1 C2]. destruct Df as [Df|Df].
    + destruct (C1 Df) as (s' & t' & _ & _ & Rt). apply (power_within (pow_dec E s' t')); [lia| |exact Rt]. intros m e. apply Fd.
    + destruct (Wh Df) as (m & n & Hm & Hn). specialize (C2 Df m n Hm Hn). apply (power_within (pow_long E m n)); [lia| |exact C2]. intros u e. apply Fl.
Qed.
Lemma negation_size E d l v y k : arith_eval E d l = Ok v -> genuine v -> magnitude k v -> arith_eval E d (NArith l None UNARY) = Ok (VDec y) -> within k (dec_value y).
Proof.
  intros L [t G] P H. apply (negation_determined E d l v L ltac:(exists t; exact G)) in H. destruct H as [N O].
  assert (T : exists a, argument_type v a).
  { destruct G as [G|[G|(dbl & s & -> & F & _)]]; [exists t; left; exact G|exists t; right; exact G|]. discriminate (N dbl s F eq_refl). }
  destruct T as [a T]. destruct (O a T) as [Ng _]. destruct v; try discriminate Ng; cbn [negates] in Ng; try (destruct Ng as (u & _ & X); discriminate X).
  apply (dec_within y y _ _ Ng eq_refl). apply within_opp. apply P. apply held_dec.
Qed.

(** ** Calls *)
Lemma member_within ms qs k q : Forall (magnitude k) ms -> Forall2 number ms qs -> In q qs -> within k q.
Proof.
  intros M H. induction H as [|v p ms qs Hv _ IH]; [intros []|]. inversion M as [|? ? Mv M']; subst. intros [<-|I0]; [|auto].
  destruct (number_held v p Hv) as (b & Hb & V). apply (within_eq k (dec_value b) p V). apply Mv, Hb.
Qed.
Inductive outcome_size (k : Z) (ms : list jval) : jval -> Prop :=
| out_int z : fits32 z -> outcome_size k ms (VInt z)
| out_long z : fits64 z -> outcome_size k ms (VLong z)
| out_dec b : within k (dec_value b) -> outcome_size k ms (VDec b)
| out_member v : In v ms -> outcome_size k ms v.
Lemma decimal_out k ms x q : decimal_result (Ok x) q -> within k q -> outcome_size k ms x.
Proof. intros H W. inversion H as [z q' _ F|z q' _ F|y q' _ V]; subst; [apply out_int, F|apply out_dec, (within_eq k q); [symmetry; exact V|exact W]]. Qed.
Lemma whole_out k ms x z : 20 <= k -> whole_result (Ok x) z -> Z.abs z <= 18446744073709551616 -> outcome_size k ms x.
Proof.
  intros K [A B] L. destruct (fits32_dec z) as [F|F].
  - specialize (A F). injection A as ->. apply out_int, F.
  - destruct (B F) as (b & E & V). assert (x = VDec b) by congruence. subst x. apply out_dec, (within_eq k (inject_Z z)); [symmetry; exact V|]. apply small_Z; assumption.
Qed.
Lemma nearest_bound z y : fits64 z -> nearest_double z y -> Z.abs y <= 18446744073709551616.
Proof.
  intros F [_ N]. unfold fits64 in F. destruct (Z.eq_dec y 0) as [-> |Y]; [cbn; lia|].
  assert (R : representable 0) by (exists 0, 0; cbn; lia). specialize (N 0 R ltac:(auto)). destruct N as [N|[N _]]; lia.
Qed.
Lemma wraps_fits64 z y : wraps 64 z y -> fits64 y.
Proof. intros [H _]. unfold fits64. change (2 ^ (64 - 1)) with 9223372036854775808 in H. lia. Qed.
Lemma whole_members ms zs z : Forall2 whole ms zs -> In z zs -> fits64 z.
Proof. intros H. induction H as [|v p ms zs Hv _ IH]; [intros []|]. intros [<-|I0]; [|auto]. inversion Hv; subst; unfold fits32, fits64 in *; lia. Qed.
Lemma half_within k p q : within k p -> within k q -> within k ((p + q) / 2).
Proof.
  unfold within. intros P H. apply Qabs_Qle_condition in P. apply Qabs_Qle_condition in H. apply Qabs_Qle_condition.
  assert (X : ((p + q) / 2 == (1 # 2) * p + (1 # 2) * q)%Q) by field. rewrite X. lra.
Qed.
Lemma genuine_int z : genuine (VInt z) -> fits32 z.
Proof.
  intros [t [G|[[G _]|(dbl & s & G & _)]]]; [|discriminate G|discriminate G].
  inversion G as [| | | | | |v a D|v a D| | | | |]; subst; try (unfold fits32; lia).
  - destruct D as [[D _]|(s & D & _)]; discriminate D.
  - destruct D as [[D _]|(s & D & _)]; discriminate D.
Qed.
Lemma genuine_long z : genuine (VLong z) -> fits64 z.
Proof.
  intros [t [G|[[G _]|(dbl & s & G & _)]]]; [|discriminate G|discriminate G].
  inversion G as [| | | | | |v a D|v a D| | | | |]; subst; try (unfold fits64; lia).
  - destruct D as [[D _]|(s & D & _)]; discriminate D.
  - destruct D as [[D _]|(s & D & _)]; discriminate D.
Qed.
Lemma call_size E f ms x k k' : calendar (today E) -> -999999999 <= year (today E) <= 999999999 -> Forall possible ms ->
  (f = F_LEN -> Z.of_nat (length ms) <= 2147483647 /\ forall s, ms = [VStr s] -> Z.of_nat (length s) <= 2147483647) ->
  20 <= k -> k <= k' -> Forall (magnitude k) ms -> (forall qs, Forall2 number ms qs -> within k' (total qs)) -> call E f ms (Ok x) -> outcome_size k' ms x.
Proof.
  intros Cal Yr Ps Len K Kk M Tot C. pose proof (call_plain E f ms x Cal Yr Ps Len C) as Pl. destruct C as [X0 X]. assert (G : Forall genuine ms) by (eapply Forall_impl; [|exact Ps]; intros v [H _]; exact H).
  destruct (arguments_kinds ms G) as [[ts T]|(dbl & t & I & F)].
  2: { exfalso. destruct (X0 dbl t F I) as [A B]. destruct (takes_dec f (length ms)) as [Kt|Kt]; [discriminate (A Kt)|discriminate (B Kt)]. }
  destruct (X ts T) as [(X1 & X2 & X3 & X4) _]. assert (Ne : ms <> []) by (intros Z0; discriminate (X1 Z0)).
  destruct (takes_dec f (length ms)) as [Kt|Kt]; [|discriminate (X2 Ne Kt)].
  destruct (func_supported_dec f ts) as [S|S]; [|discriminate (X3 Ne Kt S)].
  specialize (X4 Ne Kt S). clear X X0 X1 X2 X3 G. pose proof (decimal_among ms) as DA.
  assert (Mem : forall qs q, Forall2 number ms qs -> In q qs -> within k' q) by (intros qs q H1 H2; apply (within_le k k' q Kk), (member_within ms qs k q M H1 H2)).
  assert (Lp : 1 <= Z.of_nat (length ms)) by (destruct ms; [contradiction|cbn [length]; lia]).
  assert (Avg : (Exists decimal ms -> exists qs, Forall2 number ms qs /\ exists z, truncates (mean qs * inject_Z 1000) z /\ decimal_result (Ok x) (inject_Z z / inject_Z 1000)) /\
      (~ Exists decimal ms -> exists zs, Forall2 whole ms zs /\ exists z, wraps 64 (whole_total zs) z /\ two_decimals (inject_Z z / inject_Z (Z.of_nat (length ms))) (Ok x)) -> outcome_size k' ms x).
  { intros [A B]. destruct DA as [D|D].
    - destruct (A D) as (qs & Hq & z & Tr & R). apply (decimal_out k' ms x _ R). apply (within_less k' (mean qs)); [apply shorten_less; [lia|exact Tr]|].
      apply (within_less k' (total qs)); [|apply Tot, Hq]. unfold mean. apply quotient_less. rewrite <- (Forall2_len _ _ _ _ _ Hq). exact Lp.
    - destruct (B D) as (zs & _ & z & Wz & R1 & R2). destruct (integral (inject_Z z / inject_Z (Z.of_nat (length ms)) * inject_Z 100)) as [H|H]; [|discriminate (R2 H)].
      apply (decimal_out k' ms x _ (R1 H)). apply (within_less k' (inject_Z z)); [apply quotient_less, Lp|]. apply wraps_fits64 in Wz. unfold fits64 in Wz. apply small_Z; lia. }
  destruct f; cbn [gives] in X4; cbv zeta in X4.
  - destruct X4 as [A B]. destruct DA as [D|D].
    + destruct (A D) as (qs & Hq & q & [Iq _] & R). apply (decimal_out k' ms x q R), (Mem qs q Hq Iq).
    + destruct (B D) as (zs & Hz & z & y & Iz & _ & Ny & R). apply (whole_out k' ms x y ltac:(lia) R), (nearest_bound z y (whole_members ms zs z Hz Iz) Ny).
  - destruct X4 as [A B]. destruct DA as [D|D].
    + destruct (A D) as (qs & Hq & q & [Iq _] & R). apply (decimal_out k' ms x q R), (Mem qs q Hq Iq).
    + destruct (B D) as (zs & Hz & z & y & Iz & _ & Ny & R). apply (whole_out k' ms x y ltac:(lia) R), (nearest_bound z y (whole_members ms zs z Hz Iz) Ny).
  - exact (Avg X4).
  - destruct X4 as [A B]. destruct DA as [D|D].
    + destruct (A D) as (qs & Hq & R). apply (decimal_out k' ms x _ R), Tot, Hq.
    + destruct (B D) as (zs & _ & z & y & Wz & Ny & R). apply (whole_out k' ms x y ltac:(lia) R), (nearest_bound z y (wraps_fits64 _ _ Wz) Ny).
  - exact (Avg X4).
  - destruct X4 as (v & (n & a & b & Sp & _) & R). assert (Iv : In v ms) by (rewrite Sp; apply in_elt).
    destruct (supported_numbers F_MODE ms ts ltac:(left; listf) T S) as (qs & Hq & _). destruct (Forall2_in _ _ _ _ Hq Iv) as (q & Iq & Nq).
    destruct Nq as [z q F0 _|z q F0 _|b0 q V|dbl t q F0]; cbn [SpecFunc.returned] in R.
    + injection R as ->. apply out_int. unfold fits32. lia.
    + destruct R as (y & [= ->] & [[F1 ->]|[_ [F1 ->]]]); [apply out_int, F1|apply out_long, F1].
    + apply (decimal_out k' ms x _ R). apply (within_eq k' q); [exact V|]. apply (Mem qs q Hq Iq).
    + injection R as ->. apply out_member, Iv.
  - destruct X4 as (qs & Hq & s & [Pm _] & O1 & E1). assert (Ls : length s = length ms) by (rewrite (Permutation_length Pm); symmetry; apply (Forall2_len _ _ _ _ _ Hq)).
    assert (Nth : forall i, (i < length ms)%nat -> within k' (nth i s 0%Q)) by (intros i Li; apply (Mem qs _ Hq), (Permutation_in _ Pm), nth_In; lia).
    assert (L0 : (0 < length ms)%nat) by lia. assert (L1 : (length ms / 2 < length ms)%nat) by (apply Nat.div_lt; lia).
    destruct (Nat.even (length ms)) eqn:Ev.
    + destruct (E1 eq_refl) as (z & Tr & R). apply (decimal_out k' ms x _ R). eapply within_less; [apply shorten_less; [|exact Tr]; lia|].
      apply half_within; apply Nth; lia.
    + assert (Od : Nat.odd (length ms) = true) by (unfold Nat.odd; rewrite Ev; reflexivity). apply (decimal_out k' ms x _ (O1 Od)), Nth, L1.
  - destruct ms as [|m [|v' ms]]; [contradiction| |cbn in Kt; discriminate Kt]. destruct (X4 m eq_refl) as (q & z & y & _ & _ & W & [= ->]). apply out_int, (wraps_fits32 z y W).
  - destruct X4 as [A B]. assert (F : exists z, x = VInt z).
    { assert (D : (exists s, ms = [VStr s]) \/ forall s, ms <> [VStr s]) by (destruct ms as [|m [|v' ms]]; [right; discriminate| |right; discriminate]; destruct m; try (right; intros s0; discriminate); left; eauto).
      destruct D as [[s D]|D]; [specialize (A s D); injection A as ->|specialize (B D); injection B as ->]; eexists; reflexivity. }
    destruct F as [z ->]. apply out_int, genuine_int. exact (proj1 (proj1 Pl)).
  - specialize (X4 Cal). destruct X4 as [A B]. destruct ms as [|m [|v' ms]]; [contradiction| |cbn in Kt; discriminate Kt].
    assert (F : exists z, x = VLong z).
    { inversion T as [|? t ? ? Tv T0]; subst. inversion S as [|? ? St _]; subst. cbn in St. subst t.
      destruct Tv as [Tv|[_ Tv]]; [|discriminate Tv]. inversion Tv as [| | | | | |v0 a Dn| | | | | |]; subst. destruct Dn as [[-> Ca]|(s & -> & _)].
      + destruct (A a eq_refl) as (z & Ek & D). exists z. congruence.
      + destruct (B s eq_refl) as (yr & mo & dd & P1 & G1 & H1). pose proof (calendar_dec (Date yr mo dd)) as CD.
        destruct (le_dec (length s) 17) as [L|L]; [|discriminate (H1 ltac:(tauto))]. destruct CD as [CD|CD]; [|discriminate (H1 ltac:(tauto))].
        destruct (G1 (conj CD L)) as (z & Ek & _). exists z. congruence. }
    destruct F as [z ->]. apply out_long, genuine_long. exact (proj1 (proj1 Pl)).
Qed.

(** ** Sums *)
Lemma total_app p q : (total (p ++ q) == total p + total q)%Q.
Proof. unfold total. induction p as [|x p IH]; cbn [app fold_right]; [ring|]. rewrite IH. ring. Qed.
Lemma total_bound k ms qs : Forall (magnitude k) ms -> Forall2 number ms qs -> (Qabs (total qs) <= inject_Z (Z.of_nat (length ms)) * ten k)%Q.
Proof.
  intros M H. revert M. induction H as [|v q ms qs Hv H IH]; intros M.
  - cbn. unfold Qle. cbn. lia.
  - change (total (q :: qs)) with (q + total qs)%Q. cbn [length]. rewrite Nat2Z.inj_succ, <- Z.add_1_l, inject_Z_plus. inversion M as [|? ? Mv M']; subst. specialize (IH M').
    assert (W : within k q) by (apply (member_within (v :: ms) (q :: qs) k q M (Forall2_cons _ _ Hv H)); left; reflexivity). unfold within in W.
    eapply Qle_trans; [apply Qabs_triangle|]. change (inject_Z 1) with 1%Q. lra.
Qed.
Definition reached (B k : Z) (v : jval) : Prop :=
  sized (B * k) (6 * B * k) v /\ Forall (sized (B * k) (6 * B * k)) (members v) /\ Z.of_nat (length (members v)) <= B.
Lemma sized_magnitude k t ms : Forall (sized k t) ms -> Forall (magnitude k) ms.
Proof. intros H. eapply Forall_impl; [|exact H]. intros v [M _]. exact M. Qed.
Lemma inject_pos z : 0 <= z -> (0 <= inject_Z z)%Q.
Proof. intros L. change 0%Q with (inject_Z 0). rewrite <- Zle_Qle. exact L. Qed.
Lemma items_total E d B items : 1 <= B -> Forall (fun i => forall v, arith_eval E d i = Ok v -> reached B (Z.of_nat (objects i)) v) items ->
  forall vs, mapM (arith_eval E d) items = Ok vs -> forall qs, Forall2 number (flat_map members vs) qs ->
  (items = [] -> qs = []) /\ (Qabs (total qs) <= inject_Z B * ten (B * Z.of_nat (list_sum (map objects items))))%Q.
Proof.
  intros HB H. pose proof (inject_pos B ltac:(lia)) as Bp. induction H as [|i l Hi _ IH]; cbn [mapM]; intros vs.
  - intros [= <-] qs Hq. inversion Hq; subst. split; [reflexivity|]. cbn [total fold_right map list_sum]. rewrite Z.mul_0_r. change (ten 0) with 1%Q. change (Qabs 0) with 0%Q. lra.
  - destruct (arith_eval E d i) as [v|]; cbn [bind]; [|discriminate]. destruct (mapM _ l) as [vs'|] eqn:Vs; cbn [bind]; [|discriminate]. intros [= <-] qs Hq. cbn [flat_map] in Hq.
    apply Forall2_app_inv_l in Hq. destruct Hq as (q1 & q2 & H1 & H2 & ->). destruct (Hi v eq_refl) as (_ & Mv & Lv). destruct (IH vs' eq_refl q2 H2) as [I1 I2]. split; [discriminate|].
    pose proof (total_bound _ _ _ (sized_magnitude _ _ _ Mv) H1) as T1. assert (P1 : 1 <= Z.of_nat (objects i)) by (pose proof (objects_pos i); lia).
    assert (T1' : (Qabs (total q1) <= inject_Z B * ten (B * Z.of_nat (objects i)))%Q).
    { eapply Qle_trans; [exact T1|]. apply Qmult_le_compat_r; [rewrite <- Zle_Qle; exact Lv|apply Qlt_le_weak, ten_pos]. }
    change (list_sum (map objects (i :: l))) with (objects i + list_sum (map objects l))%nat. rewrite Nat2Z.inj_add, Z.mul_add_distr_l, ten_plus.
    rewrite total_app. eapply Qle_trans; [apply Qabs_triangle|]. destruct l as [|i' l].
    + rewrite (I1 eq_refl). cbn [map list_sum fold_right]. change (Qabs (total [])) with 0%Q. change (Z.of_nat 0) with 0. rewrite Z.mul_0_r. change (ten 0) with 1%Q. lra.
    + assert (P2 : 1 <= Z.of_nat (list_sum (map objects (i' :: l)))) by (pose proof (objects_pos i'); cbn [map]; change (list_sum (objects i' :: map objects l)) with (objects i' + list_sum (map objects l))%nat; lia).
      set (a := ten (B * Z.of_nat (objects i))) in *. set (b := ten (B * Z.of_nat (list_sum (map objects (i' :: l))))) in *.
      assert (A : (10 <= a)%Q) by (apply ten_1; nia). assert (A' : (10 <= b)%Q) by (apply ten_1; nia). pose proof (sum_product a b A A') as Sp.
      apply Qle_trans with (inject_Z B * (a + b))%Q; [lra|]. rewrite !(Qmult_comm (inject_Z B)). apply Qmult_le_compat_r; [exact Sp|exact Bp].
Qed.
Lemma below_ten B : 0 <= B -> (inject_Z B <= ten B)%Q.
Proof. intros L. rewrite ten_Z by exact L. rewrite <- Zle_Qle. pose proof (Z.pow_gt_lin_r 10 B ltac:(lia) L). lia. Qed.

(** ** Whole expressions *)
Lemma dec_sized B k y : 1074 <= B -> 1 <= k -> within (B * k) (dec_value y) -> Z.abs (scale y) <= B * k -> sized (B * k) (6 * B * k) (VDec y).
Proof.
  intros HB K W S0. split; [intros b Hb; inversion Hb; subst; exact W|]. unfold print_length. cbn [show].
  pose proof (decimal_length y (B * k) (B * k) ltac:(nia) ltac:(nia) W S0). nia.
Qed.
Lemma plain_reached B k v : 1074 <= B -> plain_result v -> sized (B * k) (6 * B * k) v -> reached B k v.
Proof. intros HB (_ & _ & M) H. unfold reached. rewrite M. split; [exact H|]. split; [constructor; [exact H|constructor]|]. cbn [length]. lia. Qed.
Lemma items_sized E d B items : 0 <= B -> Forall (fun i => forall v, arith_eval E d i = Ok v -> reached B (Z.of_nat (objects i)) v) items ->
  forall vs, mapM (arith_eval E d) items = Ok vs -> let k := Z.of_nat (list_sum (map objects items)) in Forall (sized (B * k) (6 * B * k)) (flat_map members vs).
Proof.
  intros HB H. induction H as [|i l Hi _ IH]; cbn [mapM]; intros vs; [intros [= <-]; constructor|].
  destruct (arith_eval E d i) as [v|]; cbn [bind]; [|discriminate]. destruct (mapM _ l) as [vs'|]; cbn [bind]; [|discriminate]. intros [= <-].
  destruct (Hi v eq_refl) as (_ & Mv & _). specialize (IH vs' eq_refl). cbv zeta in *. cbn [flat_map]. change (list_sum (map objects (i :: l))) with (objects i + list_sum (map objects l))%nat.
  rewrite Nat2Z.inj_add. apply Forall_app; split; (eapply Forall_impl; [|eassumption]); intros u; apply sized_le; nia.
Qed.
Definition small_literal (B : Z) (v : jval) : Prop := sized B (6 * B) v.
Lemma tree_size E d B : world E d -> finite_doubles E -> 1074 <= B -> data_size d B ->
  forall n, sensible n -> lengths_fit E d n -> built (fun _ => True) (places B) n -> built (fun _ => True) (small_literal B) n ->
  forall v, arith_eval E d n = Ok v -> reached B (Z.of_nat (objects n)) v.
Proof.
  intros W FD HB [DP DS]. pose proof FD as (T & _). pose proof W as (Cal & Yr & Pd & Fd). pose proof (tree_places E d B W T HB DP) as TP.
  induction n as [f|dt v|l r op IHl IHr|f items IH|l r op dt IHl IHr|f lo hi t1 t2|f items IH|f op items IH|l r op IHl IHr] using node_ind';
    intros Sn Ln Pn Bn x Hx; try discriminate Hx.
  - cbn [arith_eval] in Hx. apply (lookup_eval d f (Ok x) Pd) in Hx. inversion Hx as [s ks w L F| | |]; subst. cbn [objects]. change (Z.of_nat 1) with 1. destruct (DS ks x F) as (D1 & D2 & D3 & D4).
    unfold reached. rewrite !Z.mul_1_r. split; [split; [exact D1|unfold print_length in *; lia]|]. split; [|exact D3]. eapply Forall_impl; [|exact D4]. intros m Hm. apply (sized_le B B B (6 * B) m ltac:(lia) ltac:(lia) Hm).
  - injection Hx as <-. cbn [objects]. cbn [sensible built] in Sn, Bn. destruct (literal_possible dt v Sn) as [_ M]. unfold reached. rewrite M. change (Z.of_nat 1) with 1. rewrite !Z.mul_1_r.
    assert (X : sized B (6 * B) v) by exact Bn. split; [exact X|]. split; [constructor; [exact X|constructor]|cbn [length]; lia].
  - pose proof (TP (NArith l r op) Sn Ln Pn) as PX. assert (Pl : plain_result x) by (apply (arith_plain E d l r op x W Sn Ln Hx)).
    cbn [sensible lengths_fit built] in Sn, Ln, Bn, Pn. destruct Sn as [Sl Sr], Ln as [Ll Lr], Bn as [Bl Br], Pn as [Ql Qr].
    assert (Pos : 1 <= Z.of_nat (objects l)) by (pose proof (objects_pos l); lia).
    apply plain_reached; [exact HB|exact Pl|]. destruct r as [r|].
    + destruct Sr as [Op Sr]. cbn [opt_P] in IHr. change (NArith l (Some r) op) with (bin l op r) in Hx.
      assert (NU : op <> UNARY) by (intros ->; destruct Op as [X|[X|[X|[X|[X|[X|[]]]]]]]; discriminate X).
      assert (X := Hx). rewrite (bin_eval E d l op r NU) in X. destruct (arith_eval E d l) as [v|e] eqn:Vl; [|discriminate X]. cbn [bind] in X.
      destruct (arith_eval E d r) as [w|e] eqn:Vr; [|discriminate X]. clear X.
      assert (Pos' : 1 <= Z.of_nat (objects r)) by (pose proof (objects_pos r); lia).
      destruct (IHl Sl Ll Ql Bl v eq_refl) as [[Mv Tv] _]. destruct (IHr Sr Lr Qr Br w eq_refl) as [[Mw Tw] _].
      assert (Gv : genuine v) by apply (proj2 (arith_right E d W l Sl Ll) v Vl). assert (Gw : genuine w) by apply (proj2 (arith_right E d W r Sr Lr) w Vr).
      destruct (TP r Sr Lr Qr w Vr) as [Pw _].
      set (a := Z.of_nat (objects l)) in *. set (b := Z.of_nat (objects r)) in *.
      assert (Ob : Z.of_nat (objects (NArith l (Some r) op)) = a + b + 1) by (cbn [objects]; unfold a, b; lia). rewrite Ob in *.
      destruct (result_type E d l op r v w x Op Vl Vr (java_genuine v Gv) (java_genuine w Gw) Hx) as [[(z & -> & F)|[(z & -> & F)|[y ->]]]|(_ & _ & ->)].
      * apply int_sized; [nia|nia|exact F].
      * apply long_sized; [nia|nia|exact F].
      * apply dec_sized; [exact HB|lia| |exact (proj1 (PX _ Hx) y (held_dec y))].
        apply (within_le (B * a + B * b)); [nia|]. apply (operation_size E d l r op v w y (B * a) (B * b) (B * b) FD Op Vl Vr Gv Gw ltac:(nia) ltac:(nia) ltac:(lia) Mv Mw Pw Hx).
      * split; [intros y Hy; inversion Hy|]. unfold print_length in *. cbn [show]. rewrite app_length, Nat2Z.inj_add. nia.
    + subst op. assert (X := Hx). cbn [arith_eval] in X. destruct (arith_eval E d l) as [v|e] eqn:Vl; [|discriminate X]. clear X.
      destruct (IHl Sl Ll Ql Bl v eq_refl) as [[Mv _] _]. assert (Gv : genuine v) by apply (proj2 (arith_right E d W l Sl Ll) v Vl).
      set (a := Z.of_nat (objects l)) in *. assert (Ob : Z.of_nat (objects (NArith l None UNARY)) = a + 1) by (cbn [objects]; unfold a; lia). rewrite Ob in *.
      destruct (negate_result E d l x Hx) as [(z & -> & F)|[(z & -> & F)|[y ->]]].
      * apply int_sized; [nia|nia|exact F].
      * apply long_sized; [nia|nia|exact F].
      * apply dec_sized; [exact HB|lia| |exact (proj1 (PX _ Hx) y (held_dec y))]. apply (within_le (B * a)); [nia|]. apply (negation_size E d l v y _ Vl Gv Mv Hx).
  - pose proof (TP (NFunc f items) Sn Ln Pn) as PX. assert (Pl : plain_result x) by (apply (call_plain_value E d f items x W Sn Ln Hx)). apply plain_reached; [exact HB|exact Pl|].
    cbn [sensible lengths_fit built] in Sn, Ln, Bn, Pn. apply sensible_all in Sn. destruct Ln as [Lf Ln]. apply fit_all in Ln. apply built_all in Bn. apply built_all in Pn.
    assert (Ob : Z.of_nat (objects (NFunc f items)) = Z.of_nat (list_sum (map objects items)) + 1) by (cbn [objects]; rewrite objects_all; lia). rewrite Ob in *.
    set (k := Z.of_nat (list_sum (map objects items))) in *. assert (K0 : 0 <= k) by (unfold k; lia).
    assert (R : Forall (fun i => forall v, arith_eval E d i = Ok v -> reached B (Z.of_nat (objects i)) v) items).
    { clear -IH Sn Ln Bn Pn. induction IH as [|i l Hi _ IH]; [constructor|]. inversion Sn; inversion Ln; inversion Bn; inversion Pn; subst. constructor; [apply Hi; assumption|apply IH; assumption]. }
    assert (Vr : Forall (valued_right E d) items).
    { clear -Sn Ln W. induction items as [|i l IH]; [constructor|]. inversion Sn; inversion Ln; subst. constructor; [apply arith_right; assumption|apply IH; assumption]. }
    destruct (values_right E d items Vr) as [A Ps]. destruct (mapM (arith_eval E d) items) as [vs|e] eqn:Vs; [|rewrite arith_func in Hx; unfold arith_items in Hx; rewrite Vs in Hx; discriminate Hx].
    specialize (Ps vs eq_refl). assert (G : Forall genuine (flat_map members vs)) by (eapply Forall_impl; [|exact Ps]; intros v [Gv _]; exact Gv).
    pose proof (items_sized E d B items ltac:(lia) R vs Vs) as Sz. cbv zeta in Sz. fold k in Sz.
    assert (Sz' : Forall (sized (B * (k + 1)) (6 * B * (k + 1))) (flat_map members vs)) by (eapply Forall_impl; [|exact Sz]; intros u; apply sized_le; nia).
    assert (Hc : call E f (flat_map members vs) (Ok x)) by (apply (call_determined E d f items (flat_map members vs) Cal (mapM_arguments E d items vs Vs) G); exact Hx).
    assert (O : outcome_size (B * (k + 1)) (flat_map members vs) x).
    { apply (call_size E f (flat_map members vs) x (B * (k + 1)) (B * (k + 1)) Cal Yr Ps); [intros Lf'; apply (Lf Lf'), A; reflexivity|nia|lia|exact (sized_magnitude _ _ _ Sz')| |exact Hc].
      intros qs Hq. destruct (items_total E d B items ltac:(lia) R vs Vs qs Hq) as [_ Tt]. fold k in Tt. unfold within. eapply Qle_trans; [exact Tt|].
      replace (B * (k + 1)) with (B + B * k) by lia. rewrite ten_plus. apply Qmult_le_compat_r; [apply below_ten; lia|apply Qlt_le_weak, ten_pos]. }
    destruct O as [z F|z F|y Wy|v Iv].
    + apply int_sized; [nia|nia|exact F].
    + apply long_sized; [nia|nia|exact F].
    + apply dec_sized; [exact HB|lia|exact Wy|exact (proj1 (PX _ Hx) y (held_dec y))].
    + rewrite Forall_forall in Sz'. apply Sz', Iv.
Qed.

(** ** Texts *)
Lemma pad_length w n k : 1 <= k -> 0 <= n < 10 ^ k -> Z.of_nat (length (pad w n)) <= Z.of_nat w + k.
Proof.
  intros K [N0 N1]. unfold pad. rewrite app_length, repeat_length. pose proof (print_N_length_le (Z.to_N n) k K ltac:(rewrite Z2N.id; lia)). lia.
Qed.
Lemma date_length a : 0 <= year a <= 999999999 -> 0 <= month a < 100 -> 0 <= day a < 100 -> Z.of_nat (length (date_to_string a)) <= 30.
Proof.
  intros Y M D. unfold date_to_string. destruct (year a <? 0) eqn:N; [apply Z.ltb_lt in N; lia|]. rewrite app_length. cbn [length]. rewrite app_length. cbn [length].
  pose proof (pad_length 2 (month a) 2 ltac:(lia) ltac:(lia)). pose proof (pad_length 2 (day a) 2 ltac:(lia) ltac:(lia)).
  assert (P : Z.of_nat (length (pad 4 (year a))) <= Z.of_nat 4 + 9) by (apply pad_length; [lia|change (10 ^ 9) with 1000000000; lia]).
  destruct (9999 <? year a); cbn [length]; lia.
Qed.
Lemma month_day_bound y m n : month_days y m n -> 1 <= m <= 12 /\ 28 <= n <= 31.
Proof. intros H. inversion H as [x I0|x I0| |]; subst; cbn in *; intuition lia. Qed.
Lemma written_length s a : written_date s a -> 0 <= year a <= 999999999 /\ 0 <= month a < 100 /\ 0 <= day a < 100.
Proof. intros (y & m & d & n & _ & Y & M & D & ->). apply month_day_bound in M. cbn [year month day]. lia. Qed.
Lemma tomorrow_bound a b : tomorrow a b -> 0 <= year a -> 0 <= year b /\ 0 <= month b < 100 /\ 0 <= day b < 100.
Proof. intros H Y. inversion H as [y m d n M D|y m n M L|y]; subst; cbn [year month day] in *; try apply month_day_bound in M; lia. Qed.
Lemma datetime_length s x : written_datetime s x -> Z.of_nat (length (datetime_to_string x)) <= 60.
Proof.
  intros (p & q & a & h & mi & se & _ & Wa & (s1 & s2 & s3 & (N1 & D1 & V1) & (N2 & D2 & V2) & (N3 & D3 & V3) & _) & C).
  pose proof (JNumFacts.digits_val_nonneg s1 D1) as H1. pose proof (JNumFacts.digits_val_nonneg s2 D2) as H2. pose proof (JNumFacts.digits_val_nonneg s3 D3) as H3.
  apply written_length in Wa. assert (X : exists b hh mm ss, x = DateTime b hh mm ss 0 /\ Z.of_nat (length (date_to_string b)) <= 30 /\ 0 <= hh < 100 /\ 0 <= mm < 100 /\ 0 <= ss < 100).
  { destruct C as [(A1 & A2 & A3 & ->)|(A1 & A2 & A3 & b & T & Y & ->)].
    - exists a, h, mi, se. split; [reflexivity|]. split; [apply date_length; tauto|]. lia.
    - exists b, 0, 0, 0. split; [reflexivity|]. destruct (tomorrow_bound a b T ltac:(lia)) as (B1 & B2 & B3). split; [apply date_length; try lia|]. lia. }
  destruct X as (b & hh & mm & ss & -> & L & Hh & Hm & Hs). unfold datetime_to_string. cbn [dt_date hour minute second nano].
  pose proof (pad_length 2 hh 2 ltac:(lia) ltac:(lia)). pose proof (pad_length 2 mm 2 ltac:(lia) ltac:(lia)). pose proof (pad_length 2 ss 2 ltac:(lia) ltac:(lia)).
  change (0 <? 0) with false. rewrite !app_length. cbn [length]. rewrite !app_length. cbn [length]. rewrite app_length. destruct ((0 <? ss) || false); cbn [length]; rewrite ?app_length; cbn [length]; lia.
Qed.
Lemma decimal_literal a b r : a <> [] -> forallb is_digit a = true -> forallb is_digit b = true -> parse_bigdec (a ++ ch "." :: b) = Some r -> r = BD (digits_val (a ++ b)) (Z.of_nat (length b)).
Proof.
  intros N Da Db. destruct a as [|c a]; [contradiction|]. pose proof Da as Dc. cbn [forallb] in Dc. apply andb_prop in Dc. destruct Dc as [Dc _].
  rewrite (NumFacts.parse_bigdec_unsigned ((c :: a) ++ ch "." :: b) c (a ++ ch "." :: b) eq_refl Dc). unfold parse_unsigned_bigdec. rewrite (span_digits (c :: a) (ch ".") b Da eq_refl). cbn [N.eqb]. change ((ch "." =? ch ".")%N) with true. cbv iota.
  rewrite (span_all b Db). cbn [app]. intros [= <-]. reflexivity.
Qed.
Lemma no_number B v : (forall b, ~ held v b) -> print_length (6 * B) v -> small_literal B v.
Proof. intros N P. split; [|exact P]. intros b Hb. destruct (N b Hb). Qed.
Lemma stripped_length s v : strip_ends s = Ok v -> exists u, v = VStr u /\ (length u <= length s)%nat.
Proof.
  unfold strip_ends. destruct (length s <? 2)%nat; [discriminate|]. intros [= <-]. eexists. split; [reflexivity|]. destruct s as [|c s]; [cbn; lia|]. cbn [tl length].
  destruct s as [|c' s]; [cbn; lia|]. pose proof (f_equal (@length _) (app_removelast_last 0%N (l := c' :: s) ltac:(discriminate))) as X. rewrite app_length in X. cbn [length] in *. lia.
Qed.
Lemma literal_small s dflt n B : 1074 <= B -> Z.of_nat (length s) <= B -> parse_expression s dflt = Ok n -> built (fun _ => True) (small_literal B) n.
Proof.
  intros HB Hs Pn. destruct (lex_total s) as (ps & _ & L). eapply built_impl; [| |exact (parse_built s _ dflt n L Pn)]; [auto|].
  intros v (t & dt & It & Dt & C).
  assert (Lt : (length (Lexer.text t) <= length s \/ length (Lexer.text t) <= 5)%nat) by (destruct It as [<-|It]; [right; cbn; lia|left; apply (token_length s _ t L It)]).
  assert (Tx : forall u, (length u <= length (Lexer.text t))%nat -> small_literal B (VStr u)).
  { intros u Lu. apply no_number; [intros b Hb; inversion Hb|]. unfold print_length. cbn [show]. lia. }
  destruct dt; cbn [convert_value] in C.
  - destruct (quoted_by _ (Lexer.text t)); [|destruct (quoted_by _ (Lexer.text t))].
    + destruct (stripped_length _ _ C) as (u & -> & Lu). apply Tx, Lu.
    + destruct (stripped_length _ _ C) as (u & -> & Lu). apply Tx, Lu.
    + injection C as <-. apply Tx. lia.
  - destruct (parse_int _) as [z|] eqn:Pz; [|discriminate C]. injection C as <-. apply int_sized; [lia|lia|]. unfold parse_int in Pz. destruct (parse_integer _) as [z'|]; [|discriminate Pz].
    destruct (in_int z') eqn:I0; [|discriminate Pz]. injection Pz as ->. unfold in_int in I0. unfold fits32. apply andb_prop in I0. destruct I0 as [I1 I2]. apply Z.leb_le in I1. apply Z.leb_le in I2. unfold int_min, int_max in *. lia.
  - destruct (parse_long _) as [z|] eqn:Pz; [|discriminate C]. injection C as <-. apply long_sized; [lia|lia|]. unfold parse_long in Pz. destruct (parse_integer _) as [z'|]; [|discriminate Pz].
    destruct (in_long z') eqn:I0; [|discriminate Pz]. injection Pz as ->. unfold in_long in I0. unfold fits64. apply andb_prop in I0. destruct I0 as [I1 I2]. apply Z.leb_le in I1. apply Z.leb_le in I2. unfold long_min, long_max in *. lia.
  - destruct Dt as [Dt|Dt]; [|discriminate Dt]. assert (K : kind t = T_DECIMAL).
    { unfold token_data_type, numeric_data_type in Dt. destruct (kind t); try discriminate Dt; [reflexivity|]. destruct (parse_int _); discriminate Dt. }
    destruct It as [<-|It]; [discriminate K|]. pose proof (lex_genuine _ _ L) as G. rewrite Forall_forall in G. specialize (G t It).
    assert (M : matches (cat [Plus digit; one "."; Plus digit]) (Lexer.text t)).
    { destruct (SyntaxFacts.genuine_rule t G) as (r & R & M). rewrite K in R. unfold lexicon in R. cbn [In] in R.
      repeat (destruct R as [R|R]; [try discriminate R; try (injection R as <-; exact M)|]). destruct R. }
    apply matches_decimal in M. destruct M as (a & b & T & Na & Nb & Da & Db). cbn [convert_value] in C. rewrite T in C. destruct (parse_bigdec (a ++ ch "." :: b)) as [r|] eqn:Pr; [|discriminate C].
    assert (v = VDec r) by congruence. subst v. pose proof (decimal_literal a b r Na Da Db Pr) as ->. pose proof (token_length s _ t L It) as Le. rewrite T, app_length in Le. cbn [length] in Le.
    assert (W : within (Z.of_nat (length a)) (dec_value (BD (digits_val (a ++ b)) (Z.of_nat (length b))))).
    { assert (Dab : all_digits (a ++ b) = true) by (unfold all_digits; rewrite forallb_app, Da, Db; reflexivity). pose proof (JNumFacts.digits_val_nonneg (a ++ b) Dab) as V.
      unfold dec_value. cbn [unscaled scale]. change ((10 # 1) ^ (- Z.of_nat (length b)))%Q with (ten (- Z.of_nat (length b))).
      replace (Z.of_nat (length a)) with (Z.of_nat (length (a ++ b)) + - Z.of_nat (length b)) by (rewrite app_length; lia). apply within_mul; [apply within_Z; lia|].
      unfold within. rewrite Qabs_pos by (apply Qlt_le_weak, ten_pos). apply Qle_refl. }
    split.
    + intros b' Hb. inversion Hb; subst. apply (within_le (Z.of_nat (length a)) B); [lia|exact W].
    + unfold print_length. cbn [show]. pose proof (decimal_length (BD (digits_val (a ++ b)) (Z.of_nat (length b))) (Z.of_nat (length a)) (Z.of_nat (length b)) ltac:(lia) ltac:(lia) W ltac:(cbn [scale]; lia)). lia.
  - injection C as <-. apply no_number; [intros b Hb; inversion Hb|]. unfold print_length. cbn [show]. lia.
  - injection C as <-. apply no_number; [intros b Hb; inversion Hb|]. unfold print_length. cbn [show]. destruct (equals_ignore_case _ _); [change (length (J "true")) with 4%nat|change (length (J "false")) with 5%nat]; lia.
  - destruct (parse_date _) as [a|] eqn:Pd; injection C as <-; (apply no_number; [intros b Hb; inversion Hb|]); unfold print_length; cbn [show]; [|change (length (J "null")) with 4%nat; lia].
    apply parse_date_spec in Pd. apply written_length in Pd. pose proof (date_length a ltac:(tauto) ltac:(tauto) ltac:(tauto)). lia.
  - destruct (parse_datetime _) as [a|] eqn:Pd; injection C as <-; (apply no_number; [intros b Hb; inversion Hb|]); unfold print_length; cbn [show]; [|change (length (J "null")) with 4%nat; lia].
    apply parse_datetime_spec in Pd. apply datetime_length in Pd. lia.
Qed.
Lemma text_size E d s dflt n m v B : world E d -> finite_doubles E -> data_size d B -> 1074 <= B -> Z.of_nat (length s) <= B ->
  parse_expression s dflt = Ok n -> lengths_fit E d n -> part m n -> arith_eval E d m = Ok v ->
  magnitude (B * Z.of_nat (objects m)) v /\ print_length (6 * B * Z.of_nat (objects m)) v.
Proof.
  intros W T D HB Hs Pn L Pt Hv. apply (tree_size E d B W T HB D m); [| | | |exact Hv].
  - apply (part_sensible _ _ Pt), (text_sensible s dflt n Pn).
  - apply (part_fit _ _ _ _ Pt L).
  - apply (part_built _ _ _ _ Pt), (literal_places s dflt n B ltac:(lia) Hs Pn).
  - apply (part_built _ _ _ _ Pt), (literal_small s dflt n B HB Hs Pn).
Qed.
Lemma text_magnitude E d s dflt n m v B : world E d -> finite_doubles E -> data_size d B -> 1074 <= B -> Z.of_nat (length s) <= B ->
  parse_expression s dflt = Ok n -> lengths_fit E d n -> part m n -> arith_eval E d m = Ok v -> magnitude (B * Z.of_nat (objects m)) v.
Proof. intros. eapply text_size; eauto. Qed.
Lemma text_print E d s dflt n m v B : world E d -> finite_doubles E -> data_size d B -> 1074 <= B -> Z.of_nat (length s) <= B ->
  parse_expression s dflt = Ok n -> lengths_fit E d n -> part m n -> arith_eval E d m = Ok v -> print_length (6 * B * Z.of_nat (objects m)) v.
Proof. intros. eapply text_size; eauto. Qed.
Lemma text_digits E d s dflt n m b B : world E d -> finite_doubles E -> data_size d B -> 1074 <= B -> Z.of_nat (length s) <= B ->
  parse_expression s dflt = Ok n -> lengths_fit E d n -> part m n -> arith_eval E d m = Ok (VDec b) -> Z.abs (unscaled b) <= 10 ^ (2 * B * Z.of_nat (objects m)).
Proof.
  intros W T D HB Hs Pn L Pt Hv. pose proof (text_magnitude E d s dflt n m _ B W T D HB Hs Pn L Pt Hv b (held_dec b)) as M.
  pose proof (text_places E d s dflt n m _ B W (proj1 T) (proj1 D) HB Hs Pn L Pt Hv b (held_dec b)) as P.
  replace (2 * B * Z.of_nat (objects m)) with (B * Z.of_nat (objects m) + B * Z.of_nat (objects m)) by lia. apply unscaled_bound; [nia|nia|exact M|exact P].
Qed.
Lemma text_words E d s dflt n m v k B : world E d -> finite_doubles E -> data_size d B -> 1074 <= B -> Z.of_nat (length s) <= B -> words_in s k ->
  parse_expression s dflt = Ok n -> lengths_fit E d n -> part m n -> arith_eval E d m = Ok v ->
  let j := Z.of_nat (2 * k + 1) in magnitude (B * (j * j)) v /\ print_length (6 * B * (j * j)) v.
Proof.
  intros W T D HB Hs Wk Pn L Pt Hv. cbv zeta. destruct (text_size E d s dflt n m v B W T D HB Hs Pn L Pt Hv) as [M P].
  pose proof (part_objects m n Pt) as O. pose proof (any_size s dflt n k Pn Wk) as S0.
  assert (X : Z.of_nat (objects m) <= Z.of_nat (2 * k + 1) * Z.of_nat (2 * k + 1)) by (rewrite <- Nat2Z.inj_mul; apply inj_le; lia).
  assert (X1 : B * Z.of_nat (objects m) <= B * (Z.of_nat (2 * k + 1) * Z.of_nat (2 * k + 1))) by (apply Z.mul_le_mono_nonneg_l; lia).
  apply (sized_le (B * Z.of_nat (objects m)) _ (6 * B * Z.of_nat (objects m)) _ v); [exact X1|lia|split; assumption].
Qed.
