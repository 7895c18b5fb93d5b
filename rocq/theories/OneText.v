(** Proof that a value has one text. *)
From Coq Require Import QArith Qabs Qpower.
From Verif Require Import Base JNum JNumFacts BigDec Dates Values SpecNum SpecDate SpecCompare SpecMixed SpecScale InsertFacts ScaleFacts SpecAlphabet AlphabetFacts SpecShown ShownFacts.
Local Open Scope Z_scope.

Lemma numeral_index c : In c numerals -> exists i, nth_error numerals i = Some c /\ 0 <= Z.of_nat i < 10.
Proof.
  intros I. apply In_nth_error in I as [i H]. exists i. split; [exact H|]. assert (L : (i < length numerals)%nat) by (apply nth_error_Some; congruence). cbn in L. lia.
Qed.
Lemma same_length : forall s t, Forall (fun c => In c numerals) s -> Forall (fun c => In c numerals) t -> length s = length t -> digits_val s = digits_val t -> s = t.
Proof.
  intros s. induction s as [|c s IH] using rev_ind; intros t S T L V.
  - destruct t; [reflexivity|discriminate L].
  - destruct t as [|c' t _] using rev_ind; [rewrite app_length in L; cbn in L; lia|]. rewrite !app_length in L. cbn in L.
    apply Forall_app in S as [S C]. apply Forall_app in T as [T C']. apply Forall_inv in C. apply Forall_inv in C'.
    destruct (numeral_index c C) as (i & Hi & Bi). destruct (numeral_index c' C') as (j & Hj & Bj). destruct positional as [_ P].
    rewrite (P s i c Hi), (P t j c' Hj) in V. assert (i = j) by lia. subst j. rewrite (IH t S T) by lia. congruence.
Qed.
Lemma digits_bound s : Forall (fun c => In c numerals) s -> 0 <= digits_val s < 10 ^ Z.of_nat (length s).
Proof.
  induction s as [|c s IH] using rev_ind; intros S; [cbn; lia|]. apply Forall_app in S as [S C]. apply Forall_inv in C. destruct (numeral_index c C) as (i & Hi & Bi).
  destruct positional as [_ P]. rewrite (P s i c Hi), app_length. cbn [length]. rewrite Nat2Z.inj_add, Z.pow_add_r by lia. specialize (IH S). change (10 ^ Z.of_nat 1) with 10. lia.
Qed.
Lemma digits_large s : Forall (fun c => In c numerals) s -> s <> [] -> nth_error s 0 <> Some (ch "0") -> 10 ^ (Z.of_nat (length s) - 1) <= digits_val s.
Proof.
  induction s as [|c s IH] using rev_ind; intros Fs N Z0; [congruence|]. apply Forall_app in Fs as [Fs C]. apply Forall_inv in C. destruct (numeral_index c C) as (i & Hi & Bi).
  destruct positional as [P0 P]. rewrite (P s i c Hi), app_length. cbn [length]. destruct s as [|c0 s].
  - cbn in Z0. destruct i as [|i]; [cbn in Hi; congruence|]. rewrite P0. cbn. lia.
  - specialize (IH Fs ltac:(discriminate) Z0). rewrite Nat2Z.inj_add. cbn [length] in *. replace (Z.of_nat (S (length s)) + Z.of_nat 1 - 1) with (1 + (Z.of_nat (S (length s)) - 1)) by lia.
    rewrite Z.pow_add_r by lia. change (10 ^ 1) with 10. lia.
Qed.
Lemma figures_one w n s t : figures w n s -> figures w n t -> s = t.
Proof.
  assert (X : forall s t, figures w n s -> figures w n t -> (length s < length t)%nat -> False).
  { intros a b (Fa & Va & La) (Fb & Vb & Lb) L. destruct Lb as [Lb|[Lb Nb]]; [destruct La as [La|[La _]]; lia|].
    pose proof (digits_bound a Fa). assert (10 ^ (Z.of_nat (length b) - 1) <= digits_val b) by (apply digits_large; [exact Fb|destruct b; [cbn in Lb; lia|discriminate]|exact Nb]).
    assert (10 ^ Z.of_nat (length a) <= 10 ^ (Z.of_nat (length b) - 1)) by (apply Z.pow_le_mono_r; lia). lia. }
  intros A B. destruct (Nat.lt_trichotomy (length s) (length t)) as [L|[L|L]]; [destruct (X s t A B L)| |destruct (X t s B A L)].
  destruct A as (Fa & Va & _), B as (Fb & Vb & _). apply same_length; congruence || assumption.
Qed.
Lemma whole_one z s t : whole z s -> whole z t -> s = t.
Proof. intros (a & A & ->) (b & B & ->). rewrite (figures_one _ _ _ _ A B). reflexivity. Qed.
Lemma dated_one d s t : dated d s -> dated d t -> s = t.
Proof.
  intros (y & m & a & Y & M & A & ->) (y' & m' & a' & Y' & M' & A' & ->). rewrite (figures_one _ _ _ _ Y Y'), (figures_one _ _ _ _ M M'), (figures_one _ _ _ _ A A'). reflexivity.
Qed.
Lemma thousands n k : n = k * 1000 -> n mod 1000 = 0. Proof. intros ->. apply Z.mod_mul. lia. Qed.
Lemma millions n k : n = k * 1000000 -> n mod 1000000 = 0. Proof. intros ->. apply Z.mod_mul. lia. Qed.
Lemma millions_thousands n k : n = k * 1000000 -> n mod 1000 = 0. Proof. intros ->. replace (k * 1000000) with (k * 1000 * 1000) by lia. apply Z.mod_mul. lia. Qed.
Lemma fraction_one n s t : fraction n s -> fraction n t -> s = t.
Proof.
  intros A B. destruct A as [Z0|f k N K F|f k N K F|f N F], B as [Z1|f' k' N' K' F'|f' k' N' K' F'|f' N' F']; try reflexivity; try (destruct N'; rewrite Z0; reflexivity); try (destruct N; rewrite Z1; reflexivity).
  - replace k' with k in F' by lia. rewrite (figures_one _ _ _ _ F F'). reflexivity.
  - destruct N'. exact (millions n k K).
  - destruct N'. exact (millions_thousands n k K).
  - destruct N. exact (millions n k' K').
  - replace k' with k in F' by lia. rewrite (figures_one _ _ _ _ F F'). reflexivity.
  - destruct N'. exact (thousands n k K).
  - destruct N. exact (millions_thousands n k' K').
  - destruct N. exact (thousands n k' K').
  - rewrite (figures_one _ _ _ _ F F'). reflexivity.
Qed.
Lemma seconds_one x s t : seconds x s -> seconds x t -> s = t.
Proof.
  intros A B. destruct A as [S N|a f O F R], B as [S' N'|a' f' O' F' R']; try reflexivity; try lia. rewrite (figures_one _ _ _ _ F F'), (fraction_one _ _ _ R R'). reflexivity.
Qed.
Lemma timed_one x s t : timed x s -> timed x t -> s = t.
Proof.
  intros (a & h & m & r & A & H & M & R & ->) (a' & h' & m' & r' & A' & H' & M' & R' & ->).
  rewrite (dated_one _ _ _ A A'), (figures_one _ _ _ _ H H'), (figures_one _ _ _ _ M M'), (seconds_one _ _ _ R R'). reflexivity.
Qed.

Lemma digits_app a c : Forall (fun x => In x numerals) c -> digits_val (a ++ c) = digits_val a * 10 ^ Z.of_nat (length c) + digits_val c.
Proof.
  induction c as [|x c IH] using rev_ind; intros C; [rewrite app_nil_r; cbn; lia|]. apply Forall_app in C as [C X]. apply Forall_inv in X. destruct (numeral_index x X) as (i & Hi & _).
  destruct positional as [_ P]. rewrite app_assoc, (P (a ++ c) i x Hi), (P c i x Hi), (IH C), app_length. cbn [length]. rewrite Nat2Z.inj_add, Z.pow_add_r by lia. change (10 ^ Z.of_nat 1) with 10. lia.
Qed.
Lemma front_figures ip : ip <> [] -> all_digits ip = true -> without_zeros ip -> figures 1 (digits_val ip) ip.
Proof.
  intros N D W. split; [apply all_numerals, D|]. split; [reflexivity|]. destruct ip as [|c [|c' r]]; [congruence|left; reflexivity|right; split; [cbn; lia|]].
  destruct W as [W|W]; [discriminate W|]. cbn. intros Q. injection Q as Q. exact (W c _ eq_refl Q).
Qed.
Lemma full_one s t q n : in_full s q n -> in_full t q n -> s = t.
Proof.
  intros (neg & ip & fp & N1 & D1 & D2 & W & L & E & G & V) (neg' & ip' & fp' & N1' & D1' & D2' & W' & L' & E' & G' & V').
  assert (X : neg = neg') by (destruct neg, neg'; auto; intuition discriminate). subst neg'.
  assert (Y : digits_val (ip ++ fp) = digits_val (ip' ++ fp')).
  { rewrite V in V'. assert (T : ~ ((10 # 1) ^ (- n) == 0)%Q) by (apply Qpower.Qpower_not_0; discriminate). apply (proj1 (Qmult_inj_r _ _ _ T)) in V'.
    assert (T' : ~ ((if neg then -1 # 1 else 1) == 0)%Q) by (destruct neg; discriminate). apply (proj1 (Qmult_inj_l _ _ _ T')) in V'. apply inject_Z_injective, V'. }
  apply all_numerals in D2, D2'. rewrite (digits_app ip fp D2), (digits_app ip' fp' D2') in Y. assert (Le : length fp' = length fp) by (clear - L L'; lia). rewrite Le in Y.
  pose proof (digits_bound fp D2) as B. pose proof (digits_bound fp' D2') as B'. rewrite Le in B'. set (p := 10 ^ Z.of_nat (length fp)) in *.
  assert (I : digits_val ip = digits_val ip') by nia. pose proof (front_figures ip N1 D1 W) as F. pose proof (front_figures ip' N1' D1' W') as F'. rewrite I in F.
  rewrite E, E', (figures_one _ _ _ _ F F'), (same_length fp fp' D2 D2') by lia. reflexivity.
Qed.
Lemma exponent_one b s t : with_exponent b s -> with_exponent b t -> s = t.
Proof.
  intros (c & ds & e & x & F & E & X & ->) (c' & ds' & e' & x' & F' & E' & X' & ->). pose proof (figures_one _ _ _ _ F F') as Q. injection Q as <- <-. subst e e'.
  rewrite (whole_one _ _ _ X X'). reflexivity.
Qed.
Lemma short_decided b : short b \/ ~ short b.
Proof.
  unfold short. destruct (Z_le_dec 0 (scale b)); [|right; lia]. destruct (Z_le_dec (scale b) 6); [left; auto|].
  destruct (Qlt_le_dec (Qabs.Qabs (dec_value b)) (1 # 1000000)) as [L|L]; [|left; auto]. right. intros [_ [H|H]]; [lia|]. exact (Qlt_not_le _ _ L H).
Qed.
Lemma listed_one {A} (one : A -> jstr -> Prop) l : Forall (fun x => forall s t, one x s -> one x t -> s = t) l -> forall s t, listed one l s -> listed one l t -> s = t.
Proof.
  induction 1 as [|x l H L IH]; intros s t Ls Lt; [inversion Ls; inversion Lt; reflexivity|]. destruct l as [|y l]; inversion Ls; inversion Lt; subst.
  - apply H; assumption.
  - f_equal; [apply H; assumption|f_equal]. apply IH; assumption.
Qed.
Lemma shown_one : forall v, settled v -> forall s t, shown v s -> shown v t -> s = t.
Proof.
  fix IH 1. intros v G s t. destruct v as [|b|z|z|b|k u|u|u|d|x|k items|items u|es|u]; intros Hs Ht; inversion Hs; inversion Ht; subst; try reflexivity; try congruence.
  - eapply whole_one; eassumption.
  - eapply whole_one; eassumption.
  - destruct (short_decided b); [eapply full_one|eapply exponent_one]; eauto.
  - inversion G; subst. eapply dated_one; eauto.
  - inversion G; subst. eapply timed_one; eauto.
  - do 2 f_equal. eapply (listed_one shown items); try eassumption. assert (All : Forall settled items) by (inversion G; assumption).
    clear - IH All. induction items as [|y l L]; constructor; [apply IH, (Forall_inv All)|apply L, (Forall_inv_tail All)].
  - do 2 f_equal. eapply (listed_one _ es); try eassumption. assert (All : Forall (fun e => settled (snd e)) es) by (inversion G; assumption).
    clear - IH All. induction es as [|[k y] l L]; constructor; [|apply L, (Forall_inv_tail All)]. intros s t (a & A & ->) (b & B & ->).
    do 2 f_equal. exact (IH y (Forall_inv All) a b A B).
Qed.
Lemma show_only v s : settled v -> (show v = s <-> shown v s).
Proof. intros G. split; [intros <-; apply show_shown|]. intros H. exact (shown_one v G _ _ (show_shown v) H). Qed.
