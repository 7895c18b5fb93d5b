(** The characters one by one. *)
From Verif Require Import Base JNum JNumFacts SpecAlphabet.
Local Open Scope N_scope.

Lemma between a b c (l : jstr) : (forall k, In k (seq 0 (N.to_nat (b - a) + 1)) -> In (a + N.of_nat k) l) -> Forall (fun c => a <= c /\ c <= b) l -> (a <= c /\ c <= b <-> In c l).
Proof.
  intros H F. split.
  - intros [L U]. specialize (H (N.to_nat (c - a))). replace (a + N.of_nat (N.to_nat (c - a))) with c in H by lia. apply H, in_seq. lia.
  - intros I. rewrite Forall_forall in F. apply F, I.
Qed.
Ltac one_by_one := apply between; [intros k Hk; vm_compute in Hk; repeat (destruct Hk as [<-|Hk]; [vm_compute; tauto|]); contradiction|repeat constructor; discriminate].
Lemma digit_characters c : is_digit c = true <-> In c numerals.
Proof. unfold is_digit. rewrite andb_true_iff, !N.leb_le. one_by_one. Qed.
Lemma upper_characters c : is_upper c = true <-> In c capitals.
Proof. unfold is_upper. rewrite andb_true_iff, !N.leb_le. one_by_one. Qed.
Lemma lower_characters c : is_lower c = true <-> In c small_letters.
Proof. unfold is_lower. rewrite andb_true_iff, !N.leb_le. one_by_one. Qed.
Lemma characters c : (is_digit c = true <-> In c numerals) /\ (is_upper c = true <-> In c capitals) /\ (is_lower c = true <-> In c small_letters).
Proof. exact (conj (digit_characters c) (conj (upper_characters c) (lower_characters c))). Qed.

Lemma capital_place i c : nth_error capitals i = Some c -> c = 65 + N.of_nat i /\ nth_error small_letters i = Some (c + 32).
Proof. intros H. do 26 (destruct i as [|i]; [injection H as <-; split; reflexivity|]). destruct i; discriminate. Qed.
Lemma lower_unique c d : lowers c d <-> d = lower_char c.
Proof.
  unfold lower_char. destruct (is_upper c) eqn:U.
  - apply upper_characters in U. destruct (In_nth_error _ _ U) as [i Hi]. split.
    + intros [[j [Hj Hd]]|[N _]]; [|contradiction]. destruct (capital_place j c Hj) as [_ E]. congruence.
    + intros ->. left. exists i. split; [exact Hi|]. apply capital_place, Hi.
  - assert (N : ~ In c capitals) by (rewrite <- upper_characters; congruence). split.
    + intros [[j [Hj _]]|[_ E]]; [|exact E]. exfalso. apply N, (nth_error_In _ _ Hj).
    + intros ->. right. auto.
Qed.
Lemma lower_text s t : to_lower s = t <-> Forall2 lowers s t.
Proof.
  unfold to_lower. revert t. induction s as [|c s IH]; intros t; cbn [map].
  - split; [intros <-; constructor|inversion 1; reflexivity].
  - split.
    + intros <-. constructor; [apply lower_unique; reflexivity|apply IH; reflexivity].
    + inversion 1 as [|? d ? t' L F]; subst. apply lower_unique in L. apply IH in F. congruence.
Qed.

Local Open Scope Z_scope.
Lemma numeral_place i c : nth_error numerals i = Some c -> digit_val c = Z.of_nat i.
Proof. intros H. do 10 (destruct i as [|i]; [injection H as <-; reflexivity|]). destruct i; discriminate. Qed.
Lemma positional : digits_val [] = 0 /\ forall s i c, nth_error numerals i = Some c -> digits_val (s ++ [c]) = 10 * digits_val s + Z.of_nat i.
Proof.
  split; [reflexivity|]. intros s i c H. unfold digits_val. rewrite fold_left_app. cbn [fold_left]. rewrite (numeral_place i c H). lia.
Qed.
Lemma all_numerals s : all_digits s = true <-> Forall (fun c => In c numerals) s.
Proof. unfold all_digits. rewrite forallb_forall, Forall_forall. split; intros H c I; apply digit_characters, H, I. Qed.
Lemma printed z : exists ds, ds <> [] /\ Forall (fun c => In c numerals) ds /\ (ds = J "0" \/ nth_error ds 0 <> Some (ch "0")) /\ digits_val ds = Z.abs z /\
  print_Z z = (if z <? 0 then J "-" else []) ++ ds.
Proof.
  exists (print_N (Z.abs_N z)). split; [apply print_N_nonnil|]. split; [apply all_numerals, print_N_digits|]. split; [|split].
  - destruct (print_N (Z.abs_N z)) as [|c r] eqn:E; [right; discriminate|]. destruct (N.eq_dec c 48) as [->|D]; [|right; cbn; congruence].
    destruct (print_N_no_zero _ _ E) as [_ ->]. left. reflexivity.
  - rewrite print_N_val. lia.
  - unfold print_Z. destruct (Z.ltb_spec z 0); cbn [app J]; [change (ch "-" :: print_N (Z.to_N (- z)) = ch "-" :: print_N (Z.abs_N z)); do 2 f_equal; lia|]. f_equal. lia.
Qed.
