(** Proofs about version comparison. *)
From Coq Require Import ZifyBool ZifyNat ZifyN.
From Verif Require Import Base JNum Version JNumFacts.
From Coq Require Import QArith.
From Verif Require Import SpecNum SpecCompare.
Local Open Scope Z_scope.

Fixpoint item_ind' (P : item -> Prop) (fi : forall n, P (IInt n)) (fs : forall s, P (IStr s))
  (fl : forall l, Forall P l -> P (IList l)) (i : item) : P i :=
  match i with
  | IInt n => fi n
  | IStr s => fs s
  | IList l => fl l ((fix go (l : list item) : Forall P l :=
      match l with [] => Forall_nil _ | x :: l' => Forall_cons x (item_ind' P fi fs fl x) (go l') end) l)
  end.

Fixpoint rest_compare (lb : list item) : comparison :=
  match lb with
  | [] => Eq
  | r :: lb' => match CompOpp (compare_null r) with Eq => rest_compare lb' | c => c end
  end.
Fixpoint list_compare (la lb : list item) : comparison :=
  match la with
  | [] => rest_compare lb
  | l :: la' =>
      match lb with
      | [] => match compare_null l with Eq => list_compare la' [] | c => c end
      | r :: lb' => match item_compare l r with Eq => list_compare la' lb' | c => c end
      end
  end.
Lemma item_compare_list : forall la lb, item_compare (IList la) (IList lb) = list_compare la lb.
Proof.
  induction la as [|l la IH]; intros lb.
  - reflexivity.
  - destruct lb as [|r lb].
    + specialize (IH []). cbn in IH |- *. rewrite <- IH. reflexivity.
    + specialize (IH lb). cbn in IH |- *. rewrite <- IH. reflexivity.
Qed.

Lemma jstr_compare_antisym : forall a b, jstr_compare b a = CompOpp (jstr_compare a b).
Proof.
  induction a as [|x a IH]; intros [|y b]; cbn; auto. rewrite (N.compare_antisym x y).
  destruct (x ?= y)%N; cbn; auto.
Qed.
Lemma jstr_compare_refl : forall a, jstr_compare a a = Eq.
Proof. induction a; cbn; auto. rewrite N.compare_refl. auto. Qed.
Lemma jstr_compare_eq : forall a b, jstr_compare a b = Eq -> a = b.
Proof.
  induction a as [|x a IH]; intros [|y b]; cbn; intros H; try discriminate; auto.
  destruct (x ?= y)%N eqn:E; try discriminate. apply N.compare_eq in E. rewrite (IH b); congruence.
Qed.
Lemma jstr_compare_trans : forall a b c, jstr_compare a b <> Gt -> jstr_compare b c <> Gt -> jstr_compare a c <> Gt.
Proof.
  induction a as [|x a IH]; intros [|y b] [|z c]; cbn; intros H1 H2; try congruence.
  destruct (N.compare_spec x y), (N.compare_spec y z); subst; try congruence.
  - rewrite N.compare_refl. eauto.
  - rewrite (proj2 (N.compare_lt_iff _ _)) by lia. discriminate.
  - rewrite (proj2 (N.compare_lt_iff _ _)) by lia. discriminate.
  - rewrite (proj2 (N.compare_lt_iff _ _)) by lia. discriminate.
Qed.

Lemma rest_null : forall l, list_compare l [] = CompOpp (rest_compare l).
Proof. induction l as [|i l IH]; cbn; auto. destruct (compare_null i); cbn; auto. Qed.

Lemma list_compare_antisym : forall la, Forall (fun a => forall b, item_compare b a = CompOpp (item_compare a b)) la ->
  forall lb, list_compare lb la = CompOpp (list_compare la lb).
Proof.
  induction 1 as [|a la Ha Hla IH]; intros lb.
  - rewrite rest_null. reflexivity.
  - destruct lb as [|b lb].
    + rewrite rest_null, CompOpp_involutive. reflexivity.
    + cbn. rewrite Ha, IH. destruct (item_compare a b); reflexivity.
Qed.
Lemma item_compare_antisym : forall a b, item_compare b a = CompOpp (item_compare a b).
Proof.
  induction a as [n|s|la IH] using item_ind'; intros [m|t|lb]; cbn -[item_compare]; auto.
  - cbn. apply Z.compare_antisym.
  - cbn. apply jstr_compare_antisym.
  - rewrite !item_compare_list. apply list_compare_antisym; auto.
Qed.
Lemma version_compare_antisym : forall a b, version_compare b a = CompOpp (version_compare a b).
Proof. intros. apply item_compare_antisym. Qed.

(** Dotted numeric versions *)
Lemma lower_digit : forall c, is_digit c = true -> lower_char c = c.
Proof. unfold is_digit, lower_char, is_upper. intros c H. destruct ((65 <=? c) && (c <=? 90))%N eqn:E; auto. lia. Qed.
Lemma to_lower_digits : forall s, all_digits s = true -> to_lower s = s.
Proof.
  induction s as [|c s IH]; cbn; intros H; auto. apply andb_true_iff in H as [Hc Hs].
  rewrite lower_digit by auto. f_equal. apply IH; auto.
Qed.
Lemma to_lower_dotted : forall cs, to_lower (dotted cs) = dotted cs.
Proof.
  induction cs as [|c [|c' cs] IH]; auto.
  - apply to_lower_digits, print_N_digits.
  - change (dotted (c :: c' :: cs)) with (print_N c ++ J "." ++ dotted (c' :: cs)). unfold to_lower in *.
    rewrite !map_app, IH. f_equal. apply to_lower_digits, print_N_digits.
Qed.

Lemma digit_not_dot : forall c, is_digit c = true -> (c =? ch ".")%N = false /\ (c =? ch "-")%N = false.
Proof. unfold is_digit. intros. cbn. lia. Qed.
Lemma scan_digits : forall ds s outer cur buf, all_digits ds = true ->
  scan (ds ++ s) outer cur buf true = scan s outer cur (rev ds ++ buf) true.
Proof.
  induction ds as [|c ds IH]; intros s outer cur buf H; auto.
  cbn [all_digits forallb] in H. apply andb_true_iff in H as [Hc Hs].
  cbn [app scan]. destruct (digit_not_dot c Hc) as [-> ->]. rewrite Hc. rewrite IH by auto. cbn [rev]. rewrite <- app_assoc. reflexivity.
Qed.
Lemma scan_digits_start : forall ds s outer cur dig, ds <> [] -> all_digits ds = true ->
  scan (ds ++ s) outer cur [] dig = scan s outer cur (rev ds) true.
Proof.
  intros [|c ds] s outer cur dig Hn H; [congruence|].
  cbn [all_digits forallb] in H. apply andb_true_iff in H as [Hc Hs].
  cbn [app scan]. destruct (digit_not_dot c Hc) as [-> ->]. rewrite Hc. destruct dig; rewrite scan_digits by auto; reflexivity.
Qed.
Definition I (c : N) : item := IInt (Z.of_N c).
Lemma parse_item_digits : forall c, parse_item true (rev (rev (print_N c))) = I c.
Proof. intros. rewrite rev_involutive. unfold parse_item, I. rewrite print_N_val. reflexivity. Qed.
Lemma rev_nonnil : forall A (l : list A), l <> [] -> exists x r, rev l = x :: r.
Proof. intros A l H. destruct (rev l) eqn:E; eauto. exfalso. apply H. rewrite <- (rev_involutive l), E. reflexivity. Qed.

Lemma scan_dotted : forall cs outer cur dig, cs <> [] -> scan (dotted cs) outer cur [] dig = (outer, rev (map I cs) ++ cur).
Proof.
  induction cs as [|c [|c' cs] IH]; intros outer cur dig Hn; [congruence| |].
  - cbn [dotted]. rewrite <- (app_nil_r (print_N c)). rewrite scan_digits_start by auto using print_N_nonnil, print_N_digits.
    destruct (rev_nonnil _ _ (print_N_nonnil c)) as (x & r & E). cbn [scan].
    pose proof (parse_item_digits c) as P. rewrite E in P |- *. rewrite P. reflexivity.
  - change (dotted (c :: c' :: cs)) with (print_N c ++ ch "." :: dotted (c' :: cs)).
    rewrite scan_digits_start by auto using print_N_nonnil, print_N_digits.
    destruct (rev_nonnil _ _ (print_N_nonnil c)) as (x & r & E). cbn [scan].
    pose proof (parse_item_digits c) as P. rewrite E in P |- *. rewrite P.
    change ((ch "." =? ch ".")%N) with true. cbn iota. rewrite IH by discriminate. cbn [map rev].
    rewrite <- !app_assoc. reflexivity.
Qed.

Lemma parse_dotted : forall cs, cs <> [] -> parse_version (dotted cs) = rev (normalize_rev (rev (map I cs))).
Proof.
  intros. unfold parse_version. rewrite to_lower_dotted, scan_dotted by auto. cbn. rewrite app_nil_r. reflexivity.
Qed.

(** Dropping trailing zeros *)
Lemma normalize_ints : forall l, exists k r, l = repeat 0%N k ++ r /\ normalize_rev (map I l) = map I r.
Proof.
  induction l as [|c l (k & r & -> & IH)].
  - exists 0%nat, []. auto.
  - cbn [map normalize_rev item_is_null I]. destruct (Z.of_N c =? 0) eqn:E.
    + exists (S k), r. assert (c = 0%N) by lia. subst. split; auto.
    + exists 0%nat, (c :: repeat 0%N k ++ r). split; auto.
Qed.
Lemma rev_repeat : forall A (x : A) n, rev (repeat x n) = repeat x n.
Proof.
  induction n; auto. cbn. rewrite IHn. clear IHn. induction n; auto. cbn. f_equal. auto.
Qed.
Lemma parse_dotted_trim : forall cs, cs <> [] -> exists r k, cs = r ++ repeat 0%N k /\ parse_version (dotted cs) = map I r.
Proof.
  intros cs H. rewrite parse_dotted by auto. rewrite <- map_rev.
  destruct (normalize_ints (rev cs)) as (k & r & E1 & E2). exists (rev r), k. rewrite E2, <- map_rev. split; auto.
  rewrite <- (rev_involutive cs), E1, rev_app_distr, rev_repeat. reflexivity.
Qed.

Lemma rest_ints : forall b n, (length b <= n)%nat -> rest_compare (map I b) = lexicographic (repeat 0%N n) (padded n b).
Proof.
  unfold padded. induction b as [|y b IH]; intros n Hn.
  - cbn. rewrite Nat.sub_0_r. clear. induction n; auto.
  - destruct n; [cbn in Hn; lia|]. cbn [map rest_compare I compare_null length repeat app lexicographic Nat.sub].
    cbn in Hn. specialize (IH n ltac:(lia)).
    destruct y; cbn; auto.
Qed.
Lemma ints_compare : forall a b n, (length a <= n)%nat -> (length b <= n)%nat ->
  list_compare (map I a) (map I b) = lexicographic (padded n a) (padded n b).
Proof.
  induction a as [|x a IH]; intros b n Ha Hb.
  - cbn [map list_compare]. rewrite (rest_ints b n Hb). unfold padded. cbn. rewrite Nat.sub_0_r. reflexivity.
  - destruct n; [cbn in Ha; lia|]. cbn in Ha. destruct b as [|y b].
    + specialize (IH [] n ltac:(lia) ltac:(cbn; lia)). unfold padded in *. cbn [map list_compare I compare_null length repeat app lexicographic Nat.sub] in *.
      cbn [Nat.sub] in IH. rewrite Nat.sub_0_r in IH. destruct x; cbn; auto.
    + cbn in Hb. specialize (IH b n ltac:(lia) ltac:(lia)). unfold padded in *. cbn [map list_compare I length repeat app lexicographic Nat.sub] in *.
      replace (item_compare (I x) (I y)) with (x ?= y)%N by (symmetry; exact (N2Z.inj_compare x y)). rewrite IH. reflexivity.
Qed.
Lemma padded_trim : forall r k n, (length (r ++ repeat 0%N k) <= n)%nat -> padded n (r ++ repeat 0%N k) = padded n r.
Proof.
  intros r k n H. unfold padded. rewrite app_length, repeat_length in *. rewrite <- app_assoc, <- repeat_app. do 2 f_equal. lia.
Qed.

Lemma version_compare_dotted : forall a b, a <> [] -> b <> [] -> version_compare (dotted a) (dotted b) = components_compare a b.
Proof.
  intros a b Ha Hb. unfold version_compare. rewrite item_compare_list.
  destruct (parse_dotted_trim a Ha) as (r & k & Er & ->). destruct (parse_dotted_trim b Hb) as (s & m & Es & ->).
  unfold components_compare. set (n := Nat.max (length a) (length b)).
  assert (length a <= n)%nat by lia. assert (length b <= n)%nat by lia. clearbody n. subst a b.
  rewrite (ints_compare r s n), (padded_trim r k n), (padded_trim s m n); auto; rewrite app_length in *; lia.
Qed.

(** Order laws of the component-wise comparison *)
Lemma lex_refl : forall a, lexicographic a a = Eq.
Proof. induction a; cbn; auto. rewrite N.compare_refl. auto. Qed.
Lemma lex_antisym : forall a b, lexicographic b a = CompOpp (lexicographic a b).
Proof.
  induction a as [|x a IH]; intros [|y b]; cbn; auto. rewrite (N.compare_antisym x y).
  destruct (x ?= y)%N; cbn; auto.
Qed.
Lemma lex_trans : forall a b c, length a = length b -> length b = length c ->
  lexicographic a b <> Gt -> lexicographic b c <> Gt -> lexicographic a c <> Gt.
Proof.
  induction a as [|x a IH]; intros [|y b] [|z c]; cbn; intros L1 L2 H1 H2; try congruence.
  destruct (N.compare_spec x y), (N.compare_spec y z); subst; try congruence.
  - rewrite N.compare_refl. eauto.
  - rewrite (proj2 (N.compare_lt_iff _ _)) by lia. discriminate.
  - rewrite (proj2 (N.compare_lt_iff _ _)) by lia. discriminate.
  - rewrite (proj2 (N.compare_lt_iff _ _)) by lia. discriminate.
Qed.
Lemma lex_zeros : forall a b k m, length a = length b -> lexicographic (a ++ repeat 0%N k) (b ++ repeat 0%N m) = lexicographic a b.
Proof.
  induction a as [|x a IH]; intros [|y b] k m H; try discriminate H.
  - cbn. revert m. induction k; intros [|m]; cbn; auto.
  - cbn. rewrite IH by (cbn in H; lia). reflexivity.
Qed.
Lemma components_any : forall a b n, (length a <= n)%nat -> (length b <= n)%nat -> components_compare a b = lexicographic (padded n a) (padded n b).
Proof.
  intros a b n Ha Hb. unfold components_compare. set (m := Nat.max (length a) (length b)).
  assert (P : forall l, (length l <= m)%nat -> (m <= n)%nat -> padded n l = padded m l ++ repeat 0%N (n - m)).
  { intros l H1 H2. unfold padded. rewrite <- app_assoc, <- repeat_app. do 2 f_equal. lia. }
  rewrite (P a), (P b) by lia. rewrite lex_zeros; auto. unfold padded. rewrite !app_length, !repeat_length. lia.
Qed.
Lemma components_refl : forall a, components_compare a a = Eq.
Proof. intros. apply lex_refl. Qed.
Lemma components_antisym : forall a b, components_compare b a = CompOpp (components_compare a b).
Proof. intros. unfold components_compare. rewrite Nat.max_comm. apply lex_antisym. Qed.
Lemma components_trans : forall a b c, components_compare a b <> Gt -> components_compare b c <> Gt -> components_compare a c <> Gt.
Proof.
  intros a b c. set (n := Nat.max (length a) (Nat.max (length b) (length c))).
  rewrite (components_any a b n), (components_any b c n), (components_any a c n) by lia.
  apply lex_trans; unfold padded; rewrite !app_length, !repeat_length; lia.
Qed.
