(** C28, C30, C48: dates. *)
From Coq Require Import ZifyBool.
From Verif Require Import Base JNum BigDec Dates Version Values Ops Funcs Ast Eval SpecNum SpecCompare SpecArith SpecFunc SpecDate JNumFacts BigDecFacts NumFacts CompareFacts OrderFacts FieldFacts ArithFacts FuncFacts.
Local Open Scope Z_scope.

(** The calendar *)
Lemma leap_iff : forall y, is_leap y = true <-> leap y.
Proof.
  intros y. unfold is_leap, leap. rewrite andb_true_iff, orb_true_iff, negb_true_iff, !Z.eqb_eq, Z.eqb_neq. rewrite !(Z.mod_divide y) by discriminate. reflexivity.
Qed.
Lemma month_length_days : forall y m, 1 <= m <= 12 -> month_days y m (month_length y m).
Proof.
  intros y m H. unfold month_length. assert (C : m = 1 \/ m = 2 \/ m = 3 \/ m = 4 \/ m = 5 \/ m = 6 \/ m = 7 \/ m = 8 \/ m = 9 \/ m = 10 \/ m = 11 \/ m = 12) by lia.
  repeat (destruct C as [->|C]); try subst m; cbn; try (apply days31; cbn; tauto); try (apply days30; cbn; tauto).
  destruct (is_leap y) eqn:L; [apply days29, leap_iff; auto|]. apply days28. intros X. apply leap_iff in X. congruence.
Qed.
Lemma days_month_length : forall y m n, month_days y m n -> 1 <= m <= 12 /\ n = month_length y m.
Proof.
  intros y m n H. destruct H as [m H|m H|H|H].
  - cbn in H. repeat (destruct H as [<-|H]; [split; [lia|reflexivity]|]). destruct H.
  - cbn in H. repeat (destruct H as [<-|H]; [split; [lia|reflexivity]|]). destruct H.
  - split; [lia|]. unfold month_length. cbn. apply leap_iff in H. rewrite H. reflexivity.
  - split; [lia|]. unfold month_length. cbn. destruct (is_leap y) eqn:L; auto. apply leap_iff in L. tauto.
Qed.
Lemma month_days_unique : forall y m n n', month_days y m n -> month_days y m n' -> n = n'.
Proof. intros y m n n' H H'. apply days_month_length in H as [_ ->], H' as [_ ->]. reflexivity. Qed.

(** Days before the year, the month *)
Definition before_year (y : Z) : Z := 365 * y + ((y + 3) / 4 - (y + 99) / 100 + (y + 399) / 400).
Lemma quot_ceil : forall y k, y < 0 -> 0 < k -> - Z.quot y (- k) = (y + (k - 1)) / k.
Proof.
  intros y k Hy Hk. replace (Z.quot y (- k)) with (Z.quot (- y) k).
  2: { rewrite Z.quot_opp_l, Z.quot_opp_r by lia. reflexivity. }
  rewrite Z.quot_div_nonneg by lia. 
  pose proof (Z.div_mod (- y) k ltac:(lia)). pose proof (Z.mod_pos_bound (- y) k Hk). pose proof (Z.div_mod (y + (k - 1)) k ltac:(lia)). pose proof (Z.mod_pos_bound (y + (k - 1)) k Hk). nia.
Qed.
Definition before_month (y m : Z) : Z := (367 * m - 362) / 12 - (if 2 <? m then (if is_leap y then 1 else 2) else 0).
Lemma epoch_alt : forall a, to_epoch_day a = before_year (year a) + before_month (year a) (month a) + day a - 719529.
Proof.
  intros [y m d]. unfold to_epoch_day, before_year, before_month. cbn [year month day]. cbv zeta.
  replace (if 0 <=? y then 365 * y + ((y + 3) / 4 - (y + 99) / 100 + (y + 399) / 400) else 365 * y - (Z.quot y (-4) - Z.quot y (-100) + Z.quot y (-400)))
    with (365 * y + ((y + 3) / 4 - (y + 99) / 100 + (y + 399) / 400)).
  - destruct (2 <? m); [destruct (is_leap y)|]; lia.
  - destruct (0 <=? y) eqn:P; auto. assert (N : y < 0) by lia.
    pose proof (quot_ceil y 4 N ltac:(lia)). pose proof (quot_ceil y 100 N ltac:(lia)). pose proof (quot_ceil y 400 N ltac:(lia)).
    change (- (4)) with (-4) in *. change (- (100)) with (-100) in *. change (- (400)) with (-400) in *. change (4 - 1) with 3 in *. change (100 - 1) with 99 in *. change (400 - 1) with 399 in *. lia.
Qed.
Lemma year_step : forall y, before_year (y + 1) = before_year y + (if is_leap y then 366 else 365).
Proof.
  intros y. unfold before_year, is_leap. destruct (y mod 4 =? 0) eqn:A, (y mod 100 =? 0) eqn:B, (y mod 400 =? 0) eqn:C; cbn [negb orb andb]; lia.
Qed.
Lemma month_step : forall y m, 1 <= m <= 11 -> before_month y (m + 1) = before_month y m + month_length y m.
Proof.
  intros y m H. assert (C : m = 1 \/ m = 2 \/ m = 3 \/ m = 4 \/ m = 5 \/ m = 6 \/ m = 7 \/ m = 8 \/ m = 9 \/ m = 10 \/ m = 11) by lia.
  unfold before_month, month_length. destruct (is_leap y); repeat (destruct C as [->|C]); try subst m; reflexivity.
Qed.
Lemma month_first : forall y, before_month y 1 = 0. Proof. reflexivity. Qed.
Lemma month_last : forall y, before_month y 12 + 31 = if is_leap y then 366 else 365.
Proof. intros y. unfold before_month. destruct (is_leap y); reflexivity. Qed.

Lemma tomorrow_epoch : forall a b, tomorrow a b -> to_epoch_day b = to_epoch_day a + 1.
Proof.
  intros a b H. rewrite !epoch_alt. destruct H as [y m d n M D|y m n M L|y]; cbn [year month day].
  - lia.
  - apply days_month_length in M as [M ->]. rewrite month_step by lia. lia.
  - rewrite year_step, month_first. pose proof (month_last y). lia.
Qed.
Lemma tomorrow_calendar : forall a b, tomorrow a b -> calendar b.
Proof.
  intros a b H. destruct H as [y m d n M D|y m n M L|y]; unfold calendar; cbn [year month day].
  - exists n. split; auto. lia.
  - apply days_month_length in M as [M _]. exists (month_length y (m + 1)). split; [apply month_length_days; lia|]. unfold month_length. destruct (m + 1 =? 2), (is_leap y), ((m + 1 =? 4) || (m + 1 =? 6) || (m + 1 =? 9) || (m + 1 =? 11)); lia.
  - exists 31. split; [apply days31; cbn; tauto|lia].
Qed.
Lemma tomorrow_exists : forall a, calendar a -> exists b, tomorrow a b.
Proof.
  intros [y m d] (n & M & D). cbn [year month day] in *. destruct (Z.eq_dec d n) as [->|N].
  - pose proof (days_month_length _ _ _ M) as [Hm En]. destruct (Z.eq_dec m 12) as [->|N].
    + assert (n = 31) as -> by (rewrite En; reflexivity). eexists. apply next_year.
    + eexists. eapply next_month; [exact M|lia].
  - eexists. eapply same_month; [exact M|lia].
Qed.
Lemma next_day_tomorrow : forall a, calendar a -> tomorrow a (next_day a).
Proof.
  intros [y m d] (n & M & D). cbn [year month day] in *. pose proof (days_month_length _ _ _ M) as [Hm En]. unfold next_day. cbn [year month day]. rewrite <- En.
  destruct (d <? n) eqn:L.
  - eapply same_month; [exact M|lia].
  - assert (d = n) as -> by lia. destruct (m <? 12) eqn:K.
    + eapply next_month; [exact M|lia].
    + assert (m = 12) as -> by lia. assert (n = 31) as -> by (rewrite En; reflexivity). apply next_year.
Qed.
Lemma tomorrow_unique : forall a b c, tomorrow a b -> tomorrow a c -> b = c.
Proof.
  intros a b c H K. assert (G : forall a b, tomorrow a b -> b = next_day a).
  { clear. intros a b H. destruct H as [y m d n M D|y m n M L|y]; unfold next_day; cbn [year month day].
    - apply days_month_length in M as [_ ->]. destruct (d <? month_length y m) eqn:X; auto. lia.
    - apply days_month_length in M as [Hm ->]. rewrite Z.ltb_irrefl. destruct (m <? 12) eqn:X; auto. lia.
    - reflexivity. }
  rewrite (G _ _ H), (G _ _ K). reflexivity.
Qed.

(** Chronological order is the lexicographic order *)
Lemma month_mono : forall y m m', 1 <= m -> m <= m' -> m' <= 12 -> before_month y m <= before_month y m'.
Proof.
  intros y m m' H1 H2 H3. replace m' with (m + Z.of_nat (Z.to_nat (m' - m))) in * by lia. generalize dependent (Z.to_nat (m' - m)). intros k _ Hk.
  induction k as [|k IH]; [rewrite Z.add_0_r; lia|]. replace (m + Z.of_nat (S k)) with (m + Z.of_nat k + 1) in * by lia. rewrite month_step by lia.
  unfold month_length. specialize (IH ltac:(lia)). destruct (_ =? 2); [destruct (is_leap y); lia|]. destruct (_ || _); lia.
Qed.
Lemma year_mono : forall y y', y <= y' -> before_year y <= before_year y'.
Proof.
  intros y y' H. replace y' with (y + Z.of_nat (Z.to_nat (y' - y))) by lia. generalize (Z.to_nat (y' - y)). intros k. induction k as [|k IH]; [rewrite Z.add_0_r; lia|].
  replace (y + Z.of_nat (S k)) with (y + Z.of_nat k + 1) by lia. rewrite year_step. destruct (is_leap _); lia.
Qed.
Lemma month_strict : forall y m m', 1 <= m -> m < m' -> m' <= 12 -> before_month y m + month_length y m <= before_month y m'.
Proof. intros y m m' H1 H2 H3. rewrite <- month_step by lia. apply month_mono; lia. Qed.
Lemma in_year : forall y m d n, month_days y m n -> 1 <= d <= n -> 1 <= before_month y m + d <= if is_leap y then 366 else 365.
Proof.
  intros y m d n M D. apply days_month_length in M as [Hm ->]. pose proof (month_mono y 1 m ltac:(lia) ltac:(lia) ltac:(lia)). rewrite month_first in *.
  split; [lia|]. rewrite <- month_last. destruct (Z.eq_dec m 12) as [->|N]; [change (month_length y 12) with 31 in D; lia|].
  pose proof (month_strict y m 12 ltac:(lia) ltac:(lia) ltac:(lia)). lia.
Qed.
Lemma epoch_compare : forall a b, calendar a -> calendar b -> date_compare a b = (to_epoch_day a ?= to_epoch_day b).
Proof.
  intros [y m d] [y' m' d'] (n & M & D) (n' & M' & D'). rewrite !epoch_alt. unfold date_compare. cbn [year month day] in *.
  pose proof (in_year y m d n M D) as I. pose proof (in_year y' m' d' n' M' D') as I'. symmetry.
  pose proof (days_month_length _ _ _ M) as [Hm En]. pose proof (days_month_length _ _ _ M') as [Hm' En'].
  destruct (Z.compare_spec y y') as [<-|L|L].
  - destruct (Z.compare_spec m m') as [<-|L|L].
    + destruct (Z.compare_spec d d') as [<-|L|L]; [apply Z.compare_eq_iff|apply Z.compare_lt_iff|apply Z.compare_gt_iff]; lia.
    + apply Z.compare_lt_iff. pose proof (month_strict y m m' ltac:(lia) L ltac:(lia)). lia.
    + apply Z.compare_gt_iff. pose proof (month_strict y m' m ltac:(lia) L ltac:(lia)). lia.
  - apply Z.compare_lt_iff. pose proof (year_mono (y + 1) y' ltac:(lia)) as Y. rewrite year_step in Y. lia.
  - apply Z.compare_gt_iff. pose proof (year_mono (y' + 1) y ltac:(lia)) as Y. rewrite year_step in Y. lia.
Qed.
Lemma date_compare_eq : forall a b, date_compare a b = Eq -> a = b.
Proof.
  intros [y m d] [y' m' d'] H. unfold date_compare in H. cbn [year month day] in H. destruct (Z.compare_spec y y') as [<-|L|L]; try discriminate H.
  destruct (Z.compare_spec m m') as [<-|L|L]; try discriminate H. destruct (Z.compare_spec d d') as [L|L|L]; try discriminate H. congruence.
Qed.
Lemma epoch_injective : forall a b, calendar a -> calendar b -> to_epoch_day a = to_epoch_day b -> a = b.
Proof. intros a b A B H. apply date_compare_eq. rewrite epoch_compare by auto. apply Z.compare_eq_iff; auto. Qed.

Lemma steps_epoch : forall n a b, steps n a b -> to_epoch_day b = to_epoch_day a + Z.of_nat n.
Proof. intros n a b H. induction H as [a|n a b c T S IH]; [lia|]. apply tomorrow_epoch in T. lia. Qed.
Lemma steps_exist : forall n a b, calendar a -> calendar b -> to_epoch_day b = to_epoch_day a + Z.of_nat n -> steps n a b.
Proof.
  induction n as [|n IH]; intros a b A B H.
  - assert (a = b) as -> by (apply epoch_injective; auto; lia). constructor.
  - destruct (tomorrow_exists a A) as [c T]. econstructor; [exact T|]. apply IH; auto; [eapply tomorrow_calendar; eauto|]. apply tomorrow_epoch in T. lia.
Qed.
Lemma days_later_epoch : forall k a b, days_later k a b -> k = to_epoch_day b - to_epoch_day a.
Proof. intros k a b [[P H]|[P H]]; apply steps_epoch in H; lia. Qed.
Lemma days_later_exist : forall a b, calendar a -> calendar b -> days_later (to_epoch_day b - to_epoch_day a) a b.
Proof.
  intros a b A B. destruct (Z_lt_le_dec (to_epoch_day b - to_epoch_day a) 0) as [L|L]; [right|left]; (split; [lia|]); apply steps_exist; auto; lia.
Qed.

(** DAYS_ELAPSED *)
Lemma elapsed_call : forall E d n v, arith_eval E d n = Ok v -> get_data_type v = DATE -> arith_eval E d (NFunc F_DAYS_ELAPSED [n]) = eval_days_elapsed E [(v, DATE)].
Proof.
  intros E d n v H T. rewrite (function_arguments E d F_DAYS_ELAPSED [n] [v]).
  - unfold evaluate_function. cbn [typed map length Nat.ltb Nat.leb func_containers existsb container_eqb orb negb forallb snd]. rewrite T. cbn [mem_type existsb func_types dtype_eqb orb andb negb validate_items].
    replace (is_valid DATE v) with (Ok true); [reflexivity|]. destruct v; try discriminate T; [|reflexivity]. cbn in T |- *. destruct (parse_datetime s); [discriminate T|]. destruct (parse_date s); [reflexivity|discriminate T].
  - exists [v]. split; [constructor; auto|]. destruct v; try discriminate T; reflexivity.
Qed.
Lemma elapsed_date : forall E d n a, arith_eval E d n = Ok (VDate a) -> calendar a -> calendar (today E) ->
  exists k, arith_eval E d (NFunc F_DAYS_ELAPSED [n]) = Ok (VLong k) /\ days_later k a (today E) /\ (forall k', days_later k' a (today E) -> k' = k).
Proof.
  intros E d n a H A T. rewrite (elapsed_call E d n _ H eq_refl). eexists. split; [reflexivity|]. split; [apply days_later_exist; auto|]. intros k' K. apply days_later_epoch; auto.
Qed.

(** Text *)
Lemma digits2 : forall a b, digits_val [a; b] = digit_val a * 10 + digit_val b.
Proof. intros. unfold digits_val. cbn [fold_left]. lia. Qed.
Lemma take2_spec : forall s n r, take2 s = Some (n, r) <-> exists a, numeral 2 n a /\ s = a ++ r.
Proof.
  intros s n r. split.
  - intros H. destruct s as [|a [|b s]]; try discriminate H. cbn [take2] in H. destruct (is_digit a && is_digit b) eqn:D; [|discriminate H]. injection H as <- <-.
    exists [a; b]. split; [|reflexivity]. split; [reflexivity|]. split; [|apply digits2]. unfold all_digits. cbn. rewrite andb_true_r. exact D.
  - intros (a & (L & D & V) & ->). destruct a as [|x [|y [|]]]; try discriminate L. cbn [app take2]. unfold all_digits in D. cbn in D. rewrite andb_true_r in D. rewrite D, <- V, digits2. reflexivity.
Qed.
Lemma expect_spec : forall c s r, expect c s = Some r <-> s = c :: r.
Proof.
  intros c s r. destruct s as [|x s]; cbn; [split; discriminate|]. destruct (N.eqb_spec x c) as [->|N].
  - split; intros H; injection H as <-; reflexivity.
  - split; intros H; [discriminate H|congruence].
Qed.
Lemma digit_not : forall c, is_digit c = true -> (c =? ch "+")%N = false /\ (c =? ch "-")%N = false.
Proof. intros c H. unfold is_digit in H. change (ch "+") with 43%N. change (ch "-") with 45%N. lia. Qed.
Lemma dash_not_digit : is_digit (ch "-") = false. Proof. reflexivity. Qed.
Lemma take_year_spec : forall s y r, take_year false 19 s = Some (y, J "-" ++ r) <-> exists a, year_text y a /\ s = a ++ J "-" ++ r.
Proof.
  intros s y r. split.
  - intros H. destruct s as [|c s]; [discriminate H|]. cbn [take_year] in H. destruct (c =? ch "+")%N eqn:P.
    + destruct (span is_digit s) as [ds rest] eqn:S. destruct (_ && _) eqn:L in H; [|discriminate H]. injection H as Hy ->. apply span_spec in S as (-> & D & _).
      apply N.eqb_eq in P as ->. apply andb_true_iff in L as [L1 L2]. apply Nat.ltb_lt in L1. apply Nat.leb_le in L2. exists (ch "+" :: ds). split; [|reflexivity]. right. exists ds.
      split; [reflexivity|]. split; [lia|]. split; auto.
    + destruct (c =? ch "-")%N; [discriminate H|]. destruct (span is_digit (c :: s)) as [ds rest] eqn:S. destruct (_ =? 4)%nat eqn:L in H; [|discriminate H]. injection H as Hy ->.
      apply span_spec in S as (-> & D & _). apply Nat.eqb_eq in L. exists ds. split; [left; split; auto|reflexivity].
  - intros (a & [(L & D & V)|(ds & -> & L & (_ & D & V))] & ->).
    + destruct a as [|c a]; [discriminate L|]. cbn [app take_year]. assert (Dc : is_digit c = true) by (cbn in D; apply andb_true_iff in D; tauto).
      destruct (digit_not c Dc) as [-> ->]. assert (S : span is_digit ((c :: a) ++ ch "-" :: r) = (c :: a, ch "-" :: r)) by (apply span_stop; auto using dash_not_digit). change (c :: a ++ J "-" ++ r) with ((c :: a) ++ ch "-" :: r). rewrite S, L. cbn [Nat.eqb]. rewrite V. reflexivity.
    + change ((J "+" ++ ds) ++ J "-" ++ r) with (ch "+" :: ds ++ ch "-" :: r). cbn [take_year]. change (ch "+" =? ch "+")%N with true. cbn iota. assert (S : span is_digit (ds ++ ch "-" :: r) = (ds, ch "-" :: r)) by (apply span_stop; auto using dash_not_digit). change (ds ++ J "-" ++ r) with (ds ++ ch "-" :: r). rewrite S.
      destruct (4 <? length ds)%nat eqn:L1; [|apply Nat.ltb_ge in L1; lia]. destruct (length ds <=? 19)%nat eqn:L2; [|apply Nat.leb_gt in L2; lia]. cbn [andb]. rewrite V. reflexivity.
Qed.
Lemma obind_some : forall A B (o : option A) (k : A -> option B) b, obind o k = Some b <-> exists a, o = Some a /\ k a = Some b.
Proof. intros A B [a|] k b; cbn; split; [eauto|intros (a' & H & K); injection H as ->; auto|discriminate|intros (a' & H & _); discriminate H]. Qed.
Lemma parse_ymd_spec : forall s y m d r, parse_ymd false 19 s = Some (y, m, d, r) <-> exists p, ymd_text y m d p /\ s = p ++ r.
Proof.
  intros s y m d r. unfold parse_ymd. split.
  - intros H. apply obind_some in H as ([y' r1] & H1 & H). apply obind_some in H as (r2 & H2 & H). apply obind_some in H as ([m' r3] & H3 & H).
    apply obind_some in H as (r4 & H4 & H). apply obind_some in H as ([d' r5] & H5 & H). injection H as -> -> -> ->.
    apply expect_spec in H2 as ->. change (ch "-" :: r2) with (J "-" ++ r2) in H1. apply take_year_spec in H1 as (a & Ya & ->).
    apply take2_spec in H3 as (b & Nb & ->). apply expect_spec in H4 as ->. apply take2_spec in H5 as (c & Nc & ->).
    exists (a ++ J "-" ++ b ++ J "-" ++ c). split; [exists a, b, c; auto|]. change (ch "-" :: c ++ r) with (J "-" ++ c ++ r). rewrite <- !app_assoc. reflexivity.
  - intros (p & (a & b & c & Ya & Nb & Nc & ->) & ->). rewrite <- !app_assoc.
    apply obind_some. exists (y, J "-" ++ b ++ J "-" ++ c ++ r). split; [apply take_year_spec; eauto|].
    apply obind_some. exists (b ++ J "-" ++ c ++ r). split; [apply expect_spec; reflexivity|].
    apply obind_some. exists (m, J "-" ++ c ++ r). split; [apply take2_spec; eauto|].
    apply obind_some. exists (c ++ r). split; [apply expect_spec; reflexivity|].
    apply obind_some. exists (d, r). split; [apply take2_spec; eauto|reflexivity].
Qed.
Lemma month_length_range : forall y m, 28 <= month_length y m <= 31.
Proof. intros. unfold month_length. destruct (m =? 2); [destruct (is_leap y); lia|]. destruct (_ || _); lia. Qed.
Lemma smart_resolve_spec : forall y m d a, smart_resolve y m d = Some a <-> exists n, 1 <= y <= 999999999 /\ month_days y m n /\ 1 <= d <= 31 /\ a = Date y m (Z.min d n).
Proof.
  intros y m d a. unfold smart_resolve, max_year. split.
  - intros H. destruct (_ && _) eqn:C in H; [|discriminate H]. injection H as <-. exists (month_length y m). split; [lia|]. split; [apply month_length_days; lia|]. split; [lia|reflexivity].
  - intros (n & Y & M & D & ->). apply days_month_length in M as [M ->]. destruct (_ && _) eqn:C; [reflexivity|lia].
Qed.
Lemma parse_date_spec : forall s a, parse_date s = Some a <-> written_date s a.
Proof.
  intros s a. unfold parse_date, written_date. split.
  - intros H. apply obind_some in H as ([[[y m] d] r] & H1 & H). destruct r; [|discriminate H]. apply parse_ymd_spec in H1 as (p & P & ->). apply smart_resolve_spec in H as (n & H).
    rewrite app_nil_r. exists y, m, d, n. tauto.
  - intros (y & m & d & n & P & H). apply obind_some. exists (y, m, d, []). split; [apply parse_ymd_spec; exists s; rewrite app_nil_r; auto|]. apply smart_resolve_spec. eauto.
Qed.
Lemma date_not_datetime : forall s a, parse_date s = Some a -> parse_datetime s = None.
Proof.
  intros s a H. unfold parse_date, parse_datetime in *. destruct (parse_ymd false 19 s) as [[[[y m] d] r]|]; [|reflexivity]. cbn [obind] in *. destruct r; [reflexivity|discriminate H].
Qed.
Lemma written_type : forall s, get_data_type (VStr s) = DATE <-> exists a, written_date s a.
Proof.
  intros s. cbn. split.
  - intros H. destruct (parse_datetime s); [discriminate H|]. destruct (parse_date s) eqn:P; [|discriminate H]. apply parse_date_spec in P. eauto.
  - intros (a & H). apply parse_date_spec in H. rewrite (date_not_datetime s a H), H. reflexivity.
Qed.
Lemma written_value : forall s a, get_value DATE (VStr s) = Ok (Some (VDate a)) <-> written_date s a.
Proof.
  intros s a. rewrite <- parse_date_spec. cbn. destruct (parse_date s) as [b|]; cbn; split; intros H; try discriminate H; injection H as ->; reflexivity.
Qed.
Lemma written_calendar : forall s a, written_date s a -> calendar a.
Proof.
  intros s a (y & m & d & n & P & Y & M & D & ->). exists n. cbn [year month day]. split; auto. apply days_month_length in M as [_ ->]. pose proof (month_length_range y m). lia.
Qed.
Lemma denotes_primitive : forall v a, denotes_date v a -> v <> VNull /\ get_data_type v = DATE /\ is_valid DATE v = Ok true /\ primitive_value DATE v = Ok (VDate a) /\ calendar a.
Proof.
  intros v a [[-> C]|(s & -> & W)].
  - repeat split; auto; try discriminate.
  - pose proof W as P. apply parse_date_spec in P. split; [discriminate|]. split; [apply written_type; eauto|]. unfold primitive_value. cbn. rewrite P. split; [reflexivity|]. split; [reflexivity|]. eapply written_calendar; eauto.
Qed.
Lemma compare_shift : forall a b, (a ?= b) = (0 ?= b - a).
Proof. intros a b. destruct (Z.compare_spec a b), (Z.compare_spec 0 (b - a)); auto; lia. Qed.
Lemma date_order : forall E d l r op dt v w a b, yields E d l v -> yields E d r w -> denotes_date v a -> denotes_date w b ->
  exists k, days_later k a b /\ forall x, accepts op (0 ?= k) = Some x -> bool_eval E d (NCmp l r op dt) = Ok x.
Proof.
  intros E d l r op dt v w a b L R A B. destruct (denotes_primitive v a A) as (_ & Tv & Vv & Pv & Ca). destruct (denotes_primitive w b B) as (_ & Tw & Vw & Pw & Cb).
  exists (to_epoch_day b - to_epoch_day a). split; [apply days_later_exist; auto|]. intros x X. rewrite (cmp_yields E d l r op dt v w L R), Tv, Tw.
  eapply logical_same with (v' := VDate a) (w' := VDate b) (c := date_compare a b); eauto; [discriminate|]. rewrite epoch_compare, compare_shift by auto. exact X.
Qed.
Lemma days_later_unique : forall k k' a b, days_later k a b -> days_later k' a b -> k = k'.
Proof. intros k k' a b H H'. apply days_later_epoch in H, H'. congruence. Qed.

(** DAYS_ELAPSED of text *)
Lemma plain_ymd : forall y m d s, plain_text y m d s -> ymd_text y m d s.
Proof. intros y m d s (a & b & c & A & H). exists a, b, c. split; [left; auto|auto]. Qed.
Lemma plain_iso : forall y m d s, plain_text y m d s -> parse_ymd true 10 s = Some (y, m, d, []).
Proof.
  intros y m d s H. pose proof (plain_ymd _ _ _ _ H) as P. assert (Q : parse_ymd false 19 s = Some (y, m, d, [])) by (apply parse_ymd_spec; exists s; rewrite app_nil_r; auto).
  rewrite <- Q. unfold parse_ymd. f_equal. destruct H as (a & b & c & (L & D & _) & _ & _ & ->). destruct a as [|x a]; [discriminate L|]. cbn [app take_year].
  assert (Dx : is_digit x = true) by (cbn in D; apply andb_true_iff in D; tauto). destruct (digit_not x Dx) as [-> ->]. reflexivity.
Qed.
Lemma plain_written : forall y m d s n, plain_text y m d s -> 1 <= y -> month_days y m n -> 1 <= d <= 31 -> written_date s (Date y m (Z.min d n)).
Proof.
  intros y m d s n P Y M D. exists y, m, d, n. split; [apply plain_ymd; auto|]. split; [|auto]. split; auto.
  destruct P as (a & b & c & (L & Da & V) & _). subst y. assert (G : digits_val a <= 9999); [|lia].
  destruct a as [|x1 [|x2 [|x3 [|x4 [|]]]]]; try discriminate L. unfold all_digits in Da. cbn in Da. unfold digits_val, digit_val, is_digit in *. cbn [fold_left]. lia.
Qed.
Lemma elapsed_text : forall E d n y m dd s, arith_eval E d n = Ok (VStr s) -> plain_text y m dd s -> 1 <= y -> calendar (Date y m dd) ->
  arith_eval E d (NFunc F_DAYS_ELAPSED [n]) = arith_eval E d (NFunc F_DAYS_ELAPSED [lit (VDate (Date y m dd))]).
Proof.
  intros E d n y m dd s H P Y (k & M & D). cbn [year month day] in *.
  pose proof (days_month_length _ _ _ M) as [Hm Ek]. pose proof (month_length_range y m). assert (W : written_date s (Date y m (Z.min dd k))) by (apply plain_written; auto; lia).
  rewrite (elapsed_call E d n (VStr s) H) by (apply written_type; eauto). rewrite (elapsed_call E d (lit (VDate (Date y m dd))) (VDate (Date y m dd)) eq_refl eq_refl).
  assert (Ym : y <= 999999999) by (destruct W as (y' & m' & d' & n' & _ & Y' & _ & _ & Eq); injection Eq as -> _ _; lia).
  cbn [eval_days_elapsed]. unfold parse_iso_date. rewrite (plain_iso _ _ _ _ P). cbn [obind].
  replace (valid_date (Date y m dd)) with true; [reflexivity|]. unfold valid_date, max_year. cbn [year month day]. rewrite <- Ek. lia.
Qed.
Lemma elapsed_clamped : forall E d n y m dd s k, arith_eval E d n = Ok (VStr s) -> plain_text y m dd s -> 1 <= y -> month_days y m k -> k < dd <= 31 ->
  arith_eval E d (NFunc F_DAYS_ELAPSED [n]) = Err InvalidFunctionArgument.
Proof.
  intros E d n y m dd s k H P Y M D. pose proof (days_month_length _ _ _ M) as [Hm Ek]. pose proof (month_length_range y m). 
  assert (W : written_date s (Date y m (Z.min dd k))) by (apply plain_written; auto; lia).
  rewrite (elapsed_call E d n (VStr s) H) by (apply written_type; eauto). cbn [eval_days_elapsed]. unfold parse_iso_date. rewrite (plain_iso _ _ _ _ P). cbn [obind].
  replace (valid_date (Date y m dd)) with false; [reflexivity|]. symmetry. unfold valid_date, max_year. cbn [year month day]. rewrite <- Ek. lia.
Qed.
Lemma elapsed_other : forall E d n v, arith_eval E d n = Ok v -> get_data_type v <> DATE -> (forall b l, v <> VColl b l) -> arith_eval E d (NFunc F_DAYS_ELAPSED [n]) = Err InvalidDataType.
Proof.
  intros E d n v H T C. rewrite (function_arguments E d F_DAYS_ELAPSED [n] [v]).
  - unfold evaluate_function. cbn [typed map length Nat.ltb Nat.leb func_containers existsb container_eqb orb negb forallb snd].
    replace (mem_type (get_data_type v) (func_types F_DAYS_ELAPSED)) with false by (destruct (get_data_type v); try reflexivity; congruence). reflexivity.
  - exists [v]. split; [constructor; auto|]. destruct v; try reflexivity. exfalso. eapply C; eauto.
Qed.

(** Date and time *)
Lemma hms_digits : forall k n s, numeral k n s -> 0 <= n.
Proof.
  intros k n s (_ & D & <-). unfold digits_val. assert (G : forall s acc, all_digits s = true -> 0 <= acc -> 0 <= fold_left (fun acc c => acc * 10 + digit_val c) s acc).
  { clear. induction s as [|c s IH]; intros acc D A; cbn; auto. cbn in D. apply andb_true_iff in D as [Dc D]. apply IH; auto. unfold digit_val, is_digit in *. lia. }
  apply G; auto. lia.
Qed.
Lemma parse_datetime_spec : forall t x, parse_datetime t = Some x <-> written_datetime t x.
Proof.
  intros t x. unfold parse_datetime, written_datetime. split.
  - intros H. apply obind_some in H as ([[[y m] d] r] & H1 & H). apply obind_some in H as (r1 & H2 & H). apply obind_some in H as ([h r2] & H3 & H).
    apply obind_some in H as (r3 & H4 & H). apply obind_some in H as ([mi r4] & H5 & H). apply obind_some in H as (r5 & H6 & H). apply obind_some in H as ([se r6] & H7 & H).
    destruct r6; [|discriminate H]. apply obind_some in H as (a & H8 & H). apply parse_ymd_spec in H1 as (p & P & ->). apply expect_spec in H2 as ->.
    apply take2_spec in H3 as (ha & Ha & ->). apply expect_spec in H4 as ->. apply take2_spec in H5 as (mb & Mb & ->). apply expect_spec in H6 as ->.
    apply take2_spec in H7 as (sc & Sc & ->). rewrite app_nil_r. apply smart_resolve_spec in H8 as (n & Y & M & D & ->).
    assert (W : written_date p (Date y m (Z.min d n))) by (exists y, m, d, n; auto). set (a := Date y m (Z.min d n)) in *.
    exists p, (ha ++ ch ":" :: mb ++ ch ":" :: sc), a, h, mi, se. split; [reflexivity|]. split; auto. split; [exists ha, mb, sc; auto|].
    unfold smart_time, max_year in H. destruct (_ && _) eqn:C in H.
    + right. split; [lia|]. split; [lia|]. split; [lia|]. destruct (year (next_day a) <=? 999999999) eqn:K; [|discriminate H]. injection H as <-. exists (next_day a).
      split; [apply next_day_tomorrow; eapply written_calendar; eauto|]. split; [lia|reflexivity].
    + destruct (_ && _) eqn:K in H; [|discriminate H]. injection H as <-. left. split; [lia|]. split; [lia|]. split; [lia|reflexivity].
  - intros (p & q & a & h & mi & s & -> & W & (ha & mb & sc & Ha & Mb & Sc & ->) & C). pose proof W as W0. destruct W as (y & m & d & n & P & Y & M & D & Ea).
    apply obind_some. exists (y, m, d, J " " ++ ha ++ J ":" ++ mb ++ J ":" ++ sc). split; [apply parse_ymd_spec; eauto|].
    apply obind_some. exists (ha ++ J ":" ++ mb ++ J ":" ++ sc). split; [apply expect_spec; reflexivity|].
    apply obind_some. exists (h, J ":" ++ mb ++ J ":" ++ sc). split; [apply take2_spec; eauto|].
    apply obind_some. exists (mb ++ J ":" ++ sc). split; [apply expect_spec; reflexivity|].
    apply obind_some. exists (mi, J ":" ++ sc). split; [apply take2_spec; eauto|].
    apply obind_some. exists sc. split; [apply expect_spec; reflexivity|].
    apply obind_some. exists (s, []). split; [apply take2_spec; exists sc; rewrite app_nil_r; auto|]. cbn iota.
    apply obind_some. exists a. split; [apply smart_resolve_spec; eauto 10|]. pose proof (hms_digits _ _ _ Ha). pose proof (hms_digits _ _ _ Mb). pose proof (hms_digits _ _ _ Sc).
    unfold smart_time, max_year. destruct C as [(C1 & C2 & C3 & ->)|(-> & -> & -> & b & T & Yb & ->)].
    + destruct (_ && _) eqn:K; [lia|]. destruct ((h <=? 23) && (mi <=? 59) && (s <=? 59)) eqn:L; [reflexivity|lia].
    + cbn [Z.eqb andb Pos.eqb]. rewrite (tomorrow_unique a (next_day a) b) by (auto; apply next_day_tomorrow; eapply written_calendar; eauto).
      destruct (year b <=? 999999999) eqn:K; [reflexivity|lia].
Qed.
Lemma written_datetime_wall : forall t x, written_datetime t x -> wall_time x.
Proof.
  intros t x (p & q & a & h & mi & s & -> & W & (ha & mb & sc & Ha & Mb & Sc & ->) & C). apply written_calendar in W.
  pose proof (hms_digits _ _ _ Ha). pose proof (hms_digits _ _ _ Mb). pose proof (hms_digits _ _ _ Sc).
  destruct C as [(C1 & C2 & C3 & ->)|(-> & -> & -> & b & T & Yb & ->)]; unfold wall_time; cbn [dt_date hour minute second nano].
  - split; auto. lia.
  - split; [eapply tomorrow_calendar; eauto|]. lia.
Qed.
Lemma denotes_dt_primitive : forall v x, denotes_datetime v x -> v <> VNull /\ get_data_type v = DATETIME /\ is_valid DATETIME v = Ok true /\ primitive_value DATETIME v = Ok (VDateTime x) /\ wall_time x.
Proof.
  intros v x [[-> C]|(s & -> & W)].
  - split; [discriminate|]. auto.
  - pose proof W as P. apply parse_datetime_spec in P. split; [discriminate|]. unfold primitive_value. cbn. rewrite P. repeat (split; [reflexivity|]). eapply written_datetime_wall; eauto.
Qed.
Lemma clock_range : forall x, wall_time x -> 0 <= clock x < 86400000000000.
Proof. intros x (_ & H). unfold clock. lia. Qed.
Lemma datetime_compare_clock : forall x y, wall_time x -> wall_time y ->
  datetime_compare x y = (0 ?= (to_epoch_day (dt_date y) - to_epoch_day (dt_date x)) * 86400000000000 + (clock y - clock x)).
Proof.
  intros x y X Y. pose proof (clock_range x X). pose proof (clock_range y Y). unfold datetime_compare. rewrite epoch_compare by (apply X || apply Y).
  symmetry. destruct (Z.compare_spec (to_epoch_day (dt_date x)) (to_epoch_day (dt_date y))) as [E|L|L].
  - rewrite E, Z.sub_diag. destruct X as (_ & X), Y as (_ & Y). unfold clock.
    destruct (Z.compare_spec (hour x) (hour y)); [|apply Z.compare_lt_iff; lia|apply Z.compare_gt_iff; lia].
    destruct (Z.compare_spec (minute x) (minute y)); [|apply Z.compare_lt_iff; lia|apply Z.compare_gt_iff; lia].
    destruct (Z.compare_spec (second x) (second y)); [|apply Z.compare_lt_iff; lia|apply Z.compare_gt_iff; lia].
    destruct (Z.compare_spec (nano x) (nano y)); [apply Z.compare_eq_iff; lia|apply Z.compare_lt_iff; lia|apply Z.compare_gt_iff; lia].
  - apply Z.compare_lt_iff. lia.
  - apply Z.compare_gt_iff. lia.
Qed.
Lemma datetime_order : forall E d l r op dt v w x y, yields E d l v -> yields E d r w -> denotes_datetime v x -> denotes_datetime w y ->
  exists k, nanos_later k x y /\ forall b, accepts op (0 ?= k) = Some b -> bool_eval E d (NCmp l r op dt) = Ok b.
Proof.
  intros E d l r op dt v w x y L R A B. destruct (denotes_dt_primitive v x A) as (_ & Tv & Vv & Pv & Wx). destruct (denotes_dt_primitive w y B) as (_ & Tw & Vw & Pw & Wy).
  eexists. split; [eexists; split; [apply days_later_exist; [apply Wx|apply Wy]|reflexivity]|]. intros b X. rewrite (cmp_yields E d l r op dt v w L R), Tv, Tw.
  eapply logical_same with (v' := VDateTime x) (w' := VDateTime y) (c := datetime_compare x y); eauto; [discriminate|]. rewrite datetime_compare_clock by auto. exact X.
Qed.
Lemma written_datetime_type : forall s, get_data_type (VStr s) = DATETIME <-> exists x, written_datetime s x.
Proof.
  intros s. cbn. split.
  - intros H. destruct (parse_datetime s) eqn:P; [apply parse_datetime_spec in P; eauto|]. destruct (parse_date s); discriminate H.
  - intros (x & H). apply parse_datetime_spec in H. rewrite H. reflexivity.
Qed.
Lemma written_datetime_value : forall s x, get_value DATETIME (VStr s) = Ok (Some (VDateTime x)) <-> written_datetime s x.
Proof.
  intros s x. rewrite <- parse_datetime_spec. cbn. destruct (parse_datetime s) as [b|]; cbn; split; intros H; try discriminate H; injection H as ->; reflexivity.
Qed.

(** Dates against date-times *)
Lemma space_in_datetime : forall s x, parse_datetime s = Some x -> In (ch " ") s.
Proof. intros s x H. apply parse_datetime_spec in H as (p & q & a & h & mi & se & -> & _). apply in_or_app. right. left. reflexivity. Qed.
Lemma pad_digits : forall w n, all_digits (pad w n) = true.
Proof.
  intros w n. unfold pad, all_digits. rewrite forallb_app. pose proof (print_N_digits (Z.to_N n)) as P. unfold all_digits in P. rewrite P, andb_true_r. apply forallb_forall. intros c I. apply repeat_spec in I as ->. reflexivity.
Qed.
Lemma no_space_digits : forall s, all_digits s = true -> ~ In (ch " ") s.
Proof. intros s D I. unfold all_digits in D. rewrite forallb_forall in D. apply D in I. discriminate I. Qed.
Lemma date_text_no_space : forall a, ~ In (ch " ") (date_to_string a).
Proof.
  intros a I. unfold date_to_string in I. apply in_app_or in I as [I|I].
  - destruct (year a <? 0); [|destruct (9999 <? year a)]; [destruct I as [I|I]; [discriminate I|]|destruct I as [I|I]; [discriminate I|]|]; apply no_space_digits in I; auto using pad_digits.
  - destruct I as [I|I]; [discriminate I|]. apply in_app_or in I as [I|I]; [apply no_space_digits in I; auto using pad_digits|].
    destruct I as [I|I]; [discriminate I|]. apply no_space_digits in I; auto using pad_digits.
Qed.
Lemma date_as_datetime : forall v a, denotes_date v a -> primitive_value DATETIME v = Err InvalidDataType.
Proof.
  intros v a [[-> C]|(s & -> & W)]; unfold primitive_value; cbn.
  - destruct (parse_datetime (date_to_string a)) eqn:P; [|reflexivity]. apply space_in_datetime in P. apply date_text_no_space in P. destruct P.
  - apply parse_date_spec in W. rewrite (date_not_datetime s a W). reflexivity.
Qed.
Lemma mixed_compare : forall op c v w a x, accepts op c <> None -> denotes_date v a -> denotes_datetime w x ->
  evaluate_logical op PRIMITIVE v (get_data_type v) [(w, get_data_type w)] = Err InvalidDataType /\
  evaluate_logical op PRIMITIVE w (get_data_type w) [(v, get_data_type v)] = Err InvalidDataType.
Proof.
  intros op c v w a x Ha A X. destruct (denotes_primitive v a A) as (_ & Tv & Vv & Pv & _). destruct (denotes_dt_primitive w x X) as (_ & Tw & Vw & Pw & _).
  pose proof (date_as_datetime v a A) as Q. rewrite Tv, Tw. unfold evaluate_logical. cbn [container_is_valid]. rewrite Vv, Vw.
  destruct op; try (exfalso; apply Ha; destruct c; reflexivity); cbn [is_logical negb logical_container container_eqb logical_types mem_type existsb dtype_eqb orb andb bind forallb snd all_types logical_evaluate first_operand];
    unfold eval_equals, eval_not_equals, eval_ordering, ordering_validate, compare_as, equality_type, ordering_type; cbn [numeric negb andb orb bind fst snd priority Z.ltb Z.compare Pos.compare Pos.compare_cont];
    rewrite ?Pw, Q; cbn [bind]; auto.
Qed.
Lemma mixed_fails : forall E d l r op dt c v w a x, accepts op c <> None -> yields E d l v -> yields E d r w -> denotes_date v a -> denotes_datetime w x ->
  bool_eval E d (NCmp l r op dt) = Err InvalidDataType /\ bool_eval E d (NCmp r l op dt) = Err InvalidDataType.
Proof.
  intros E d l r op dt c v w a x Ha L R A X. rewrite (cmp_yields E d l r op dt v w L R), (cmp_yields E d r l op dt w v R L). eapply mixed_compare; eauto.
Qed.

(** Witnesses *)
Definition dated_env : env := Env (Date 2024 3 1) (pow_long exact_env) (pow_dec exact_env).
