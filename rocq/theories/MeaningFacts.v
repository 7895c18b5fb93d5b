(** Proofs: the evaluators compute what the reference semantics says. *)
From Coq Require Import QArith Qround Lia.
From Verif Require Import Base JNum BigDec Dates Version Values Ops Funcs Ast Eval SpecNum SpecDate SpecCompare SpecArith SpecFunc CompareWitness SpecMixed SpecCompute SpecCall SpecList SpecScale SpecExact SpecPath SpecName
  NumFacts BigDecFacts DateFacts ArithFacts FuncFacts CompareFacts OrderFacts FieldFacts MixedFacts ComputeFacts CallFacts ScaleFacts ListTests NameFacts ExactFacts SpecMeaning.
Local Open Scope Z_scope.

(** ** Look-ups *)
Lemma lookup_eval d f x : proper_data d -> looked_up d f x <-> field_value_or_fail f d = x.
Proof.
  intros P. split.
  - intros H. destruct H as [s ks v L F|s ks L F|n|]; [..|reflexivity].
    + exact (proj2 (name_found witness_env d s ks v P L) F).
    + exact (proj2 (name_absent witness_env d s ks P L) F).
    + exact (only_dots witness_env d n).
  - intros <-. destruct f as [s|]; [|exact (lookup_nameless d)]. destruct (every_name s) as [[n ->]|[ks L]].
    + pose proof (only_dots witness_env d n) as H. cbn [arith_eval] in H. rewrite H. apply lookup_dots.
    + destruct (field_value_or_fail (Some s) d) as [v|e] eqn:H.
      * apply (lookup_found d s ks v L). apply (name_found witness_env d s ks v P L). exact H.
      * assert (e = DataNotFound) as ->.
        { unfold field_value_or_fail, field_value, get_value_from_map in H. rewrite (names_split _ _ L) in H. pose proof (names_nonempty _ _ L) as N.
          destruct (ValuesFacts.get_path_total ks d N) as [o G]. destruct ks; [contradiction|]. rewrite G in H. cbn [bind] in H. destruct o; [discriminate H|congruence]. }
        apply (lookup_missing d s ks L). apply (name_absent witness_env d s ks P L). exact H.
Qed.

(** ** Single comparisons *)
Lemma genuine_kinds v : genuine v -> v <> VNull -> (exists a, stands v a) \/ exists dbl t, v = VFloat dbl t /\ not_finite t.
Proof. intros [t [H|[[-> _]|(dbl & s & -> & F & _)]]] N; [left; eauto|contradiction|right; eauto]. Qed.
Lemma not_finite_stands dbl t a : not_finite t -> ~ stands (VFloat dbl t) a.
Proof.
  intros F H. destruct (stands_type _ _ H) as (T & _ & V). destruct (not_finite_parse t F) as [P _]. cbn in T. subst a. cbn in V. rewrite P in V. discriminate V.
Qed.
Lemma stands_unique v a b : stands v a -> stands v b -> a = b.
Proof. intros A B. destruct (stands_type v a A) as [<- _], (stands_type v b B) as [<- _]. reflexivity. Qed.
Lemma compares_eval op v w : (exists x, accepts op Eq = Some x) -> genuine v -> genuine w -> v <> VNull -> w <> VNull ->
  forall x, compares op v w x <-> evaluate_logical op PRIMITIVE v (get_data_type v) [(w, get_data_type w)] = x.
Proof.
  intros [x0 A0] Gv Gw Nv Nw x. assert (A : accepts op Eq <> None) by congruence.
  pose proof (yields_lit witness_env [] v Nv) as Yv. pose proof (yields_lit witness_env [] w Nw) as Yw.
  rewrite <- (cond_yields witness_env [] (lit v) op (lit w) v w Yv Yw).
  split.
  - intros H. destruct H as [a b t m m' c x Sv Sw M R R' C X|a b Sv Sw I|dbl t -> F|dbl t Sv -> F ->|dbl t Sv -> F ->|dbl t a Sv -> F N].
    + exact (proj1 (mixed_comparison witness_env [] _ _ op Eq v w a b A Yv Yw Sv Sw) t m m' c x M R R' C X).
    + exact (proj1 (proj2 (mixed_comparison witness_env [] _ _ op Eq v w a b A Yv Yw Sv Sw)) I).
    + exact (not_finite_left witness_env [] _ _ op Eq dbl t w A F Yv Yw).
    + exact (not_finite_right witness_env [] _ _ EQUALS Eq dbl t v STRING A F Yv Yw Sv).
    + exact (not_finite_right witness_env [] _ _ NOT_EQUAL Eq dbl t v STRING A F Yv Yw Sv).
    + rewrite (not_finite_right witness_env [] _ _ op Eq dbl t v a A F Yv Yw Sv). destruct op; try reflexivity; destruct a; try reflexivity; exfalso; apply N; auto.
  - intros <-. destruct (genuine_kinds v Gv Nv) as [[a Sv]|(dbl & t & -> & F)].
    + destruct (genuine_kinds w Gw Nw) as [[b Sw]|(dbl & t & -> & F)].
      * destruct (mixed_comparison witness_env [] _ _ op Eq v w a b A Yv Yw Sv Sw) as (H1 & H2 & [I|(t & m & m' & c & x & M & R & R' & C & X)]).
        -- rewrite (H2 I). exact (compares_refused op v w a b Sv Sw I).
        -- rewrite (H1 t m m' c x M R R' C X). exact (compares_read op v w a b t m m' c x Sv Sw M R R' C X).
      * rewrite (not_finite_right witness_env [] _ _ op Eq dbl t v a A F Yv Yw Sv).
        destruct op; try discriminate A0; try (apply (compares_nan_right _ _ _ dbl t a Sv eq_refl F); intuition discriminate);
          (destruct a; try (apply (compares_nan_right _ _ _ dbl t _ Sv eq_refl F); intuition discriminate)).
        -- exact (compares_nan_text EQUALS v _ dbl t Sv eq_refl F eq_refl).
        -- exact (compares_nan_other_text NOT_EQUAL v _ dbl t Sv eq_refl F eq_refl).
    + rewrite (not_finite_left witness_env [] _ _ op Eq dbl t w A F Yv Yw). exact (compares_nan_left op _ w dbl t eq_refl F).
Qed.

(** ** Results are values again *)
Lemma text_genuine s : genuine (VStr s).
Proof.
  destruct (parse_datetime s) as [x|] eqn:T.
  - exists DATETIME. left. apply (stands_datetime (VStr s) x). right. exists s. split; [reflexivity|]. apply parse_datetime_spec, T.
  - destruct (parse_date s) as [a|] eqn:D.
    + exists DATE. left. apply (stands_date (VStr s) a). right. exists s. split; [reflexivity|]. apply parse_date_spec, D.
    + exists STRING. left. apply stands_text; intros y H; [apply parse_date_spec in H|apply parse_datetime_spec in H]; congruence.
Qed.
(** A result: in range, no collection, not null. *)
Definition plain_result (v : jval) : Prop := possible v /\ v <> VNull /\ members v = [v].
Lemma int_result z : fits32 z -> plain_result (VInt z).
Proof. intros F. split; [split; [exists INTEGER; left; apply stands_int; unfold fits32 in F; lia|discriminate]|]. split; [discriminate|reflexivity]. Qed.
Lemma long_result z : -9223372036854775808 <= z <= 9223372036854775807 -> plain_result (VLong z).
Proof. intros F. split; [split; [exists LONG; left; apply stands_long; exact F|discriminate]|]. split; [discriminate|reflexivity]. Qed.
Lemma dec_result b : plain_result (VDec b).
Proof. split; [split; [exists DECIMAL; left; apply stands_dec|discriminate]|]. split; [discriminate|reflexivity]. Qed.
Lemma text_result s : plain_result (VStr s).
Proof. split; [split; [apply text_genuine|discriminate]|]. split; [discriminate|reflexivity]. Qed.
Lemma decimal_plain x q : decimal_result (Ok x) q -> plain_result x.
Proof. intros H. inversion H; subst; [apply int_result; assumption|apply dec_result]. Qed.
Lemma whole_plain x z : whole_result (Ok x) z -> plain_result x.
Proof.
  intros [A B]. destruct (fits32_dec z) as [F|F].
  - specialize (A F). injection A as ->. apply int_result, F.
  - destruct (B F) as (b & [= ->] & _). apply dec_result.
Qed.
Lemma wraps_fits32 z y : wraps 32 z y -> fits32 y.
Proof. intros [H _]. unfold fits32. change (2 ^ (32 - 1)) with 2147483648 in H. lia. Qed.
Lemma epoch_bound a k : calendar a -> - k <= year a <= k -> - (366 * k + 800000) <= to_epoch_day a <= 366 * k + 800000.
Proof.
  intros (n & M & D) Y. rewrite epoch_alt. unfold before_year.
  assert (-2 <= before_month (year a) (month a) <= 400).
  { assert (1 <= month a <= 12) by (inversion M as [m I|m I| |]; subst; try lia; cbn in I; lia). unfold before_month. destruct (2 <? month a); [destruct (is_leap _)|]; Z.div_mod_to_equations; lia. }
  assert (1 <= day a <= 31) by (inversion M; lia). Z.div_mod_to_equations. lia.
Qed.
Lemma elapsed_fits E a k : calendar (today E) -> -999999999 <= year (today E) <= 999999999 -> calendar a -> -10000000000 <= year a <= 10000000000 -> elapsed E a (Ok (VLong k)) ->
  -9223372036854775808 <= k <= 9223372036854775807.
Proof.
  intros C Y Ca Ya (k' & [= ->] & D). apply days_later_epoch in D. pose proof (epoch_bound a 10000000000 Ca Ya). pose proof (epoch_bound (today E) 999999999 C Y). lia.
Qed.
Lemma short_year y m dd s : ymd_text y m dd s -> (length s <= 17)%nat -> 0 <= y <= 10000000000.
Proof.
  intros (a & b & c & Y & (B & _) & (C & _) & ->) L. rewrite !app_length in L. cbn in L.
  assert (X : forall k ds n, numeral k n ds -> (k <= 10)%nat -> 0 <= n <= 10000000000).
  { intros k ds n (Len & D & <-) K. pose proof (JNumFacts.digits_val_nonneg ds D) as P. assert (10 ^ Z.of_nat (length ds) <= 10 ^ 10) by (apply Z.pow_le_mono_r; lia). change (10 ^ 10) with 10000000000 in *. lia. }
  destruct Y as [Y|(ds & -> & _ & Y)]; [apply (X _ _ _ Y); lia|]. rewrite app_length in L. cbn in L. apply (X _ _ _ Y). lia.
Qed.
Lemma call_plain E f ms x : calendar (today E) -> -999999999 <= year (today E) <= 999999999 -> Forall possible ms ->
  (f = F_LEN -> Z.of_nat (length ms) <= 2147483647 /\ forall s, ms = [VStr s] -> Z.of_nat (length s) <= 2147483647) -> call E f ms (Ok x) -> plain_result x.
Proof.
  intros Cal Yr Ps Len [X0 X]. assert (G : Forall genuine ms) by (eapply Forall_impl; [|exact Ps]; intros v [H _]; exact H).
  destruct (arguments_kinds ms G) as [[ts T]|(dbl & t & I & F)].
  2: { exfalso. destruct (X0 dbl t F I) as [A B]. destruct (takes_dec f (length ms)) as [K|K]; [discriminate (A K)|discriminate (B K)]. }
  destruct (X ts T) as [(X1 & X2 & X3 & X4) _]. destruct ms as [|m ms]; [discriminate (X1 eq_refl)|].
  destruct (takes_dec f (length (m :: ms))) as [K|K]; [|discriminate (X2 ltac:(discriminate) K)].
  destruct (func_supported_dec f ts) as [S|S]; [|discriminate (X3 ltac:(discriminate) K S)].
  specialize (X4 ltac:(discriminate) K S). clear X X0 X1 X2 X3 G. set (l := m :: ms) in *. pose proof (decimal_among l) as DA.
  destruct f; cbn [gives] in X4; cbv zeta in X4.
  - destruct X4 as [A B]. destruct DA as [D|D]; [destruct (A D) as (qs & _ & q & _ & R); exact (decimal_plain x q R)|destruct (B D) as (zs & _ & z & y & _ & _ & _ & R); exact (whole_plain x y R)].
  - destruct X4 as [A B]. destruct DA as [D|D]; [destruct (A D) as (qs & _ & q & _ & R); exact (decimal_plain x q R)|destruct (B D) as (zs & _ & z & y & _ & _ & _ & R); exact (whole_plain x y R)].
  - destruct X4 as [A B]. destruct DA as [D|D]; [destruct (A D) as (qs & _ & q & _ & R); exact (decimal_plain x _ R)|].
    destruct (B D) as (zs & _ & z & _ & R1 & R2). destruct (integral (inject_Z z / inject_Z (Z.of_nat (length l)) * inject_Z 100)) as [H|H]; [exact (decimal_plain x _ (R1 H))|discriminate (R2 H)].
  - destruct X4 as [A B]. destruct DA as [D|D]; [destruct (A D) as (qs & _ & R); exact (decimal_plain x _ R)|destruct (B D) as (zs & _ & z & y & _ & _ & R); exact (whole_plain x y R)].
  - destruct X4 as [A B]. destruct DA as [D|D]; [destruct (A D) as (qs & _ & q & _ & R); exact (decimal_plain x _ R)|].
    destruct (B D) as (zs & _ & z & _ & R1 & R2). destruct (integral (inject_Z z / inject_Z (Z.of_nat (length l)) * inject_Z 100)) as [H|H]; [exact (decimal_plain x _ (R1 H))|discriminate (R2 H)].
  - destruct X4 as (v & (n & a & b & Sp & _) & R). assert (Iv : In v l) by (rewrite Sp; apply in_elt).
    assert (Pv : possible v) by (rewrite Forall_forall in Ps; apply Ps, Iv).
    destruct (supported_numbers F_MODE l ts ltac:(left; listf) T S) as (qs & Hq & _). destruct (Forall2_in _ _ _ _ Hq Iv) as (q & _ & Q).
    destruct Q as [z q F0 _|z q F0 _|b0 q _|dbl t q F0]; cbn [SpecFunc.returned] in R.
    + injection R as ->. apply int_result. unfold fits32. lia.
    + destruct R as (y & [= ->] & [[F1 ->]|[_ [F1 ->]]]); [apply int_result, F1|apply long_result, F1].
    + exact (decimal_plain x _ R).
    + injection R as ->. split; [exact Pv|]. split; [discriminate|reflexivity].
  - destruct X4 as (qs & _ & s & _ & O1 & E1). destruct (Nat.even (length l)) eqn:Ev.
    + destruct (E1 eq_refl) as (z & _ & R). exact (decimal_plain x _ R).
    + apply (decimal_plain x _ (O1 ltac:(rewrite <- Nat.negb_even, Ev; reflexivity))).
  - destruct ms as [|v' ms]; [|unfold l in K; cbn in K; lia]. destruct (X4 m eq_refl) as (q & z & y & _ & _ & W & [= ->]). apply int_result, (wraps_fits32 z y W).
  - destruct (Len eq_refl) as [L1 L2]. destruct X4 as [A B]. assert (D : (exists s, l = [VStr s]) \/ forall s, l <> [VStr s]).
    { unfold l. destruct m, ms as [|v' ms]; try (right; intros s0; discriminate). left. eauto. }
    destruct D as [[s D]|D].
    + specialize (A s D). injection A as ->. apply int_result. unfold fits32. specialize (L2 s D). lia.
    + specialize (B D). injection B as ->. apply int_result. unfold fits32, l in *. cbn [length] in *. lia.
  - specialize (X4 Cal). destruct X4 as [A B]. destruct ms as [|v' ms]; [|unfold l in K; cbn in K; lia]. inversion Ps as [|? ? Pm _]; subst.
    inversion T as [|? t ? ? Tv T0]; subst. inversion S as [|? ? St _]; subst. cbn in St. subst t.
    destruct Tv as [Tv|[_ Tv]]; [|discriminate Tv]. inversion Tv as [| | | | | |v0 a Dn| | | | | |]; subst. destruct Dn as [[-> Ca]|(s & -> & _)].
    + destruct (A a eq_refl) as (k & Ek & D). injection Ek as ->. apply long_result. destruct Pm as [_ Ya]. specialize (Ya a eq_refl).
      apply (elapsed_fits E a k Cal Yr Ca); [lia|]. exists k. auto.
    + destruct (B s eq_refl) as (yr & mo & dd & P1 & G1 & H1). pose proof (calendar_dec (Date yr mo dd)) as CD.
      destruct (le_dec (length s) 17) as [L|L]; [|discriminate (H1 ltac:(tauto))]. destruct CD as [CD|CD]; [|discriminate (H1 ltac:(tauto))].
      destruct (G1 (conj CD L)) as (k & Ek & D). injection Ek as ->. apply long_result. pose proof (short_year yr mo dd s P1 L).
      apply (elapsed_fits E (Date yr mo dd) k Cal Yr CD); [cbn; lia|]. exists k. auto.
Qed.

(** ** Arithmetic expressions *)
Lemma java_genuine v : genuine v -> java_value v.
Proof. intros [t [H|[[-> _]|(dbl & s & -> & _)]]]; try exact Logic.I. destruct H as [b|z F|z F|b|dbl t q F|t|v a D|v x D|s A B|il l|l t|es|t]; try exact Logic.I; try exact F; destruct D as [[-> _]|(s & -> & _)]; exact Logic.I. Qed.
Lemma literal_possible t v : literal t v -> possible v /\ members v = [v].
Proof.
  intros H. destruct H as [b|z F|z F|b|s|a C Y| |x W| |s]; split; try reflexivity; try (split; [|discriminate]).
  - exists BOOLEAN. left. apply stands_bool.
  - exists INTEGER. left. apply stands_int, F.
  - exists LONG. left. apply stands_long, F.
  - exists DECIMAL. left. apply stands_dec.
  - exists VERSION. left. apply stands_version.
  - split; [exists DATE; left; apply (stands_date _ a); left; auto|]. intros a' [= <-]. exact Y.
  - exists STRING. right. left. auto.
  - exists DATETIME. left. apply (stands_datetime _ x). left. auto.
  - exists STRING. right. left. auto.
  - apply text_genuine.
Qed.
Lemma sensible_all items : (fix all (l : list node) : Prop := match l with [] => True | i :: l' => sensible i /\ all l' end) items <-> Forall sensible items.
Proof. induction items as [|i l IH]; cbn; [split; constructor|]. rewrite IH. split; [intros [A B]; constructor; assumption|intros A; inversion A; auto]. Qed.
Lemma numeric_all items : (fix all (l : list node) : Prop := match l with [] => True | i :: l' => numeric_ranges i /\ all l' end) items <-> Forall numeric_ranges items.
Proof. induction items as [|i l IH]; cbn; [split; constructor|]. rewrite IH. split; [intros [A B]; constructor; assumption|intros A; inversion A; auto]. Qed.
Lemma fit_all E d items : (fix all (l : list node) : Prop := match l with [] => True | i :: l' => lengths_fit E d i /\ all l' end) items <-> Forall (lengths_fit E d) items.
Proof. induction items as [|i l IH]; cbn; [split; constructor|]. rewrite IH. split; [intros [A B]; constructor; assumption|intros A; inversion A; auto]. Qed.
Definition valued_right (E : env) (d : data) (n : node) : Prop :=
  (forall x, value_of E d n x <-> arith_eval E d n = x) /\ forall v, arith_eval E d n = Ok v -> possible v /\ Forall possible (members v).
Lemma plain_possible v : plain_result v -> possible v /\ Forall possible (members v).
Proof. intros (P & _ & ->). split; [exact P|]. constructor; [exact P|constructor]. Qed.
Lemma values_right E d items : Forall (valued_right E d) items -> (forall x, values_of E d items x <-> mapM (arith_eval E d) items = x) /\
  forall vs, mapM (arith_eval E d) items = Ok vs -> Forall possible (flat_map members vs).
Proof.
  induction 1 as [|n ns [A B] _ [C D]].
  - split; [|cbn; intros vs [= <-]; constructor]. intros x. split; [intros H; inversion H; reflexivity|cbn; intros <-; constructor].
  - cbn [mapM]. split.
    + intros x. split.
      * intros H. inversion H as [|? ? e V|? ? v e V Vs|? ? v vs V Vs]; subst; apply A in V; rewrite V; cbn [bind]; auto; apply C in Vs; rewrite Vs; reflexivity.
      * intros <-. destruct (arith_eval E d n) as [v|e] eqn:V; cbn [bind]; [|apply values_fail, A; reflexivity].
        destruct (mapM (arith_eval E d) ns) as [vs|e] eqn:Vs; cbn [bind]; [apply values_more|apply (values_fail_later _ _ _ _ v)]; try (apply A; reflexivity); apply C; reflexivity.
    + intros vs. destruct (arith_eval E d n) as [v|e] eqn:V; cbn [bind]; [|discriminate]. destruct (mapM (arith_eval E d) ns) as [vs'|e] eqn:Vs; cbn [bind]; [|discriminate].
      intros [= <-]. cbn [flat_map]. apply Forall_app. split; [apply B; reflexivity|apply D; reflexivity].
Qed.
Lemma mapM_arguments E d items vs : mapM (arith_eval E d) items = Ok vs -> arguments E d items (flat_map members vs).
Proof.
  intros H. exists vs. split; [|reflexivity]. revert vs H. induction items as [|i items IH]; cbn [mapM]; intros vs; [intros [= <-]; constructor|].
  destruct (arith_eval E d i) as [v|] eqn:V; cbn [bind]; [|discriminate]. destruct (mapM _ items) as [vs'|]; cbn [bind]; [|discriminate]. intros [= <-]. constructor; auto.
Qed.
Lemma arith_right E d : world E d -> forall n, sensible n -> lengths_fit E d n -> valued_right E d n.
Proof.
  intros (Cal & Yr & Pd & Fd). induction n using node_ind'; intros Sn Ln.
  - split.
    + intros x. cbn [arith_eval]. rewrite <- (lookup_eval d f x Pd). split; [intros H; inversion H as [|? ? L| | | | | | |? B]; subst; [exact L|discriminate B]|apply value_field].
    + intros v H. cbn [arith_eval] in H. apply (lookup_eval d f (Ok v) Pd) in H. inversion H as [s ks w L F| | |]; subst. exact (Fd ks v F).
  - split.
    + intros x. split; [intros H; inversion H as [| | | | | | | |? B]; subst; [reflexivity|discriminate B]|intros <-; apply value_literal].
    + intros w H. injection H as <-. destruct (literal_possible dt _ Sn) as [P ->]. split; [exact P|constructor; [exact P|constructor]].
  - cbn [sensible lengths_fit] in Sn, Ln. destruct Sn as [Sl Sr], Ln as [Ll Lr]. destruct (IHn Sl Ll) as [A B]. destruct r as [r|].
    + destruct Sr as [Op Sr]. cbn [opt_P] in H. destruct (H Sr Lr) as [C D].
      change (NArith n (Some r) op) with (bin n op r). assert (NU : op <> UNARY) by (intros ->; destruct Op as [X|[X|[X|[X|[X|[X|[]]]]]]]; discriminate X). split.
      * intros x. rewrite (bin_eval E d n op r NU). split.
        -- intros V. inversion V as [| |? ? ? e Vl|? ? ? v e Vl Vr|? ? ? v w ? Vl Vr O| | | |? Bs]; subst; [apply A in Vl; rewrite Vl; reflexivity|apply A in Vl; apply C in Vr; rewrite Vl, Vr; reflexivity| |discriminate Bs].
           apply A in Vl. apply C in Vr. rewrite <- (bin_eval E d n op r NU). apply (operator_determined E d n r op v w Op Vl Vr (proj1 (proj1 (B v Vl))) (proj1 (proj1 (D w Vr)))), O.
        -- intros <-. destruct (arith_eval E d n) as [v|e] eqn:Vl; cbn [bind]; [|apply value_left_fails, A; reflexivity].
           destruct (arith_eval E d r) as [w|e] eqn:Vr; cbn [bind]; [|apply (value_right_fails _ _ _ _ _ v); [apply A; reflexivity|apply C; reflexivity]].
           apply (value_operation _ _ _ _ _ v w); [apply A; reflexivity|apply C; reflexivity|].
           apply (operator_determined E d n r op v w Op Vl Vr (proj1 (proj1 (B v eq_refl))) (proj1 (proj1 (D w eq_refl)))). rewrite (bin_eval E d n op r NU), Vl, Vr. reflexivity.
      * intros x Hx. assert (X := Hx). rewrite (bin_eval E d n op r NU) in X. destruct (arith_eval E d n) as [v|e] eqn:Vl; [|discriminate X]. cbn [bind] in X.
        destruct (arith_eval E d r) as [w|e] eqn:Vr; [|discriminate X]. apply plain_possible.
        destruct (result_type E d n op r v w x Op Vl Vr (java_genuine v (proj1 (proj1 (B v eq_refl)))) (java_genuine w (proj1 (proj1 (D w eq_refl)))) Hx) as [[(z & -> & F)|[(z & -> & F)|[b ->]]]|(_ & _ & ->)];
          [apply int_result, F|apply long_result, F|apply dec_result|apply text_result].
    + subst op. split.
      * intros x. split.
        -- intros V. inversion V as [| |? ? ? e Vl| | |? v ? Vl O| | |? Bs]; subst; [apply A in Vl; cbn [arith_eval]; rewrite Vl; reflexivity| |discriminate Bs].
           apply A in Vl. apply (negation_determined E d n v Vl (proj1 (proj1 (B v Vl)))), O.
        -- intros <-. destruct (arith_eval E d n) as [v|e] eqn:Vl; [|cbn [arith_eval]; rewrite Vl; apply value_left_fails, A; reflexivity].
           apply (value_negation _ _ _ v); [apply A; reflexivity|]. apply (negation_determined E d n v Vl (proj1 (proj1 (B v eq_refl)))). reflexivity.
      * intros x Hx. apply plain_possible. destruct (negate_result E d n x Hx) as [(z & -> & F)|[(z & -> & F)|[b ->]]]; [apply int_result, F|apply long_result, F|apply dec_result].
  - cbn [sensible lengths_fit] in Sn, Ln. apply sensible_all in Sn. destruct Ln as [Lf Ln]. apply fit_all in Ln.
    assert (R : Forall (valued_right E d) items).
    { clear Lf. induction H as [|i l Hi _ IH]; [constructor|]. inversion Sn; inversion Ln; subst. constructor; [apply Hi; assumption|apply IH; assumption]. }
    destruct (values_right E d items R) as [A B]. split.
    + intros x. split.
      * intros V. inversion V as [| | | | | |? ? e Vs|? ? vs ? Vs C|? Bs]; subst; [apply A in Vs; rewrite arith_func; unfold arith_items; rewrite Vs; reflexivity| |discriminate Bs].
        apply A in Vs. apply (call_determined E d f items (flat_map members vs) Cal (mapM_arguments E d items vs Vs)); [|exact C].
        eapply Forall_impl; [|exact (B vs Vs)]. intros v [G _]. exact G.
      * intros <-. destruct (mapM (arith_eval E d) items) as [vs|e] eqn:Vs; [|rewrite arith_func; unfold arith_items; rewrite Vs; apply value_argument_fails, A; reflexivity].
        apply (value_call _ _ _ _ vs); [apply A; reflexivity|]. apply (call_determined E d f items (flat_map members vs) Cal (mapM_arguments E d items vs Vs)); [|reflexivity].
        eapply Forall_impl; [|exact (B vs eq_refl)]. intros v [G _]. exact G.
    + intros x Hx. apply plain_possible. destruct (mapM (arith_eval E d) items) as [vs|e] eqn:Vs; [|rewrite arith_func in Hx; unfold arith_items in Hx; rewrite Vs in Hx; discriminate Hx].
      apply (call_plain E f (flat_map members vs) x Cal Yr (B vs eq_refl)); [intros Lf'; apply (Lf Lf'), A; reflexivity|].
      apply (call_determined E d f items (flat_map members vs) Cal (mapM_arguments E d items vs Vs)); [|exact Hx].
      eapply Forall_impl; [|exact (B vs eq_refl)]. intros v [G _]. exact G.
  - split; [|discriminate]. intros x. split; [intros V; inversion V; reflexivity|intros <-; apply value_condition; reflexivity].
  - split; [|discriminate]. intros x. split; [intros V; inversion V; reflexivity|intros <-; apply value_condition; reflexivity].
  - split; [|discriminate]. intros x. split; [intros V; inversion V; reflexivity|intros <-; apply value_condition; reflexivity].
  - split; [|discriminate]. intros x. split; [intros V; inversion V; reflexivity|intros <-; apply value_condition; reflexivity].
  - split; [|discriminate]. intros x. split; [intros V; inversion V; reflexivity|intros <-; apply value_condition; reflexivity].
Qed.

(** ** Conditions *)
Lemma found_not_null d ks v : found d ks v -> v <> VNull.
Proof. induction 1; auto. Qed.
Lemma field_cases d f : proper_data d -> (exists v, field_value f d = Ok (Some v) /\ v <> VNull) \/ field_value f d = Ok None \/ exists e, field_value f d = Err e /\ e <> DataNotFound.
Proof.
  intros P. destruct f as [s|]; [|right; right; eexists; split; [reflexivity|discriminate]]. destruct (every_name s) as [[n ->]|[ks L]].
  - pose proof (only_dots witness_env d n) as H. cbn [arith_eval] in H. unfold field_value_or_fail in H. right. right.
    destruct (field_value (Some (dots (S n))) d) as [[v|]|e]; cbn [bind] in H; try discriminate H. exists e. split; [reflexivity|congruence].
  - pose proof (name_found witness_env d s ks) as H. cbn [arith_eval] in H. unfold field_value_or_fail in H.
    assert (T : exists o, field_value (Some s) d = Ok o).
    { unfold field_value, get_value_from_map. rewrite (names_split _ _ L). pose proof (names_nonempty _ _ L) as N. destruct ks; [contradiction|]. apply ValuesFacts.get_path_total. discriminate. }
    destruct T as [o T]. rewrite T in *. cbn [bind] in H. destruct o as [v|]; [|auto]. left. exists v. split; [reflexivity|]. apply (found_not_null d ks), (H v P L). reflexivity.
Qed.
Lemma operand_right E d n : proper_data d -> valued_right E d n -> (is_arith_base n = false -> forall x, answer E d n x <-> bool_eval E d n = x) ->
  (forall x, operand E d n x <-> operand_value E d n = x) /\ forall v, operand_value E d n = Ok (Some v) -> genuine v /\ v <> VNull.
Proof.
  intros P [A B] C. destruct (is_arith_base n) eqn:Bs.
  - assert (Z : (exists v, arith_eval E d n = Ok v /\ v <> VNull /\ operand_value E d n = Ok (Some v)) \/
      (arith_eval E d n = Ok VNull /\ operand_value E d n = Err NullPointer) \/
      (exists f, n = NField f /\ arith_eval E d n = Err DataNotFound /\ operand_value E d n = Ok None) \/
      exists e, arith_eval E d n = Err e /\ (forall f, n = NField f -> e <> DataNotFound) /\ operand_value E d n = Err e).
    { clear A B C. unfold operand_value. rewrite Bs. destruct n; try discriminate Bs.
      - destruct (field_cases d field P) as [(v & F & N)|[F|(e & F & N)]]; cbn [arith_eval]; unfold field_value_or_fail; rewrite F; cbn [bind].
        + left. eauto.
        + right. right. left. eauto.
        + right. right. right. exists e. auto.
      - cbn [arith_eval]. destruct value; cbn [optional_of]; try (left; eexists; split; [reflexivity|split; [discriminate|reflexivity]]). right. left. auto.
      - destruct (arith_eval E d (NArith n right op)) as [v|e]; cbn [bind]; [|right; right; right; exists e; split; [reflexivity|split; [discriminate|reflexivity]]].
        destruct v; cbn [optional_of]; try (left; eexists; split; [reflexivity|split; [discriminate|reflexivity]]). right. left. auto.
      - destruct (arith_eval E d (NFunc f items)) as [v|e]; cbn [bind]; [|right; right; right; exists e; split; [reflexivity|split; [discriminate|reflexivity]]].
        destruct v; cbn [optional_of]; try (left; eexists; split; [reflexivity|split; [discriminate|reflexivity]]). right. left. auto. }
    split.
    + intros x. split.
      * intros H. inversion H as [? v _ V N|? _ V|f V|? e _ V N|? b Bf|? e Bf]; subst; try congruence; apply A in V;
          destruct Z as [(v' & V' & N' & ->)|[[V' ->]|[(f' & F' & V' & ->)|(e' & V' & N' & ->)]]]; try congruence.
        -- exfalso. apply (N' f); congruence.
        -- exfalso. apply (N f'); congruence.
      * intros <-. destruct Z as [(v' & V' & N' & ->)|[[V' ->]|[(f' & -> & V' & ->)|(e' & V' & N' & ->)]]]; apply A in V'.
        -- apply operand_computed; assumption.
        -- apply operand_null; assumption.
        -- apply operand_missing; assumption.
        -- apply operand_fails; assumption.
    + intros v Hv. destruct Z as [(v' & V' & N' & Z)|[[V' Z]|[(f' & F' & V' & Z)|(e' & V' & N' & Z)]]]; rewrite Z in Hv; try discriminate Hv.
      injection Hv as <-. split; [apply (proj1 (proj1 (B v' V')))|exact N'].
  - specialize (C eq_refl). unfold operand_value. rewrite Bs. split.
    + intros x. split.
      * intros H. inversion H as [? v Bt|? Bt|f V|? e Bt|? b _ V|? e _ V]; subst; try congruence; try discriminate Bs; apply C in V; rewrite V; reflexivity.
      * intros <-. destruct (bool_eval E d n) as [b|e] eqn:V; cbn [bind]; [apply operand_answer|apply operand_answer_fails]; auto; apply C; reflexivity.
    + intros v. destruct (bool_eval E d n) as [b|e]; cbn [bind]; [|discriminate]. intros [= <-]. split; [|discriminate]. exists BOOLEAN. left. apply stands_bool.
Qed.
Lemma null_field n : (n = NField None /\ node_is_null_field n = Err NullPointer) \/ ((exists f, to_lower f = J "null" /\ n = NField (Some f)) /\ node_is_null_field n = Ok true) \/
  (n <> NField None /\ (forall f, to_lower f = J "null" -> n <> NField (Some f)) /\ node_is_null_field n = Ok false).
Proof.
  destruct n; try (right; right; split; [discriminate|split; [discriminate|reflexivity]]). destruct field as [f|]; [|left; auto]. right. cbn [node_is_null_field field_is_null]. unfold equals_ignore_case.
  destruct (jstr_eqb (to_lower f) (to_lower (J "null"))) eqn:K.
  - apply jstr_eqb_iff in K. left. split; [|reflexivity]. exists f. split; [rewrite K; reflexivity|reflexivity].
  - right. split; [discriminate|]. split; [|reflexivity]. intros f' L [= <-]. rewrite L in K. discriminate K.
Qed.
Lemma null_check_eval l r op : (nameless r op /\ is_null_check l r op = Err NullPointer) \/
  (~ nameless r op /\ (l = NField None \/ (null_check l r op /\ is_null_check l r op = Ok true) \/ (~ null_check l r op /\ is_null_check l r op = Ok false))).
Proof.
  assert (O : (op = EQUALS \/ op = NOT_EQUAL) \/ (op <> EQUALS /\ op <> NOT_EQUAL)) by (destruct op; intuition congruence). destruct O as [O|[O1 O2]].
  - assert (U : is_null_check l r op = (b <- node_is_null_field r ;; if b then Ok true else node_is_null_field l)) by (destruct O as [-> | ->]; reflexivity). rewrite U. clear U.
    destruct (null_field r) as [[-> ->]|[[(f & L & ->) ->]|(N & F & ->)]]; cbn [bind].
    + left. split; [split; auto|reflexivity].
    + right. split; [intros [H _]; discriminate H|]. right. left. split; [|reflexivity]. split; [exact O|]. eauto.
    + right. split; [intros [H _]; contradiction|]. destruct (null_field l) as [[-> _]|[[(f & L & ->) ->]|(N' & F' & ->)]]; [left; reflexivity|right; left..|right; right].
      * split; [|reflexivity]. split; [exact O|]. eauto.
      * split; [|reflexivity]. intros (_ & f & L & [H|H]); [apply (F' f L H)|apply (F f L H)].
  - right. split; [intros [_ [H|H]]; contradiction|]. right. right. split; [intros [[H|H] _]; contradiction|]. destruct op; congruence || reflexivity.
Qed.
Lemma compare_right E d l r op dt : proper_data d -> (exists x, accepts op Eq = Some x) -> valued_right E d l -> valued_right E d r ->
  (forall x, answer E d l x <-> bool_eval E d l = x) -> (forall x, answer E d r x <-> bool_eval E d r = x) ->
  forall x, answer E d (NCmp l r op dt) x <-> bool_eval E d (NCmp l r op dt) = x.
Proof.
  intros P A Vl Vr Bl Br x. destruct (operand_right E d l P Vl (fun _ => Bl)) as [L Gl]. destruct (operand_right E d r P Vr (fun _ => Br)) as [R Gr]. clear Vl Vr Bl Br.
  rewrite cmp_unfold. pose proof (null_check_eval l r op) as K.
  assert (NL : l = NField None -> operand_value E d l = Err NullPointer) by (intros ->; reflexivity).
  assert (TN : genuine (VStr (J "null"))) by apply text_genuine. split.
  - intros H. inversion H as [| | | | | | | | | | | | | |? ? ? ? e O|? ? ? ? o O N|? ? ? ? o ? O N C Q|? ? ? ? O N C|? ? ? ? v e O N C O'|? ? ? ? v O N C O'|? ? ? ? v w ? O N C O' Q| | | | | | | | |]; subst;
      apply L in O; rewrite O; cbn [bind]; try reflexivity; (destruct K as [[K ->]|[K [K'|[[K' ->]|[K' ->]]]]]; try contradiction; try (rewrite (NL K') in O; discriminate O)); cbn [bind]; try reflexivity.
    + destruct o as [v|]; cbn [bind or_null] in *; (apply compares_eval in Q; auto; try discriminate); apply (Gl v O).
    + apply R in O'. rewrite O'. reflexivity.
    + apply R in O'. rewrite O'. reflexivity.
    + apply R in O'. rewrite O'. cbn [bind]. destruct (Gl v O), (Gr w O'). apply compares_eval in Q; auto.
  - intros <-. destruct (operand_value E d l) as [o|e] eqn:O; cbn [bind]; [|apply answer_operand_fails, L; reflexivity].
    assert (O1 : operand E d l (Ok o)) by (apply L; reflexivity).
    destruct K as [[K ->]|[K [K'|[[K' ->]|[K' ->]]]]]; cbn [bind].
    + apply (answer_nameless E d l r op dt o); auto.
    + specialize (NL K'). discriminate NL.
    + destruct o as [v|]; cbn [bind]; (eapply answer_null_check; [exact O1|exact K|exact K'|]); cbn [or_null]; (apply compares_eval; auto; try discriminate); apply (Gl v eq_refl).
    + destruct o as [v|]; cbn [bind]; [|apply answer_left_missing; assumption]. destruct (operand_value E d r) as [o'|e'] eqn:O'; cbn [bind].
      * assert (O2 : operand E d r (Ok o')) by (apply R; reflexivity). destruct o' as [w|]; cbn [bind]; [|apply (answer_right_missing E d l r op dt v); assumption].
        apply (answer_compared E d l r op dt v w); auto. destruct (Gl v eq_refl), (Gr w eq_refl). apply compares_eval; auto.
      * apply (answer_right_fails E d l r op dt v); auto. apply R. reflexivity.
Qed.
Definition item_right (E : env) (d : data) (n : node) : Prop :=
  (forall x, element_of E d n x <-> item_eval E d n = x) /\ forall v, item_eval E d n = Ok v -> Forall genuine (members v).
Lemma element_right E d n : valued_right E d n -> (forall x, answer E d n x <-> bool_eval E d n = x) -> item_right E d n.
Proof.
  intros [A B] C. unfold item_right, item_eval. destruct (is_arith_base n) eqn:Bs; split.
  - intros x. split; [intros H; inversion H; subst; try congruence; apply A; assumption|intros <-; apply element_value; auto; apply A; reflexivity].
  - intros v V. eapply Forall_impl; [|exact (proj2 (B v V))]. intros m [G _]. exact G.
  - intros x. split.
    + intros H. inversion H as [|? b _ V|? e _ V]; subst; try congruence; apply C in V; rewrite V; reflexivity.
    + intros <-. destruct (bool_eval E d n) as [b|e] eqn:V; cbn [bind]; [apply element_answer|apply element_answer_fails]; auto; apply C; reflexivity.
  - intros v. destruct (bool_eval E d n) as [b|e]; cbn [bind]; [|discriminate]. intros [= <-]. constructor; [|constructor]. exists BOOLEAN. left. apply stands_bool.
Qed.
Lemma elements_right E d items : Forall (item_right E d) items -> (forall x, elements_of E d items x <-> mapM (item_eval E d) items = x) /\
  forall vs, mapM (item_eval E d) items = Ok vs -> Forall genuine (flat_map members vs).
Proof.
  induction 1 as [|n ns [A B] _ [C D]].
  - split; [|cbn; intros vs [= <-]; constructor]. intros x. split; [intros H; inversion H; reflexivity|cbn; intros <-; constructor].
  - cbn [mapM]. split.
    + intros x. split.
      * intros H. inversion H as [|? ? e V|? ? v e V Vs|? ? v vs V Vs]; subst; apply A in V; rewrite V; cbn [bind]; auto; apply C in Vs; rewrite Vs; reflexivity.
      * intros <-. destruct (item_eval E d n) as [v|e] eqn:V; cbn [bind]; [|apply elements_fail, A; reflexivity].
        destruct (mapM (item_eval E d) ns) as [vs|e] eqn:Vs; cbn [bind]; [apply elements_more|apply (elements_fail_later _ _ _ _ v)]; try (apply A; reflexivity); apply C; reflexivity.
    + intros vs. destruct (item_eval E d n) as [v|e] eqn:V; cbn [bind]; [|discriminate]. destruct (mapM (item_eval E d) ns) as [vs'|e] eqn:Vs; cbn [bind]; [|discriminate].
      intros [= <-]. cbn [flat_map]. apply Forall_app. split; [apply B; reflexivity|apply D; reflexivity].
Qed.
Lemma mapM_elements E d items vs : mapM (item_eval E d) items = Ok vs -> elements E d items (flat_map members vs).
Proof.
  intros H. exists vs. split; [|reflexivity]. revert vs H. induction items as [|i items IH]; cbn [mapM]; intros vs; [intros [= <-]; constructor|].
  destruct (item_eval E d i) as [v|] eqn:V; cbn [bind]; [|discriminate]. destruct (mapM _ items) as [vs'|]; cbn [bind]; [|discriminate]. intros [= <-]. constructor; auto. apply element_eval, V.
Qed.
Lemma looked_possible E d f v : world E d -> looked_up d f (Ok v) -> exists s, f = Some s /\ arith_eval E d (NField (Some s)) = Ok v /\ genuine v /\ v <> VNull.
Proof.
  intros (_ & _ & P & F) H. inversion H as [s ks w L G| | |]; subst. exists s. split; [reflexivity|]. split; [apply (lookup_eval d (Some s) (Ok v) P), H|].
  split; [apply (proj1 (proj1 (F ks v G)))|apply (found_not_null d ks v G)].
Qed.
Lemma among_right E d f items v vs : world E d -> looked_up d f (Ok v) -> mapM (item_eval E d) items = Ok vs -> Forall genuine (flat_map members vs) ->
  forall x, among v (flat_map members vs) x <-> bool_eval E d (NIn f items) = x.
Proof.
  intros W H V G x. destruct (looked_possible E d f v W H) as (s & -> & F & Gv & Nv). pose proof (mapM_elements E d items vs V) as M.
  destruct (genuine_kinds v Gv Nv) as [[a Sv]|(dbl & t & -> & N)].
  - rewrite <- (in_outcome E d s v a items _ F Sv M G x). split; [|intros O; apply (among_asked v _ a x Sv O)]. intros A. inversion A as [dbl t -> N|]; subst; [|assumption].
    exfalso. exact (not_finite_stands dbl t a N Sv).
  - rewrite (in_not_finite E d s dbl t items _ F N M). split; [|intros <-; apply (among_nan _ _ dbl t eq_refl N)]. intros A. inversion A as [|a ? Sv]; subst; [reflexivity|].
    exfalso. exact (not_finite_stands dbl t a N Sv).
Qed.
Lemma genuine_types ms : Forall genuine ms -> exists ts, Forall2 member_type ms ts.
Proof. induction 1 as [|m ms [t T] _ [ts IH]]; [exists []; constructor|exists (t :: ts); constructor; assumption]. Qed.
Lemma contains_right E d f (q : bool) items v vs : world E d -> looked_up d f (Ok v) -> mapM (item_eval E d) items = Ok vs -> Forall genuine (flat_map members vs) ->
  forall x, contains q v (flat_map members vs) x <-> bool_eval E d (NArray f (if q then CONTAINS_ALL else CONTAINS_ANY) items) = x.
Proof.
  intros W H V G x. destruct (looked_possible E d f v W H) as (s & -> & F & Gv & Nv). pose proof (mapM_elements E d items vs V) as M. split.
  - intros A. destruct A as [ts T N|ts have x T O Ev Ask|ts l t T O Ev|ts T O N1 N2]; destruct (contains_outcome E d s q items _ ts v F M T) as (H1 & H2 & H3 & H4); auto.
    + apply (H2 O have Ev x). exact Ask.
    + apply (H3 O l t Ev).
  - intros <-. destruct (genuine_types _ G) as [ts T]. destruct (contains_outcome E d s q items _ ts v F M T) as (H1 & H2 & H3 & H4).
    pose proof (mixed_heterogeneous _ _ T) as K. destruct (heterogeneous (map (fun v => (v, get_data_type v)) (flat_map members vs))).
    + assert (N : ~ of_one_type ts) by (intros O; discriminate (proj2 K O)). rewrite (H1 N). apply (contains_mixed _ _ _ ts T N).
    + assert (O : of_one_type ts) by (apply K; reflexivity).
      destruct v; try (rewrite (H4 O) by discriminate; apply (contains_single _ _ _ ts T O); discriminate).
      * destruct is_list; [|rewrite (H3 O items0 [] (or_introl eq_refl)); apply (contains_no_list _ _ _ ts items0 [] T O); left; reflexivity].
        apply (contains_asked _ _ _ ts items0 _ T O eq_refl). apply (H2 O items0 eq_refl). reflexivity.
      * rewrite (H3 O _ _ (or_intror eq_refl)). apply (contains_no_list _ _ _ ts items0 text T O). right. reflexivity.
Qed.
Lemma number_genuine v t q : bound v t q -> genuine v /\ v <> VNull /\ t = get_data_type v.
Proof. intros [N ->]. split; [destruct N as [z q F _|z q F _|b q _|dbl t q F]; [exists INTEGER; left; apply stands_int, F|exists LONG; left; apply stands_long, F|exists DECIMAL; left; apply stands_dec|exists DECIMAL; left; eapply stands_float, F]|]. split; [apply (number_own v q N)|reflexivity]. Qed.
Lemma bool_right E d : world E d -> forall n, sensible n -> numeric_ranges n -> lengths_fit E d n -> forall x, answer E d n x <-> bool_eval E d n = x.
Proof.
  intros W. pose proof W as (_ & _ & Pd & _). induction n using node_ind'; intros Sn Rn Ln x.
  - split; [intros H; inversion H; reflexivity|intros <-; apply answer_field].
  - cbn [sensible] in Sn. cbn [bool_eval]. destruct (dtype_eqb dt BOOLEAN) eqn:T.
    + assert (dt = BOOLEAN) as -> by (destruct dt; congruence || discriminate T). inversion Sn as [b| | | | | | | | |]; subst. split; [intros H; inversion H; congruence|intros <-; apply answer_constant].
    + assert (T' : dt <> BOOLEAN) by (intros ->; discriminate T). clear Sn T. split.
      * intros H. inversion H as [|? ? b _ N L|? ? w _ N L B|? ? e _ N L|? _| | | | | | | | | | | | | | | | | | | | | | | | |]; subst; try contradiction; try (rewrite show_string by assumption);
          try (apply (lookup_eval _ _ _ Pd) in L; cbn [bind]; rewrite L; cbn [bind]); try reflexivity. destruct w; try reflexivity. exfalso. eapply B. reflexivity.
      * intros <-. assert (D : v = VNull \/ v <> VNull) by (destruct v; (left; reflexivity) || (right; discriminate)). destruct D as [-> |N]; [apply answer_null, T'|]. rewrite show_string by exact N. cbn [bind].
        destruct (field_value_or_fail (Some (show v)) d) as [w|e] eqn:L; apply (lookup_eval _ _ _ Pd) in L; cbn [bind]; [|apply answer_name_fails; assumption].
        destruct w; try (apply (answer_name_other E d dt v _ T' N L); discriminate). apply answer_name; assumption.
  - split; [intros H'; inversion H'; reflexivity|intros <-; apply answer_arithmetic].
  - split; [intros H'; inversion H'; reflexivity|intros <-; apply answer_call].
  - cbn [sensible lengths_fit numeric_ranges] in Sn, Rn, Ln. destruct Sn as (A & Sl & Sr), Ln as [Ll Lr], Rn as [Rl Rr]. apply compare_right; auto; apply arith_right; auto.
  - cbn [numeric_ranges] in Rn. destruct Rn as [[p Bp] [q Bq]]. destruct (number_genuine _ _ _ Bp) as (G1 & N1 & ->), (number_genuine _ _ _ Bq) as (G2 & N2 & ->). cbn [bool_eval].
    assert (A1 : exists x, accepts GREATER_THAN_EQUAL Eq = Some x) by (eexists; reflexivity). assert (A2 : exists x, accepts LESS_THAN_EQUAL Eq = Some x) by (eexists; reflexivity). split.
    + intros H. inversion H; subst.
      * match goal with L : looked_up _ _ _ |- _ => apply (lookup_eval _ _ _ Pd) in L; rewrite L end. reflexivity.
      * match goal with L : looked_up _ _ _ |- _ => pose proof (looked_possible E d _ _ W L) as (s & -> & _ & Gv & Nv); apply (lookup_eval _ _ _ Pd) in L; rewrite L end. cbn [bind].
        match goal with C1 : compares _ _ _ ?x1, C2 : compares _ _ _ ?y1 |- _ => apply compares_eval in C1; auto; apply compares_eval in C2; auto; rewrite C1, C2; destruct x1, y1; reflexivity end.
    + intros <-. destruct (field_value_or_fail f d) as [v|e] eqn:L; apply (lookup_eval _ _ _ Pd) in L; cbn [bind]; [|apply answer_range_fails, L].
      pose proof (looked_possible E d f v W L) as (s & -> & _ & Gv & Nv).
      match goal with |- answer E d (NRange _ ?lo ?hi _ _) _ =>
        pose proof (proj2 (compares_eval GREATER_THAN_EQUAL v lo A1 Gv G1 Nv N1 _) eq_refl) as C1; pose proof (proj2 (compares_eval LESS_THAN_EQUAL v hi A2 Gv G2 Nv N2 _) eq_refl) as C2 end.
      pose proof (answer_range E d _ _ _ (get_data_type a) (get_data_type b) v _ _ L C1 C2) as R.
      destruct (evaluate_logical GREATER_THAN_EQUAL _ _ _ _), (evaluate_logical LESS_THAN_EQUAL _ _ _ _); exact R.
  - cbn [sensible lengths_fit numeric_ranges] in Sn, Rn, Ln. apply sensible_all in Sn. apply numeric_all in Rn. apply fit_all in Ln.
    assert (R : Forall (item_right E d) items).
    { induction H as [|i l Hi _ IH]; [constructor|]. inversion Sn; inversion Rn; inversion Ln; subst. constructor; [apply element_right; [apply arith_right|intros y; apply Hi]; assumption|apply IH; assumption]. }
    destruct (elements_right E d items R) as [A B]. clear H R. rewrite in_unfold. split.
    + intros H. inversion H as [| | | | | | | | | | | | | | | | | | | | | | |? ? e L|? ? v e L Q|? ? v vs ? L Q C| | | |]; subst.
      * apply (lookup_eval _ _ _ Pd) in L. rewrite L. reflexivity.
      * apply (lookup_eval _ _ _ Pd) in L. apply A in Q. rewrite L, Q. reflexivity.
      * apply A in Q. rewrite <- in_unfold. apply (among_right E d f items v vs W L Q (B vs Q)), C.
    + intros <-. destruct (field_value_or_fail f d) as [v|e] eqn:L; [|cbn [bind]; apply answer_in_fails, (lookup_eval _ _ _ Pd), L].
      pose proof L as L'. apply (lookup_eval _ _ _ Pd) in L. destruct (mapM (item_eval E d) items) as [vs|e] eqn:Q; [|cbn [bind]; apply (answer_in_element_fails E d f items v e L), A; reflexivity].
      apply (answer_in E d f items v vs _ L); [apply A; reflexivity|]. apply (among_right E d f items v vs W L Q (B vs eq_refl)). rewrite in_unfold, L', Q. reflexivity.
  - cbn [sensible lengths_fit numeric_ranges] in Sn, Rn, Ln. destruct Sn as [Op Sn]. apply sensible_all in Sn. apply numeric_all in Rn. apply fit_all in Ln.
    assert (R : Forall (item_right E d) items).
    { induction H as [|i l Hi _ IH]; [constructor|]. inversion Sn; inversion Rn; inversion Ln; subst. constructor; [apply element_right; [apply arith_right|intros y; apply Hi]; assumption|apply IH; assumption]. }
    destruct (elements_right E d items R) as [A B]. clear H R. rewrite array_unfold. split.
    + intros H. inversion H as [| | | | | | | | | | | | | | | | | | | | | | | | | |? ? ? e L|? ? ? v e L Q|? ? v vs ? L Q C|? ? v vs ? L Q C]; subst.
      * apply (lookup_eval _ _ _ Pd) in L. rewrite L. reflexivity.
      * apply (lookup_eval _ _ _ Pd) in L. apply A in Q. rewrite L, Q. reflexivity.
      * apply A in Q. rewrite <- array_unfold. apply (contains_right E d f true items v vs W L Q (B vs Q)), C.
      * apply A in Q. rewrite <- array_unfold. apply (contains_right E d f false items v vs W L Q (B vs Q)), C.
    + intros <-. destruct (field_value_or_fail f d) as [v|e] eqn:L; [|cbn [bind]; apply answer_contains_fails, (lookup_eval _ _ _ Pd), L].
      pose proof L as L'. apply (lookup_eval _ _ _ Pd) in L. destruct (mapM (item_eval E d) items) as [vs|e] eqn:Q; [|cbn [bind]; apply (answer_contains_element_fails E d f op items v e L), A; reflexivity].
      match goal with |- answer _ _ _ ?r => assert (X : r = bool_eval E d (NArray f op items)) by (rewrite array_unfold, L', Q; reflexivity); rewrite X; clear X end. destruct Op as [-> | ->].
      * apply (answer_contains_all E d f items v vs _ L); [apply A; reflexivity|]. apply (contains_right E d f true items v vs W L Q (B vs eq_refl)). reflexivity.
      * apply (answer_contains_any E d f items v vs _ L); [apply A; reflexivity|]. apply (contains_right E d f false items v vs W L Q (B vs eq_refl)). reflexivity.
  - cbn [sensible lengths_fit numeric_ranges] in Sn, Rn, Ln. destruct Sn as [Sl Sr], Rn as [Rl Rr], Ln as [Ll Lr]. specialize (IHn Sl Rl Ll). cbn [bool_eval]. split.
    + intros A. inversion A as [| | | | | | | |? ? ? e Al|? ? b Al|? ? Al|? r' ? Al Ar|? ? Al|? r' ? Al Ar| | | | | | | | | | | | | | | |]; subst; apply IHn in Al; rewrite Al; cbn [bind];
        try (destruct op; reflexivity); try reflexivity; apply H in Ar; tauto.
    + intros <-. destruct (bool_eval E d n) as [b|e] eqn:Al; [|destruct op; cbn [bind]; apply answer_left_fails, IHn; reflexivity].
      assert (Al' : answer E d n (Ok b)) by (apply IHn; reflexivity). destruct op; cbn [bind].
      * destruct b; [|apply answer_and_no, Al']. destruct r as [r|]; [|discriminate Sr]. apply answer_and_yes; [exact Al'|]. apply H; tauto.
      * destruct b; [apply answer_or_yes, Al'|]. destruct r as [r|]; [|discriminate Sr]. apply answer_or_no; [exact Al'|]. apply H; tauto.
      * apply answer_not, Al'.
Qed.
