(** Proofs: the specification of operators and calls determines the outcome. *)
From Coq Require Import QArith Qpower Qround Permutation Sorted Lia.
From Verif Require Import Base JNum BigDec Dates Version Values Ops Funcs Ast Eval SpecNum SpecDate SpecCompare SpecArith SpecFunc CompareWitness SpecMixed SpecCompute SpecCall SpecList SpecScale SpecExact
  NumFacts BigDecFacts DateFacts ArithFacts FuncFacts FuncRound MixedFacts ComputeFacts CallFacts ScaleFacts.
Local Open Scope Z_scope.

Lemma same_decimal y z : (dec_value y == dec_value z)%Q -> scale y = scale z -> y = z.
Proof.
  destruct y as [u s], z as [w t]. unfold dec_value. cbn. intros H ->. f_equal. 
  assert (P : (~ (10 # 1) ^ (- t) == 0)%Q) by (apply Qpower_not_0; discriminate).
  apply Qmult_inj_r in H; [|exact P]. unfold Qeq in H. cbn in H. lia.
Qed.
Lemma wraps_unique k z a b : 0 < k -> wraps k z a -> wraps k z b -> a = b.
Proof.
  intros K [A [m Ha]] [B [n Hb]]. assert (P : 2 ^ k = 2 * 2 ^ (k - 1)) by (rewrite <- Z.pow_succ_r by lia; f_equal; lia).
  assert (a - b = (m - n) * 2 ^ k) by lia. assert (-1 < m - n < 1) by nia. assert (m = n) by lia. subst. reflexivity.
Qed.
Lemma smallest_unique z a b : smallest z a -> smallest z b -> a = b.
Proof. intros [[A ->]|[A [B ->]]] [[C ->]|[C [D ->]]]; try reflexivity; contradiction. Qed.
Lemma exactly_same p q x y : exactly p x -> exactly q y -> (p == q)%Q -> exists u w, x = Ok (VDec u) /\ y = Ok (VDec w) /\ (dec_value u == dec_value w)%Q.
Proof. intros (u & -> & U) (w & -> & W) H. exists u, w. split; [reflexivity|]. split; [reflexivity|]. rewrite U, W. exact H. Qed.
Lemma integral (q : Q) : (exists z, (q == inject_Z z)%Q) \/ forall z, ~ (q == inject_Z z)%Q.
Proof.
  destruct (Qeq_dec q (inject_Z (Qfloor q))) as [H|H]; [left; exists (Qfloor q); exact H|right]. intros z E. apply H. rewrite E, Qfloor_Z. reflexivity.
Qed.
Lemma fits32_dec z : fits32 z \/ ~ fits32 z.
Proof. unfold fits32. lia. Qed.
Definition stripped (y : bigdec) : Prop := scale y = 0 \/ (0 < scale y /\ unscaled y mod 10 <> 0).
Lemma dec_shift u s w t : (dec_value (BD u s) == dec_value (BD w t))%Q -> s <= t -> w = u * 10 ^ (t - s).
Proof.
  unfold dec_value. cbn [unscaled scale]. intros H L. assert (P : ((10 # 1) ^ (- s) == (10 # 1) ^ (t - s) * (10 # 1) ^ (- t))%Q).
  { rewrite <- Qpower_plus by discriminate. apply Qpower_comp; [reflexivity|]. lia. }
  rewrite P, Qmult_assoc in H. apply Qmult_inj_r in H; [|apply Qpower_not_0; discriminate].
  rewrite <- (Zpower_Qpower 10 (t - s)) in H by lia. rewrite <- inject_Z_mult in H. unfold Qeq in H. cbn in H. lia.
Qed.
Lemma stripped_unique y z : (dec_value y == dec_value z)%Q -> stripped y -> stripped z -> y = z.
Proof.
  assert (X : forall u s w t, (dec_value (BD u s) == dec_value (BD w t))%Q -> s < t -> w mod 10 = 0).
  { intros u s w t H L. rewrite (dec_shift u s w t H) by lia. replace (t - s) with (Z.succ (t - s - 1)) by lia. rewrite Z.pow_succ_r by lia.
    rewrite Z.mul_assoc, (Z.mul_comm u 10), <- Z.mul_assoc, Z.mul_comm. apply Z_mod_mult. }
  destruct y as [u s], z as [w t]. unfold stripped. cbn [scale unscaled]. intros H A B. destruct (Z.lt_trichotomy s t) as [L|[L|L]].
  - exfalso. specialize (X u s w t H L). lia.
  - apply same_decimal; [exact H|exact L].
  - exfalso. symmetry in H. specialize (X w t u s H L). lia.
Qed.
Lemma returned_unique u x y : SpecCompute.returned u x -> SpecCompute.returned u y ->
  (forall z, x = Ok (VDec z) -> stripped z) -> (forall z, y = Ok (VDec z) -> stripped z) -> x = y.
Proof.
  destruct u as [| |m e]; cbn [SpecCompute.returned]; try (intros; congruence). intros [A B] [C D] X Y.
  destruct (integral (double_value m e)) as [[z Z]|N].
  - destruct (fits32_dec z) as [F|F]; [rewrite (A z Z F), (C z Z F); reflexivity|].
    assert (G : forall z', (double_value m e == inject_Z z')%Q -> ~ fits32 z').
    { intros z' Z' F'. rewrite Z in Z'. apply (proj1 (inject_eq _ _)) in Z'. apply F. rewrite Z'. exact F'. }
    destruct (exactly_same _ _ x y (B G) (D G) (Qeq_refl _)) as (a & b & -> & -> & E). f_equal. f_equal. apply stripped_unique; auto.
  - assert (G : forall z', (double_value m e == inject_Z z')%Q -> ~ fits32 z') by (intros z' Z'; exfalso; exact (N z' Z')).
    destruct (exactly_same _ _ x y (B G) (D G) (Qeq_refl _)) as (a & b & -> & -> & E). f_equal. f_equal. apply stripped_unique; auto.
Qed.
Lemma held_whole v a s : stands v a -> held v s -> a = INTEGER \/ a = LONG -> exists z, s = BD z 0 /\ (dec_value s == inject_Z z)%Q.
Proof.
  intros Sv H T. destruct (stands_type v a Sv) as [G _]. destruct H as [z B|z B|b|dbl n ip fp|dbl n ip fp e]; cbn in G; try (exfalso; destruct T; congruence).
  - exists z. split; [reflexivity|]. apply dec_of_Z.
  - exists z. split; [reflexivity|]. apply dec_of_Z.
Qed.
Lemma computes_unique E op v w a b s t x y : arithmetic op -> stands v a -> stands w b -> held v s -> held w t -> supported op a -> supported op b -> ~ wordy a -> ~ wordy b ->
  computes E op a b (dec_value s) (dec_value t) x -> operator_decimals op s t x -> (op = EXPONENT -> a = DECIMAL \/ b = DECIMAL -> SpecCompute.returned (pow_dec E s t) x) ->
  computes E op a b (dec_value s) (dec_value t) y -> operator_decimals op s t y -> (op = EXPONENT -> a = DECIMAL \/ b = DECIMAL -> SpecCompute.returned (pow_dec E s t) y) -> x = y.
Proof.
  intros A Sv Sw Hv Hw Pa Pb Wa Wb Cx Dx Px Cy Dy Py.
  assert (Ta : a = INTEGER \/ a = LONG \/ a = DECIMAL) by (clear -A Pa Wa; unfold wordy in Wa; destruct A as [<-|[<-|[<-|[<-|[<-|[<-|[]]]]]]]; cbn in Pa; tauto).
  assert (Tb : b = INTEGER \/ b = LONG \/ b = DECIMAL) by (clear -A Pb Wb; unfold wordy in Wb; destruct A as [<-|[<-|[<-|[<-|[<-|[<-|[]]]]]]]; cbn in Pb; tauto).
  assert (F : (a = DECIMAL \/ b = DECIMAL) \/ ~ (a = DECIMAL \/ b = DECIMAL)) by (clear; destruct a, b; intuition discriminate).
  assert (W : ~ (a = DECIMAL \/ b = DECIMAL) -> exists m n, (dec_value s == inject_Z m)%Q /\ (dec_value t == inject_Z n)%Q).
  { intros N. destruct (held_whole v a s Sv Hv ltac:(tauto)) as (m & _ & M). destruct (held_whole w b t Sw Hw ltac:(tauto)) as (n & _ & N'). exists m, n. auto. }
  assert (L : (a = LONG \/ b = LONG) \/ ~ (a = LONG \/ b = LONG)) by (clear; destruct a, b; intuition discriminate).
  assert (DD : forall k, (exists u w, x = Ok (VDec u) /\ y = Ok (VDec w) /\ (dec_value u == dec_value w)%Q) ->
    (forall u, x = Ok (VDec u) -> scale u = k) -> (forall u, y = Ok (VDec u) -> scale u = k) -> x = y).
  { intros k (u & z & -> & -> & V) X Y. f_equal. f_equal. apply same_decimal; [exact V|]. rewrite (X u eq_refl), (Y z eq_refl). reflexivity. }
  destruct A as [<-|[<-|[<-|[<-|[<-|[<-|[]]]]]]]; cbn [computes] in Cx, Cy.
  - destruct Cx as [X1 X2], Cy as [Y1 Y2]. destruct F as [F|F].
    + eapply DD; [exact (exactly_same _ _ x y (X1 F) (Y1 F) (Qeq_refl _))|exact Dx|exact Dy].
    + destruct (W F) as (m & n & M & N). destruct (X2 F m n M N) as (z & u & Z & U & ->), (Y2 F m n M N) as (z' & u' & Z' & U' & ->).
      rewrite (wraps_unique 64 _ z' z ltac:(lia) Z' Z) in U'. rewrite (smallest_unique z u u' U U'). reflexivity.
  - destruct Cx as [X1 [X2 X3]], Cy as [Y1 [Y2 Y3]]. destruct F as [F|F].
    + eapply DD; [exact (exactly_same _ _ x y (X1 F) (Y1 F) (Qeq_refl _))|exact Dx|exact Dy].
    + destruct (W F) as (m & n & M & N). destruct L as [L|L].
      * destruct (X2 F L m n M N) as (z & Z & ->), (Y2 F L m n M N) as (z' & Z' & ->). rewrite (wraps_unique 64 _ z' z ltac:(lia) Z' Z). reflexivity.
      * destruct (X3 F L m n M N) as (z & Z & ->), (Y3 F L m n M N) as (z' & Z' & ->). rewrite (wraps_unique 32 _ z' z ltac:(lia) Z' Z). reflexivity.
  - destruct Cx as [X1 X2], Cy as [Y1 Y2]. destruct F as [F|F].
    + eapply DD; [exact (exactly_same _ _ x y (X1 F) (Y1 F) (Qeq_refl _))|exact Dx|exact Dy].
    + destruct (W F) as (m & n & M & N). destruct (X2 F m n M N) as (z & u & Z & U & ->), (Y2 F m n M N) as (z' & u' & Z' & U' & ->).
      rewrite (wraps_unique 64 _ z' z ltac:(lia) Z' Z) in U'. rewrite (smallest_unique z u u' U U'). reflexivity.
  - destruct Cx as [X1 X2], Cy as [Y1 Y2]. destruct (Qeq_dec (dec_value t) 0) as [Z|Z]; [rewrite (X1 Z), (Y1 Z); reflexivity|].
    destruct (X2 Z) as (k & K & X3 & X4), (Y2 Z) as (k' & K' & Y3 & Y4). rewrite (truncates_unique _ _ _ K' K) in Y3, Y4.
    assert (D : (exists n, k = 1000 * n) \/ forall n, k <> 1000 * n).
    { destruct (Z.eq_dec (k mod 1000) 0) as [H|H]; [left; exists (k / 1000); pose proof (Z_div_mod_eq_full k 1000); lia|right].
      intros n ->. apply H. rewrite Z.mul_comm. apply Z_mod_mult. }
    destruct D as [[n Hn]|D].
    + destruct (X3 n Hn) as [X5 X6], (Y3 n Hn) as [Y5 Y6]. destruct (fits32_dec n) as [G|G]; [rewrite (X5 G), (Y5 G)|rewrite (X6 G), (Y6 G)]; reflexivity.
    + eapply DD; [exact (exactly_same _ _ x y (X4 D) (Y4 D) (Qeq_refl _))|exact Dx|exact Dy].
  - assert (F' : ~ (a = DECIMAL \/ b = DECIMAL)) by (clear -Pa Pb; cbn in Pa, Pb; intuition congruence). destruct (W F') as (m & n & M & N).
    destruct (Cx m n M N) as [X1 X2], (Cy m n M N) as [Y1 Y2]. destruct (Z.eq_dec n 0) as [Z|Z]; [rewrite (X1 Z), (Y1 Z); reflexivity|].
    destruct (X2 Z) as (k & r & R1 & R2 & R3 & R4 & R5), (Y2 Z) as (k' & r' & S1 & S2 & S3 & S4 & S5).
    assert (r = r').
    { destruct (Z.eq_dec k k') as [-> |K]; [lia|exfalso]. assert (Dr : r - r' = n * (k' - k)) by lia.
      assert (Z.abs (r - r') >= Z.abs n) by (rewrite Dr, Z.abs_mul; assert (1 <= Z.abs (k' - k)) by lia; nia).
      destruct (Z.eq_dec m 0) as [-> |Nm]; [|assert (0 <= r * r') by nia; nia].
      assert (Z.abs n * Z.abs k < Z.abs n) by (rewrite <- Z.abs_mul; lia). assert (Z.abs n * Z.abs k' < Z.abs n) by (rewrite <- Z.abs_mul; lia).
      assert (k = 0) by nia. assert (k' = 0) by nia. lia. }
    subst r'. destruct L as [L|L]; [rewrite (R4 L), (S4 L)|rewrite (R5 L), (S5 L)]; reflexivity.
  - destruct F as [F|F].
    + apply (returned_unique (pow_dec E s t)); [exact (Px eq_refl F)|exact (Py eq_refl F)|exact Dx|exact Dy].
    + destruct Cx as [_ X], Cy as [_ Y]. destruct (W F) as (m & n & M & N). apply (returned_unique (pow_long E m n)); [exact (X F m n M N)|exact (Y F m n M N)|exact Dx|exact Dy].
Qed.

Lemma exactly_ext p q x : (p == q)%Q -> exactly p x -> exactly q x.
Proof. intros H (y & -> & Y). exists y. split; [reflexivity|]. rewrite Y. exact H. Qed.
Lemma computes_ext E op a b p q p' q' x : (p == p')%Q -> (q == q')%Q -> computes E op a b p q x -> computes E op a b p' q' x.
Proof.
  intros P Q. assert (W : forall R : Z -> Z -> Prop, (forall m n, (p == inject_Z m)%Q -> (q == inject_Z n)%Q -> R m n) -> forall m n, (p' == inject_Z m)%Q -> (q' == inject_Z n)%Q -> R m n).
  { intros R H m n M N. apply H; [rewrite P; exact M|rewrite Q; exact N]. }
  destruct op; cbn [computes]; try (intros []; fail).
  - intros [A B]. split; [intros F; eapply exactly_ext; [|exact (A F)]; cbn; rewrite P, Q; reflexivity|]. intros F. apply W, (B F).
  - intros [A [B C]]. split; [intros F; eapply exactly_ext; [|exact (A F)]; rewrite P, Q; reflexivity|]. split; [intros F L; apply W, (B F L)|intros F L; apply W, (C F L)].
  - intros [A B]. split; [intros F; eapply exactly_ext; [|exact (A F)]; cbn; rewrite P, Q; reflexivity|]. intros F. apply W, (B F).
  - intros [A B]. split; [intros Z; apply A; rewrite Q; exact Z|]. intros Z. destruct B as (z & T & C); [rewrite Q; exact Z|]. exists z. split; [|exact C].
    eapply truncates_ext; [|exact T]. rewrite P, Q. reflexivity.
  - apply W.
  - intros [A B]. split; [|intros F; apply W, (B F)]. intros F. destruct (A F) as (s & t & V & V' & R). exists s, t. split; [rewrite V; exact P|]. split; [rewrite V'; exact Q|exact R].
Qed.
Lemma argument_named v a : argument_type v a -> get_data_type v = a /\ forall b t, v = VFloat b t -> exists q, float_text t q.
Proof.
  intros [S|[-> ->]]; [|split; [reflexivity|discriminate]]. destruct (stands_type v a S) as [T _]. split; [exact T|]. intros b t X. exact (stands_float_text v a S b t X).
Qed.
Lemma argument_stands v a : argument_type v a -> ~ wordy a -> stands v a.
Proof. intros [S|[-> ->]] W; [exact S|]. exfalso. apply W. unfold wordy. tauto. Qed.
Lemma exact_operator E d l r op v w : arithmetic op -> arith_eval E d l = Ok v -> arith_eval E d r = Ok w -> operation E op v w (arith_eval E d (bin l op r)).
Proof.
  intros A L R. split; [intros dbl t N H; exact (not_finite_arithmetic E d l r op v w dbl t A L R N H)|]. intros a b Av Aw.
  destruct (argument_named v a Av) as [Na Fa]. destruct (argument_named w b Aw) as [Nb Fb]. split; [|split].
  { intros N. assert (D : supported op a \/ ~ supported op a) by (clear; destruct op, a; cbn; intuition discriminate). destruct D as [D|D].
    - apply (reject_right E d l r op v w A L R). rewrite Nb. tauto.
    - apply (reject_left E d l r op v w A L R). rewrite Na. exact D. }
  { intros Pa Pb W. assert (op = ADD) as ->.
    { clear -A Pa Pb W. unfold wordy in W. destruct A as [<-|[<-|[<-|[<-|[<-|[<-|[]]]]]]]; [reflexivity| | | | |]; exfalso; cbn in Pa, Pb; intuition congruence. }
    apply (concat_text E d l r v w L R); [|rewrite Na; exact Pa|rewrite Nb; exact Pb|].
    - unfold textual. rewrite Na, Nb. unfold wordy in W. cbn. intuition.
    - intros b0 t [X|X]; [exact (Fa b0 t X)|exact (Fb b0 t X)]. }
  intros Pa Pb Wa Wb. pose proof (argument_stands v a Av Wa) as Sv. pose proof (argument_stands w b Aw Wb) as Sw. clear Na Nb Fa Fb.
  destruct (any_arithmetic E d l r op v w a b A L R Sv Sw) as [_ [_ H3]].
  destruct (H3 Pa Pb Wa Wb) as (p & q & Np & Nq & C). destruct (number_held v p Np) as (s & Hs & Vs). destruct (number_held w q Nq) as (t & Ht & Vt).
  destruct (stands_type v a Sv) as (Ta & _ & Va). destruct (stands_type w b Sw) as (Tb & _ & Vb).
  assert (C' : computes E op a b (dec_value s) (dec_value t) (arith_eval E d (bin l op r))) by (eapply computes_ext; [symmetry; exact Vs|symmetry; exact Vt|exact C]).
  exists s, t. split; [exact Hs|]. split; [exact Ht|]. split; [exact C'|].
  assert (F : (a = DECIMAL \/ b = DECIMAL) \/ ~ (a = DECIMAL \/ b = DECIMAL)) by (clear; destruct a, b; intuition discriminate).
  assert (T' : forall c, supported op c -> ~ wordy c -> c = INTEGER \/ c = LONG \/ c = DECIMAL) by (clear -A; intros c Pc Wc; unfold wordy in Wc; destruct A as [<-|[<-|[<-|[<-|[<-|[<-|[]]]]]]]; cbn in Pc; tauto).
  assert (W : ~ (a = DECIMAL \/ b = DECIMAL) -> exists m n, (dec_value s == inject_Z m)%Q /\ (dec_value t == inject_Z n)%Q).
  { intros N. destruct (held_whole v a s Sv Hs) as (m & _ & M); [specialize (T' a Pa Wa); tauto|]. destruct (held_whole w b t Sw Ht) as (n & _ & N'); [specialize (T' b Pb Wb); tauto|]. exists m, n. auto. }
  assert (D : a = DECIMAL \/ b = DECIMAL -> decimal v \/ decimal w) by (unfold decimal; rewrite Ta, Tb; tauto).
  split.
  - intros y Y. destruct A as [<-|[<-|[<-|[<-|[<-|[<-|[]]]]]]].
    + destruct F as [F|F].
      * destruct (proj1 (held_operator E d l r v w s t ADD L R Hs Ht (D F)) (or_introl eq_refl)) as (u & U & K). rewrite U in Y. injection Y as <-. exact K.
      * exfalso. destruct C' as [_ C']. destruct (W F) as (m & n & M & N). destruct (C' F m n M N) as (z & u & _ & S & U). rewrite U in Y. destruct S as [[_ ->]|[_ [_ ->]]]; discriminate Y.
    + destruct F as [F|F].
      * destruct (proj1 (held_operator E d l r v w s t SUBTRACT L R Hs Ht (D F)) (or_intror eq_refl)) as (u & U & K). rewrite U in Y. injection Y as <-. exact K.
      * exfalso. destruct C' as [_ [C1 C2]]. destruct (W F) as (m & n & M & N). assert (Lo : (a = LONG \/ b = LONG) \/ ~ (a = LONG \/ b = LONG)) by (clear; destruct a, b; intuition discriminate).
        destruct Lo as [Lo|Lo]; [destruct (C1 F Lo m n M N) as (z & _ & U)|destruct (C2 F Lo m n M N) as (z & _ & U)]; rewrite U in Y; discriminate Y.
    + destruct F as [F|F].
      * destruct (proj2 (held_operator E d l r v w s t MULTIPLY L R Hs Ht (D F)) eq_refl) as (u & U & K). rewrite U in Y. injection Y as <-. exact K.
      * exfalso. destruct C' as [_ C']. destruct (W F) as (m & n & M & N). destruct (C' F m n M N) as (z & u & _ & S & U). rewrite U in Y. destruct S as [[_ ->]|[_ [_ ->]]]; discriminate Y.
    + exact (held_divide E d l r v w p q y L R Np Nq Y).
    + exact Logic.I.
    + exact (held_power E d l r v w p q y L R Np Nq Y).
  - intros -> G. rewrite (bin_apply E d l EXPONENT r v w L R); rewrite ?Ta, ?Tb; try assumption. cbn [apply_op]. unfold eval_exponent.
    assert (X : either DECIMAL a b = true) by (unfold either; destruct G as [-> | ->]; [reflexivity|apply orb_true_r]). rewrite X.
    rewrite (held_decimal v s Hs), (held_decimal w t Ht). cbn [opt_get bind]. apply cast_returned.
Qed.
Lemma operation_unique E op v w x y : arithmetic op -> genuine v -> genuine w -> operation E op v w x -> operation E op v w y -> x = y.
Proof.
  intros A Gv Gw [X0 X] [Y0 Y].
  assert (N : forall u, genuine u -> (exists a, argument_type u a) \/ exists dbl t, u = VFloat dbl t /\ not_finite t).
  { intros u [t [S|[[-> _]|(dbl & s & -> & F & _)]]]; [left; exists t; left; exact S|left; exists STRING; right; auto|right; eauto]. }
  destruct (N v Gv) as [[a Sv]|(dbl & t & Ev & F)]; [|rewrite (X0 dbl t F (or_introl Ev)), (Y0 dbl t F (or_introl Ev)); reflexivity].
  destruct (N w Gw) as [[b Sw]|(dbl & t & Ew & F)]; [|rewrite (X0 dbl t F (or_intror Ew)), (Y0 dbl t F (or_intror Ew)); reflexivity].
  destruct (X a b Sv Sw) as [X1 [X2 X3]], (Y a b Sv Sw) as [Y1 [Y2 Y3]].
  assert (D : forall c, supported op c \/ ~ supported op c) by (clear; intros c; destruct op, c; cbn; intuition discriminate).
  destruct (D a) as [Pa|Pa]; [|rewrite X1, Y1 by tauto; reflexivity]. destruct (D b) as [Pb|Pb]; [|rewrite X1, Y1 by tauto; reflexivity].
  assert (W : (wordy a \/ wordy b) \/ (~ wordy a /\ ~ wordy b)) by (clear; unfold wordy; destruct a, b; intuition discriminate).
  destruct W as [W|[Wa Wb]]; [rewrite X2, Y2 by assumption; reflexivity|].
  destruct (X3 Pa Pb Wa Wb) as (s & t & Hs & Ht & C1 & C2 & C3), (Y3 Pa Pb Wa Wb) as (s' & t' & Hs' & Ht' & D1 & D2 & D3).
  rewrite (held_unique v s' s Hs' Hs) in *. rewrite (held_unique w t' t Ht' Ht) in *. exact (computes_unique E op v w a b s t x y A (argument_stands v a Sv Wa) (argument_stands w b Sw Wb) Hs Ht Pa Pb Wa Wb C1 C2 C3 D1 D2 D3).
Qed.
Lemma operator_determined E d l r op v w : arithmetic op -> arith_eval E d l = Ok v -> arith_eval E d r = Ok w -> genuine v -> genuine w ->
  forall x, operation E op v w x <-> arith_eval E d (bin l op r) = x.
Proof.
  intros A L R Gv Gw x. pose proof (exact_operator E d l r op v w A L R) as H. split; [|intros <-; exact H].
  intros X. exact (operation_unique E op v w _ x A Gv Gw H X).
Qed.
Lemma not_finite_negation E d n dbl t : arith_eval E d n = Ok (VFloat dbl t) -> not_finite t -> arith_eval E d (neg n) = Err InvalidDataType.
Proof.
  intros L N. destruct (not_finite_parse t N) as [P _]. unfold neg. cbn [arith_eval]. rewrite L. cbn [bind]. unfold evaluate_arithmetic. cbn. rewrite P. reflexivity.
Qed.
Lemma negation_unique v x y : genuine v -> negation v x -> negation v y -> x = y.
Proof.
  intros [t [S|[[-> _]|(dbl & s & -> & F & _)]]] [X0 X] [Y0 Y]; [|destruct (X STRING ltac:(right; auto)) as [-> _], (Y STRING ltac:(right; auto)) as [-> _]; reflexivity|rewrite (X0 dbl s F eq_refl), (Y0 dbl s F eq_refl); reflexivity].
  apply (or_introl (B := v = VNull /\ t = STRING)) in S. destruct (X t S) as [A A'], (Y t S) as [B B']. clear S X0 X Y0 Y. destruct v; cbn [negates] in A, B; try congruence.
  - destruct A as (a & A & ->), B as (b & B & ->). rewrite (wraps_unique 32 _ a b ltac:(lia) A B). reflexivity.
  - destruct A as (a & A & ->), B as (b & B & ->). rewrite (wraps_unique 64 _ a b ltac:(lia) A B). reflexivity.
  - destruct (exactly_same _ _ x y A B (Qeq_refl _)) as (u & w & -> & -> & V). f_equal. f_equal. apply same_decimal; [exact V|].
    rewrite (A' d u eq_refl eq_refl), (B' d w eq_refl eq_refl). reflexivity.
Qed.
Lemma exact_negation E d n v : arith_eval E d n = Ok v -> negation v (arith_eval E d (neg n)).
Proof.
  intros L. split; [intros dbl t N ->; exact (not_finite_negation E d n dbl t L N)|]. intros a Sv.
  split; [destruct Sv as [Sv|[-> ->]]; [exact (any_negation E d n v a L Sv)|cbn [negates]; apply (reject_unary E d n VNull L); cbn; intuition discriminate]|]. intros b y -> Y. rewrite (held_negation E d n b L) in Y. injection Y as <-. reflexivity.
Qed.
Lemma negation_determined E d n v : arith_eval E d n = Ok v -> genuine v -> forall x, negation v x <-> arith_eval E d (neg n) = x.
Proof.
  intros L G x. pose proof (exact_negation E d n v L) as H. split; [intros X; exact (negation_unique v _ x G H X)|intros <-; exact H].
Qed.

(** ** Calls *)
Lemma two_splits {A} : forall (a b a' b' : list A) x x', a ++ x :: b = a' ++ x' :: b' -> (a = a' /\ x = x') \/ (exists c, a' = a ++ x :: c) \/ exists c, a = a' ++ x' :: c.
Proof.
  induction a as [|h a IH]; intros b a' b' x x' H; destruct a' as [|h' a']; cbn in H.
  - injection H as -> _. left. auto.
  - injection H as -> H. right. left. exists a'. reflexivity.
  - injection H as -> H. right. right. exists a. reflexivity.
  - injection H as -> H. destruct (IH b a' b' x x' H) as [[-> ->]|[[c ->]|[c ->]]]; [left; auto|right; left; exists c; reflexivity|right; right; exists c; reflexivity].
Qed.
Lemma first_best_unique (R : Q -> Q -> Prop) bs y z : (forall p q, R p q -> R q p -> (p == q)%Q) -> first_best R bs y -> first_best R bs z -> y = z.
Proof.
  intros As (a & b & E & Y & N) (a' & b' & E' & Z & N').
  assert (V : (dec_value y == dec_value z)%Q) by (apply As; [apply Y; rewrite E'; apply in_elt|apply Z; rewrite E; apply in_elt]).
  rewrite E in E'. destruct (two_splits _ _ _ _ _ _ E') as [[_ H]|[[c ->]|[c ->]]]; [exact H| |].
  - exfalso. apply (N' y (in_elt _ _ _) V).
  - exfalso. apply (N z (in_elt _ _ _)). symmetry. exact V.
Qed.
Lemma level_app y a b : level y (a ++ b) = level y a ++ level y b. Proof. apply filter_app. Qed.
Lemma level_ext y z l : (dec_value y == dec_value z)%Q -> level y l = level z l.
Proof.
  intros V. unfold level. apply filter_ext. intros b. apply eq_true_iff_eq. rewrite !Qeq_bool_iff. rewrite V. reflexivity.
Qed.
Lemma lower_ext y z l : (dec_value y == dec_value z)%Q -> lower y l = lower z l.
Proof.
  intros V. unfold lower. apply filter_ext. intros b. f_equal. apply eq_true_iff_eq. rewrite !Qle_bool_iff. rewrite V. reflexivity.
Qed.
Lemma level_self y l : length (level y (y :: l)) = S (length (level y l)).
Proof. unfold level. cbn [filter]. assert (H : Qeq_bool (dec_value y) (dec_value y) = true) by (apply Qeq_bool_iff; reflexivity). rewrite H. reflexivity. Qed.
Lemma lower_level y z l : (dec_value y < dec_value z)%Q -> (length (lower y l) + length (level y l) <= length (lower z l))%nat.
Proof.
  intros V. induction l as [|b l IH]; [cbn; lia|]. unfold lower, level in *. cbn [filter].
  destruct (Qlt_le_dec (dec_value b) (dec_value z)) as [B|B].
  - assert (H : Qle_bool (dec_value z) (dec_value b) = false) by (destruct (Qle_bool _ _) eqn:X; [apply Qle_bool_iff in X; exfalso; exact (Qlt_not_le _ _ B X)|reflexivity]).
    rewrite H. cbn [negb length]. destruct (Qle_bool (dec_value y) (dec_value b)) eqn:X; cbn [negb].
    + destruct (Qeq_bool _ _); cbn [length]; lia.
    + destruct (Qeq_bool (dec_value b) (dec_value y)) eqn:Y; [|cbn [length]; lia].
      apply Qeq_bool_iff in Y. assert (Qle_bool (dec_value y) (dec_value b) = true) by (apply Qle_bool_iff; rewrite Y; apply Qle_refl). congruence.
  - assert (H : Qle_bool (dec_value z) (dec_value b) = true) by (apply Qle_bool_iff; exact B). rewrite H. cbn [negb].
    assert (H' : Qle_bool (dec_value y) (dec_value b) = true) by (apply Qle_bool_iff; eapply Qle_trans; [apply Qlt_le_weak; exact V|exact B]). rewrite H'. cbn [negb].
    destruct (Qeq_bool (dec_value b) (dec_value y)) eqn:Y; [|exact IH]. apply Qeq_bool_iff in Y. rewrite Y in B. exfalso. exact (Qlt_not_le _ _ V B).
Qed.
Lemma in_place_unique k bs y z : in_place k bs y -> in_place k bs z -> y = z.
Proof.
  assert (X : forall y z, in_place k bs y -> in_place k bs z -> ~ (dec_value y < dec_value z)%Q).
  { intros u w (a & b & E & K) (a' & b' & E' & K') V. pose proof (lower_level u w bs V) as H. rewrite E in H at 2. rewrite level_app, app_length, level_self in H. lia. }
  intros Y Z. assert (V : (dec_value y == dec_value z)%Q).
  { destruct (Q_dec (dec_value y) (dec_value z)) as [[H|H]|H]; [exfalso; exact (X y z Y Z H)|exfalso; exact (X z y Z Y H)|exact H]. }
  destruct Y as (a & b & E & K), Z as (a' & b' & E' & K'). rewrite (lower_ext y z bs V), (level_ext y z a V) in K.
  rewrite E in E'. destruct (two_splits _ _ _ _ _ _ E') as [[_ H]|[[c ->]|[c ->]]]; [exact H| |].
  - exfalso. rewrite level_app, app_length in K'. rewrite <- (level_ext y z (y :: c) V), level_self in K'. lia.
  - exfalso. rewrite level_app, app_length, level_self in K. lia.
Qed.
Lemma times_fun v l n m : times v l n -> times v l m -> n = m.
Proof. intros H. revert m. induction H; intros m M; inversion M; subst; auto; try congruence. Qed.
Lemma times_app v a b n m : times v a n -> times v b m -> times v (a ++ b) (n + m).
Proof. intros H. induction H; intros M; cbn; [exact M|constructor; auto|constructor; auto]. Qed.
Lemma first_mode_unique l v w : (forall u, In u l -> exists q, number u q) -> first_mode l v -> first_mode l w -> v = w.
Proof.
  intros Num (n & a & b & E & T & M & P & F) (n' & a' & b' & E' & T' & M' & P' & F').
  assert (n = n') as <- by (specialize (M w n' T'); specialize (M' v n T); lia).
  assert (K : forall u c, In u l -> exists k, times u c k).
  { intros u c I. destruct (Num u I) as [q Hq]. exists (occ u c). apply times_occ; [eapply key_refl; exact Hq|reflexivity]. }
  assert (Iv : In v l) by (rewrite E; apply in_elt). assert (Iw : In w l) by (rewrite E'; apply in_elt).
  rewrite E in E'. destruct (two_splits _ _ _ _ _ _ E') as [[_ H]|[[c ->]|[c ->]]]; [exact H| |]; exfalso.
  - destruct (K v c Iv) as [k Hk]. specialize (F' v (n + k)%nat). replace (a ++ v :: c) with ((a ++ [v]) ++ c) in F' by (rewrite <- app_assoc; reflexivity). specialize (F' (times_app _ _ _ _ _ P Hk)). lia.
  - destruct (K w c Iw) as [k Hk]. specialize (F w (n + k)%nat). replace (a' ++ w :: c) with ((a' ++ [w]) ++ c) in F by (rewrite <- app_assoc; reflexivity). specialize (F (times_app _ _ _ _ _ P' Hk)). lia.
Qed.
Definition agree (x y : res jval) : Prop := x = y \/ exists u w, x = Ok (VDec u) /\ y = Ok (VDec w) /\ (dec_value u == dec_value w)%Q.
Lemma agree_scale k x y : agree x y -> (forall u, x = Ok (VDec u) -> scale u = k) -> (forall u, y = Ok (VDec u) -> scale u = k) -> x = y.
Proof. intros [H|(u & w & -> & -> & V)] X Y; [exact H|]. f_equal. f_equal. apply same_decimal; [exact V|]. rewrite (X u eq_refl), (Y w eq_refl). reflexivity. Qed.
Lemma agree_only (P : bigdec -> Prop) x y : agree x y -> (forall u w, P u -> P w -> u = w) -> (forall u, x = Ok (VDec u) -> P u) -> (forall u, y = Ok (VDec u) -> P u) -> x = y.
Proof. intros [H|(u & w & -> & -> & V)] U X Y; [exact H|]. rewrite (U u w (X u eq_refl) (Y w eq_refl)). reflexivity. Qed.
Lemma decimal_agree x y p q : (p == q)%Q -> decimal_result x p -> decimal_result y q -> agree x y.
Proof.
  intros V X Y. apply (decimal_result_ext y q p) in Y; [|symmetry; exact V]. clear q V.
  destruct X as [z p E F|z p E F|u p E F]; inversion Y as [z' p' E' F'|z' p' E' F'|u' p' E' F']; subst.
  - left. rewrite E in E'. apply (proj1 (inject_eq _ _)) in E'. rewrite E'. reflexivity.
  - exfalso. rewrite E in E'. apply (proj1 (inject_eq _ _)) in E'. subst. contradiction.
  - exfalso. exact (E' z E).
  - exfalso. rewrite E in E'. apply (proj1 (inject_eq _ _)) in E'. subst. contradiction.
  - left. reflexivity.
  - exfalso. exact (E' z E).
  - exfalso. exact (E z' E').
  - exfalso. exact (E z' E').
  - right. exists u, u'. split; [reflexivity|]. split; [reflexivity|]. rewrite F, F'. reflexivity.
Qed.
Lemma whole_agree x y z : whole_result x z -> whole_result y z -> agree x y.
Proof.
  intros [A B] [C D]. destruct (fits32_dec z) as [F|F]; [left; rewrite (A F), (C F); reflexivity|]. destruct (B F) as (u & -> & U), (D F) as (w & -> & W).
  right. exists u, w. split; [reflexivity|]. split; [reflexivity|]. rewrite U, W. reflexivity.
Qed.
Lemma number_unique v p q : number v p -> number v q -> (p == q)%Q.
Proof.
  intros P Q. destruct (number_decimal v p P) as (b & B & V). destruct (number_decimal v q Q) as (c & C & W). rewrite B in C. injection C as <-. rewrite <- V, <- W. reflexivity.
Qed.
Lemma numbers_unique ms : forall qs qs', Forall2 number ms qs -> Forall2 number ms qs' -> Forall2 Qeq qs qs'.
Proof.
  induction ms as [|v ms IH]; intros qs qs' A B; inversion A; inversion B; subst; constructor; [eapply number_unique; eassumption|auto].
Qed.
Lemma whole_unique v m n : whole v m -> whole v n -> m = n.
Proof. intros [] B; inversion B; reflexivity. Qed.
Lemma wholes_unique ms : forall zs zs', Forall2 whole ms zs -> Forall2 whole ms zs' -> zs = zs'.
Proof.
  induction ms as [|v ms IH]; intros zs zs' A B; inversion A; inversion B; subst; [reflexivity|]. f_equal; [eapply whole_unique; eassumption|auto].
Qed.
Lemma Forall2_in {A B} (R : A -> B -> Prop) l l' x : Forall2 R l l' -> In x l -> exists y, In y l' /\ R x y.
Proof. intros H. induction H as [|a b l l' H _ IH]; intros I; [destruct I|]. destruct I as [<-|I]; [exists b; cbn; auto|]. destruct (IH I) as (y & Y & Z). exists y. cbn. auto. Qed.
Lemma best_same (R : Q -> Q -> Prop) qs qs' q q' : (forall a b a' b', (a == a')%Q -> (b == b')%Q -> R a b -> R a' b') -> (forall a b, R a b -> R b a -> (a == b)%Q) ->
  Forall2 Qeq qs qs' -> (In q qs /\ forall p, In p qs -> R q p) -> (In q' qs' /\ forall p, In p qs' -> R q' p) -> (q == q')%Q.
Proof.
  intros C As F [I B] [I' B']. destruct (Forall2_in _ _ _ _ F I) as (p & P & E). assert (F' : Forall2 Qeq qs' qs).
  { clear -F. induction F; constructor; auto. symmetry. assumption. }
  destruct (Forall2_in _ _ _ _ F' I') as (p' & P' & E'). apply As.
  - apply (C q p' q q'); [reflexivity|symmetry; exact E'|exact (B p' P')].
  - apply (C q' p q' q); [reflexivity|symmetry; exact E|exact (B' p P)].
Qed.
Lemma total_ext qs qs' : Forall2 Qeq qs qs' -> (total qs == total qs')%Q.
Proof. intros H. induction H as [|a b l l' E _ IH]; cbn; [reflexivity|]. rewrite E. unfold total in IH. rewrite IH. reflexivity. Qed.
Lemma mean_ext qs qs' : Forall2 Qeq qs qs' -> (mean qs == mean qs')%Q.
Proof. intros H. unfold mean. rewrite (total_ext _ _ H). replace (length qs) with (length qs') by (symmetry; clear -H; induction H; cbn; congruence). reflexivity. Qed.
Lemma ascending_same qs qs' s s' i : Forall2 Qeq qs qs' -> ascending qs s -> ascending qs' s' -> (nth i s 0 == nth i s' 0)%Q.
Proof.
  intros F [P S] [P' S']. apply nth_red. apply sorted_unique; [intros q I; apply in_map_iff in I as (p & <- & _); apply Qred_complete, Qred_correct| |apply sorted_map_red, S|apply sorted_map_red, S'].
  rewrite (Permutation_map Qred P), (Permutation_map Qred P'). replace (map Qred qs') with (map Qred qs); [reflexivity|].
  clear -F. induction F as [|a b l l' E _ IH]; cbn; [reflexivity|]. f_equal; [apply Qred_complete, E|exact IH].
Qed.

Lemma decimal_among ms : Exists decimal ms \/ ~ Exists decimal ms.
Proof.
  induction ms as [|v ms IH]; [right; intros H; inversion H|]. assert (D : decimal v \/ ~ decimal v) by (unfold decimal; destruct (get_data_type v); intuition discriminate).
  destruct D as [D|D]; [left; left; exact D|]. destruct IH as [IH|IH]; [left; right; exact IH|]. right. intros H. inversion H; contradiction.
Qed.
Lemma two_agree q x y : two_decimals q x -> two_decimals q y -> agree x y.
Proof.
  intros [A B] [C D]. destruct (integral (q * inject_Z 100)) as [H|H]; [|left; rewrite (B H), (D H); reflexivity]. exact (decimal_agree x y q q (Qeq_refl q) (A H) (C H)).
Qed.
Lemma average_unique E ms x y : gives E F_AVG ms x -> (forall z, x = Ok (VDec z) -> (Exists decimal ms -> scale z = 3) /\ (~ Exists decimal ms -> scale z = 2)) ->
  gives E F_AVG ms y -> (forall z, y = Ok (VDec z) -> (Exists decimal ms -> scale z = 3) /\ (~ Exists decimal ms -> scale z = 2)) -> x = y.
Proof.
  cbn [gives]. intros [X1 X2] Dx [Y1 Y2] Dy. destruct (decimal_among ms) as [D|D].
  - destruct (X1 D) as (qs & Q1 & z & T1 & R1), (Y1 D) as (qs' & Q2 & z' & T2 & R2).
    assert (z' = z) as ->.
    { eapply truncates_unique; [exact T2|]. eapply truncates_ext; [|exact T1]. rewrite (mean_ext _ _ (numbers_unique ms _ _ Q1 Q2)). reflexivity. }
    eapply agree_scale; [exact (decimal_agree x y _ _ (Qeq_refl _) R1 R2)|intros u U; exact (proj1 (Dx u U) D)|intros u U; exact (proj1 (Dy u U) D)].
  - destruct (X2 D) as (zs & W1 & z & T1 & R1), (Y2 D) as (zs' & W2 & z' & T2 & R2). rewrite (wholes_unique ms _ _ W2 W1) in T2. rewrite (wraps_unique 64 _ z' z ltac:(lia) T2 T1) in R2.
    eapply agree_scale; [exact (two_agree _ x y R1 R2)|intros u U; exact (proj2 (Dx u U) D)|intros u U; exact (proj2 (Dy u U) D)].
Qed.
Lemma elapsed_unique E a x y : elapsed E a x -> elapsed E a y -> x = y.
Proof. intros (k & -> & K) (k' & -> & K'). rewrite (days_later_unique _ _ _ _ K K'). reflexivity. Qed.
Lemma calendar_dec a : calendar a \/ ~ calendar a.
Proof.
  destruct a as [y m d]. unfold calendar. cbn [year month day].
  assert (M : (exists n, month_days y m n) \/ forall n, ~ month_days y m n).
  { destruct (Z.eq_dec m 2) as [-> |N2].
    - left. assert (L : leap y \/ ~ leap y) by (destruct (is_leap y) eqn:L; [left; apply leap_iff, L|right; intros H; apply leap_iff in H; congruence]).
      destruct L as [L|L]; [exists 29; apply days29, L|exists 28; apply days28, L].
    - destruct (in_dec Z.eq_dec m [1; 3; 5; 7; 8; 10; 12]) as [H|H]; [left; exists 31; apply days31, H|].
      destruct (in_dec Z.eq_dec m [4; 6; 9; 11]) as [H'|H']; [left; exists 30; apply days30, H'|]. right. intros n C. inversion C as [m0 I|m0 I|I|I]; subst; tauto. }
  destruct M as [[n M]|M]; [|right; intros (n & H & _); exact (M n H)]. destruct (Z_le_dec 1 d) as [L|L]; [destruct (Z_le_dec d n) as [L'|L']; [left; exists n; split; [exact M|lia]|]|];
    right; intros (k & K & D); rewrite (month_days_unique y m k n K M) in D; lia.
Qed.
Lemma gives_unique E f ms ts x y : calendar (today E) -> Forall2 argument_type ms ts -> takes f (length ms) -> Forall (func_supported f) ts ->
  gives E f ms x -> (forall bs, Forall2 held ms bs -> (2 <= length ms)%nat -> function_decimals f ms bs x) ->
  gives E f ms y -> (forall bs, Forall2 held ms bs -> (2 <= length ms)%nat -> function_decimals f ms bs y) -> x = y.
Proof.
  intros Cal T K S X Dx Y Dy. pose proof (decimal_among ms) as DA.
  assert (N : list_function f \/ f = F_INT -> exists qs, Forall2 number ms qs) by (intros Lf; destruct (supported_numbers f ms ts Lf T S) as (qs & Hq & _); eauto).
  assert (B : list_function f \/ f = F_INT -> exists bs, Forall2 held ms bs).
  { intros Lf. destruct (N Lf) as [qs Hq]. clear -Hq. induction Hq as [|v q ms qs Hv _ [bs IH]]; [exists []; constructor|].
    destruct (number_held v q Hv) as (b & Hb & _). exists (b :: bs). constructor; assumption. }
  assert (Le : forall a b a' b' : Q, (a == a')%Q -> (b == b')%Q -> (a <= b)%Q -> (a' <= b')%Q) by (intros a b a' b' A1 A2; rewrite A1, A2; auto).
  destruct f; cbn [takes] in K.
  - destruct (B ltac:(left; listf)) as [bs Hb]. specialize (Dx bs Hb K). specialize (Dy bs Hb K). cbn [gives] in X, Y. destruct X as [X1 X2], Y as [Y1 Y2]. destruct DA as [D|D].
    + destruct (X1 D) as (qs & Q1 & q & L1 & R1), (Y1 D) as (qs' & Q2 & q' & L2 & R2).
      apply (agree_only (first_best (fun p q => p <= q)%Q bs)); [|intros u w; apply first_best_unique; intros; apply Qle_antisym; assumption|intros u U; apply (proj1 (Dx u U)), D|intros u U; apply (proj1 (Dy u U)), D].
      eapply decimal_agree; [|exact R1|exact R2]. eapply (best_same Qle); [exact Le|intros; apply Qle_antisym; assumption|exact (numbers_unique ms _ _ Q1 Q2)|exact L1|exact L2].
    + destruct (X2 D) as (zs & W1 & z & u & I1 & L1 & N1 & R1), (Y2 D) as (zs' & W2 & z' & u' & I2 & L2 & N2 & R2). rewrite (wholes_unique ms _ _ W2 W1) in *.
      assert (z' = z) as -> by (specialize (L1 z' I2); specialize (L2 z I1); lia). rewrite (nearest_unique z u' u N2 N1) in R2.
      eapply agree_scale; [exact (whole_agree x y u R1 R2)|intros w U; apply (proj2 (Dx w U)), D|intros w U; apply (proj2 (Dy w U)), D].
  - destruct (B ltac:(left; listf)) as [bs Hb]. specialize (Dx bs Hb K). specialize (Dy bs Hb K). cbn [gives] in X, Y. destruct X as [X1 X2], Y as [Y1 Y2]. destruct DA as [D|D].
    + destruct (X1 D) as (qs & Q1 & q & L1 & R1), (Y1 D) as (qs' & Q2 & q' & L2 & R2).
      apply (agree_only (first_best (fun p q => q <= p)%Q bs)); [|intros u w; apply first_best_unique; intros; apply Qle_antisym; assumption|intros u U; apply (proj1 (Dx u U)), D|intros u U; apply (proj1 (Dy u U)), D].
      eapply decimal_agree; [|exact R1|exact R2].
      eapply (best_same (fun p q => q <= p)%Q); [intros a b a' b' A1 A2; rewrite A1, A2; auto|intros; apply Qle_antisym; assumption|exact (numbers_unique ms _ _ Q1 Q2)|exact L1|exact L2].
    + destruct (X2 D) as (zs & W1 & z & u & I1 & L1 & N1 & R1), (Y2 D) as (zs' & W2 & z' & u' & I2 & L2 & N2 & R2). rewrite (wholes_unique ms _ _ W2 W1) in *.
      assert (z' = z) as -> by (specialize (L1 z' I2); specialize (L2 z I1); lia). rewrite (nearest_unique z u' u N2 N1) in R2.
      eapply agree_scale; [exact (whole_agree x y u R1 R2)|intros w U; apply (proj2 (Dx w U)), D|intros w U; apply (proj2 (Dy w U)), D].
  - destruct (B ltac:(left; listf)) as [bs Hb]. apply (average_unique E ms); [exact X|exact (Dx bs Hb K)|exact Y|exact (Dy bs Hb K)].
  - destruct (B ltac:(left; listf)) as [bs Hb]. specialize (Dx bs Hb K). specialize (Dy bs Hb K). cbn [gives] in X, Y. destruct X as [X1 X2], Y as [Y1 Y2].
    apply (agree_scale (most_decimals bs)); [|exact Dx|exact Dy]. destruct DA as [D|D].
    + destruct (X1 D) as (qs & Q1 & R1), (Y1 D) as (qs' & Q2 & R2). eapply decimal_agree; [|exact R1|exact R2]. apply total_ext, (numbers_unique ms _ _ Q1 Q2).
    + destruct (X2 D) as (zs & W1 & z & u & I1 & N1 & R1), (Y2 D) as (zs' & W2 & z' & u' & I2 & N2 & R2). rewrite (wholes_unique ms _ _ W2 W1) in I2.
      rewrite (wraps_unique 64 _ z' z ltac:(lia) I2 I1) in N2. rewrite (nearest_unique z u' u N2 N1) in R2. exact (whole_agree x y u R1 R2).
  - destruct (B ltac:(left; listf)) as [bs Hb]. apply (average_unique E ms); [exact X|exact (Dx bs Hb K)|exact Y|exact (Dy bs Hb K)].
  - destruct (N ltac:(left; listf)) as [qs Hq]. destruct (B ltac:(left; listf)) as [bs Hb]. specialize (Dx bs Hb K). specialize (Dy bs Hb K). destruct X as (v & V & R1), Y as (v' & V' & R2).
    assert (Num : forall u, In u ms -> exists q, number u q) by (intros u I; destruct (Forall2_in _ _ _ _ Hq I) as (q & _ & Q); eauto).
    rewrite (first_mode_unique ms v' v Num V' V) in R2. destruct v; cbn [SpecFunc.returned] in R1, R2; try congruence.
    + destruct R1 as (u & -> & U), R2 as (u' & -> & U'). rewrite (smallest_unique z u u' U U'). reflexivity.
    + apply (agree_only (fun u => VDec u = VDec d)); [exact (decimal_agree x y _ _ (Qeq_refl _) R1 R2)|intros u w [= ->] [= ->]; reflexivity| |].
      * intros u U. exact (first_mode_unique ms (VDec u) (VDec d) Num (Dx u U) V).
      * intros u U. exact (first_mode_unique ms (VDec u) (VDec d) Num (Dy u U) V).
  - destruct (B ltac:(left; listf)) as [bs Hb]. specialize (Dx bs Hb K). specialize (Dy bs Hb K). destruct X as (qs & Q1 & s & A1 & O1 & E1), Y as (qs' & Q2 & s' & A2 & O2 & E2).
    pose proof (fun i => ascending_same qs qs' s s' i (numbers_unique ms _ _ Q1 Q2) A1 A2) as Sm. destruct (Nat.even (length ms)) eqn:Ev.
    + destruct (E1 eq_refl) as (z & T1 & R1), (E2 eq_refl) as (z' & T2 & R2).
      assert (z' = z) as ->. { eapply truncates_unique; [exact T2|]. eapply truncates_ext; [|exact T1]. rewrite !Sm. reflexivity. }
      eapply agree_scale; [exact (decimal_agree x y _ _ (Qeq_refl _) R1 R2)|intros u U; exact (proj1 (Dx u U) Ev)|intros u U; exact (proj1 (Dy u U) Ev)].
    + assert (Od : Nat.odd (length ms) = true) by (rewrite <- Nat.negb_even, Ev; reflexivity).
      apply (agree_only (in_place (length ms / 2) bs)); [|intros u w; apply in_place_unique|intros u U; exact (proj2 (Dx u U) Od)|intros u U; exact (proj2 (Dy u U) Od)].
      eapply decimal_agree; [|exact (O1 Od)|exact (O2 Od)]. apply Sm.
  - cbn [gives] in X, Y. destruct ms as [|v [|v' ms]]; cbn in K; try lia. destruct (X v eq_refl) as (q & z & w & Nq & Tz & Wz & ->), (Y v eq_refl) as (q' & z' & w' & Nq' & Tz' & Wz' & ->).
    assert (z' = z) as ->. { eapply truncates_unique; [exact Tz'|]. eapply truncates_ext; [|exact Tz]. exact (number_unique v q q' Nq Nq'). }
    rewrite (wraps_unique 32 _ w' w ltac:(lia) Wz' Wz). reflexivity.
  - cbn [gives] in X, Y. destruct X as [X1 X2], Y as [Y1 Y2]. assert (D : (exists s, ms = [VStr s]) \/ forall s, ms <> [VStr s]).
    { destruct ms as [|[] [|v' ms]]; try (right; intros s0; discriminate). left. eauto. }
    destruct D as [[s D]|D]; [rewrite (X1 s D), (Y1 s D)|rewrite (X2 D), (Y2 D)]; reflexivity.
  - cbn [gives] in X, Y. destruct (X Cal) as [X1 X2], (Y Cal) as [Y1 Y2]. destruct ms as [|v [|v' ms]]; cbn in K; try lia.
    inversion T as [|? t ? ? Tv T0]; subst. inversion S as [|? ? St _]; subst. cbn in St. subst t.
    assert (V : (exists a, v = VDate a) \/ exists s, v = VStr s).
    { destruct Tv as [Tv|[_ Tv]]; [|discriminate Tv]. inversion Tv as [| | | | | |v0 a Dn| | | | | |]; subst. destruct Dn as [[-> _]|(s & -> & _)]; eauto. }
    destruct V as [[a ->]|[s ->]]; [exact (elapsed_unique E a x y (X1 a eq_refl) (Y1 a eq_refl))|].
    destruct (X2 s eq_refl) as (yr & m & dd & P1 & G1 & H1), (Y2 s eq_refl) as (yr' & m' & dd' & P2 & G2 & H2).
    pose proof (iso_short _ _ _ _ P1) as I1. pose proof (iso_short _ _ _ _ P2) as I2. rewrite I1 in I2. destruct (Nat.leb_spec (length s) 17) as [L|L].
    + injection I2 as <- <- <-. assert (C : calendar (Date yr m dd) \/ ~ calendar (Date yr m dd)) by apply calendar_dec.
      destruct C as [C|C]; [exact (elapsed_unique E _ x y (G1 (conj C L)) (G2 (conj C L)))|]. rewrite H1, H2 by tauto. reflexivity.
    + rewrite H1, H2 by lia. reflexivity.
Qed.

Lemma loop_first_mode v0 ms : (forall v, In v (v0 :: ms) -> exists q, number v q) -> first_mode (v0 :: ms) (mode_loop (v0 :: ms) [] 1 v0).
Proof.
  intros Num. set (all := v0 :: ms) in *. assert (I0 : In v0 all) by (left; auto).
  assert (K : forall v, In v all -> key_equals v v = true) by (intros v I; destruct (Num v I) as [q Hq]; eapply key_refl; eauto).
  unfold all. cbn [mode_loop hm_get]. destruct (mode_loop_reached ms [v0] (hm_put v0 1 []) 1 v0) as (max & M & p1 & p2 & Eq & O & F & G).
  - intros v I. apply K. right; auto.
  - exact (counts_put [] [] v0 (fun k => eq_refl)).
  - lia.
  - exists [], []. split; auto. split; [cbn [app]; rewrite occ_one, (K v0 I0); reflexivity|]. split; [intros; cbn; lia|]. intros w. rewrite occ_one. destruct (key_equals w v0); lia.
  - set (m := mode_loop ms (hm_put v0 1 []) 1 v0) in *. change ([v0] ++ ms) with all in Eq, G. fold all.
    assert (Im : In m all) by (rewrite Eq; apply in_elt).
    assert (T : forall w l k, incl l all -> times w l k -> (0 < k)%nat -> k = occ w l).
    { intros w l k Il T P. apply times_occ; auto. apply K, Il. eapply times_bound; eauto. }
    exists (Z.to_nat max), p1, p2. split; auto. assert (P1 : occ m (p1 ++ [m]) = Z.to_nat max) by lia.
    assert (P2 : occ m all = Z.to_nat max).
    { apply Nat.le_antisymm; [specialize (G m); lia|]. rewrite Eq. change (p1 ++ m :: p2) with (p1 ++ [m] ++ p2). rewrite app_assoc, occ_app. lia. }
    split; [apply times_occ; auto|]. split; [|split; [apply times_occ; auto|]].
    * intros w k Tk. destruct k; [lia|]. rewrite (T w all (S k)); auto using incl_refl with arith. specialize (G w). lia.
    * intros w k Tk. destruct k; [lia|]. rewrite (T w p1 (S k)); auto with arith; [specialize (F w); lia|]. rewrite Eq. apply incl_appl, incl_refl.
Qed.
Lemma exact_decimals E d f items ms bs : arguments E d items ms -> Forall2 held ms bs -> (2 <= length ms)%nat -> function_decimals f ms bs (arith_eval E d (NFunc f items)).
Proof.
  intros A H L y Y. destruct f; cbv zeta.
  - destruct (held_extreme E d F_MIN items ms bs y (or_introl eq_refl) A H L Y) as [P Q]. split; [|exact Q]. intros D. destruct (P D) as [[_ R]|[R _]]; [exact R|discriminate R].
  - destruct (held_extreme E d F_MAX items ms bs y (or_intror eq_refl) A H L Y) as [P Q]. split; [|exact Q]. intros D. destruct (P D) as [[R _]|[_ R]]; [discriminate R|exact R].
  - exact (held_average E d F_AVG items ms bs y (or_introl eq_refl) A H L Y).
  - exact (held_sum E d items ms bs y A H L Y).
  - exact (held_average E d F_MEAN items ms bs y (or_intror eq_refl) A H L Y).
  - apply (list_call E d _ items ms bs y A H L) in Y; try listf. cbn [func_evaluate] in Y. unfold eval_mode in Y. destruct ms as [|v0 ms]; [discriminate Y|].
    assert (M : map fst (typed (v0 :: ms)) = v0 :: ms) by apply typed_values. change (typed (v0 :: ms)) with ((v0, get_data_type v0) :: typed ms) in *. rewrite M in Y.
    assert (F : first_mode (v0 :: ms) (mode_loop (v0 :: ms) [] 1 v0)).
    { apply loop_first_mode. intros v I. destruct (Forall2_in _ _ _ _ (held_numbers _ bs H) I) as (q & _ & Q). eauto. }
    destruct (mode_loop (v0 :: ms) [] 1 v0); try discriminate Y; [unfold Values.cast_long in Y; destruct (in_int _); discriminate Y|]. apply cast_same in Y. subst. exact F.
  - exact (held_median E d items ms bs y A H L Y).
  - exact Logic.I.
  - exact Logic.I.
  - exact Logic.I.
Qed.

Lemma refused_container E d f items ms : arguments E d items ms -> ms <> [] -> ~ takes f (length ms) -> arith_eval E d (NFunc f items) = Err InvalidContainerType.
Proof.
  intros A N K. rewrite (function_arguments E d f items ms A). unfold evaluate_function. destruct ms as [|m ms]; [contradiction|].
  change (typed (m :: ms)) with ((m, get_data_type m) :: typed ms). change ((m, get_data_type m) :: typed ms) with (typed (m :: ms)). rewrite typed_length.
  assert (H : existsb (container_eqb (if (1 <? length (m :: ms))%nat then LIST else PRIMITIVE)) (func_containers f) = false).
  { destruct (existsb _ _) eqn:X; [|reflexivity]. exfalso. apply K, (takes_container f (length (m :: ms)) ltac:(cbn; lia)), X. }
  rewrite H. reflexivity.
Qed.
Lemma exact_call E d f items ms : arguments E d items ms -> call E f ms (arith_eval E d (NFunc f items)).
Proof.
  intros A. split.
  - intros dbl t N I. split; [intros K; exact (not_finite_call E d f items ms dbl t A I N K)|]. intros K. apply (refused_container E d f items ms A); [intros ->; destruct I|exact K].
  - intros ts T. split; [exact (any_call E d f items ms ts A T)|]. intros bs H L. exact (exact_decimals E d f items ms bs A H L).
Qed.
Lemma takes_dec f n : takes f n \/ ~ takes f n.
Proof. destruct f; cbn; lia. Qed.
Lemma func_supported_dec f ts : Forall (func_supported f) ts \/ ~ Forall (func_supported f) ts.
Proof.
  induction ts as [|t ts IH]; [left; constructor|]. assert (D : func_supported f t \/ ~ func_supported f t) by (destruct f, t; cbn; intuition discriminate).
  destruct D as [D|D]; [|right; intros H; inversion H; contradiction]. destruct IH as [IH|IH]; [left; constructor; assumption|right; intros H; inversion H; contradiction].
Qed.
Lemma arguments_kinds ms : Forall genuine ms -> (exists ts, Forall2 argument_type ms ts) \/ exists dbl t, In (VFloat dbl t) ms /\ not_finite t.
Proof.
  intros H. induction H as [|m ms [t G] _ IH]; [left; exists []; constructor|]. destruct G as [G|[G|(dbl & s & -> & F & _)]].
  - destruct IH as [[ts T]|(dbl & s & I & F)]; [left; exists (t :: ts); constructor; [left; exact G|exact T]|right; exists dbl, s; cbn; auto].
  - destruct IH as [[ts T]|(dbl & s & I & F)]; [left; exists (t :: ts); constructor; [right; exact G|exact T]|right; exists dbl, s; cbn; auto].
  - right. exists dbl, s. cbn. auto.
Qed.
Lemma call_unique E f ms x y : calendar (today E) -> Forall genuine ms -> call E f ms x -> call E f ms y -> x = y.
Proof.
  intros C G [X0 X] [Y0 Y]. destruct (arguments_kinds ms G) as [[ts T]|(dbl & t & I & F)].
  - destruct (X ts T) as [(X1 & X2 & X3 & X4) Dx], (Y ts T) as [(Y1 & Y2 & Y3 & Y4) Dy]. destruct ms as [|m ms]; [rewrite X1, Y1 by reflexivity; reflexivity|].
    destruct (takes_dec f (length (m :: ms))) as [K|K]; [|rewrite X2, Y2 by (exact K || discriminate); reflexivity].
    destruct (func_supported_dec f ts) as [S|S]; [|rewrite X3, Y3 by (assumption || discriminate); reflexivity].
    exact (gives_unique E f (m :: ms) ts x y C T K S (X4 ltac:(discriminate) K S) Dx (Y4 ltac:(discriminate) K S) Dy).
  - destruct (X0 dbl t F I) as [X1 X2], (Y0 dbl t F I) as [Y1 Y2]. destruct (takes_dec f (length ms)) as [K|K]; [rewrite (X1 K), (Y1 K)|rewrite (X2 K), (Y2 K)]; reflexivity.
Qed.
Lemma call_determined E d f items ms : calendar (today E) -> arguments E d items ms -> Forall genuine ms -> forall x, call E f ms x <-> arith_eval E d (NFunc f items) = x.
Proof.
  intros C A G x. pose proof (exact_call E d f items ms A) as H. split; [intros X; exact (call_unique E f ms _ x C G H X)|intros <-; exact H].
Qed.
