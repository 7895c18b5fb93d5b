(** C67: the arithmetic operators on values of any two types. *)
From Coq Require Import QArith.
From Verif Require Import Base JNum BigDec Dates Version Values Ops Funcs Ast Eval JNumFacts SpecNum SpecDate BigDecFacts NumFacts SpecArith SpecCompare CompareFacts
  ArithFacts SpecMixed MixedFacts SpecCompute.
Local Open Scope Z_scope.

Lemma cast_returned u : returned u (cast_double u).
Proof.
  destruct u as [| |m e]; [reflexivity|reflexivity|]. split.
  - intros z V F. rewrite (cast_double_whole m e z V). apply fits32_iff in F. rewrite F. reflexivity.
  - intros N. unfold cast_double. destruct (bd_of_double_spec m e) as (b & -> & V & I). cbn [bind].
    destruct ((scale b =? 0) && in_int (unscaled b)) eqn:C; [|exists b; split; [reflexivity|exact V]].
    apply andb_true_iff in C. destruct C as [C1 C2]. apply Z.eqb_eq in C1. exfalso. apply (N (unscaled b)); [|apply fits32_iff, C2].
    rewrite <- V. destruct b as [u s]. cbn in *. subst s. apply dec_of_Z.
Qed.
Lemma stands_number v a : stands v a -> a = INTEGER \/ a = LONG \/ a = DECIMAL -> exists p, number v p /\ (a <> DECIMAL -> exists z, whole v z /\ (p == inject_Z z)%Q).
Proof.
  intros S K. destruct S; try (exfalso; intuition discriminate).
  - exists (inject_Z z). split; [constructor; [assumption|reflexivity]|]. intros _. exists z. split; [constructor; assumption|reflexivity].
  - exists (inject_Z z). split; [constructor; [assumption|reflexivity]|]. intros _. exists z. split; [constructor; assumption|reflexivity].
  - exists (dec_value b). split; [constructor; reflexivity|]. intros []; reflexivity.
  - exists q. split; [constructor; assumption|]. intros []; reflexivity.
Qed.
Lemma inject_same m n p : (p == inject_Z m)%Q -> (p == inject_Z n)%Q -> m = n.
Proof. intros A B. rewrite A in B. apply (proj1 (inject_eq _ _)) in B. exact B. Qed.

Lemma computed E d l r op v w a b : arithmetic op -> arith_eval E d l = Ok v -> arith_eval E d r = Ok w -> stands v a -> stands w b ->
  supported op a -> supported op b -> ~ wordy a -> ~ wordy b ->
  exists p q, number v p /\ number w q /\ computes E op a b p q (arith_eval E d (bin l op r)).
Proof.
  intros A L R Sv Sw Pa Pb Wa Wb.
  assert (Na : a = INTEGER \/ a = LONG \/ a = DECIMAL) by (unfold wordy in *; clear -A Pa Wa; destruct A as [<-|[<-|[<-|[<-|[<-|[<-|[]]]]]]]; cbn in Pa; tauto).
  assert (Nb : b = INTEGER \/ b = LONG \/ b = DECIMAL) by (unfold wordy in *; clear -A Pb Wb; destruct A as [<-|[<-|[<-|[<-|[<-|[<-|[]]]]]]]; cbn in Pb; tauto).
  destruct (stands_number v a Sv Na) as [p [Np Hp]]. destruct (stands_number w b Sw Nb) as [q [Nq Hq]].
  destruct (stands_type v a Sv) as [Ta _]. destruct (stands_type w b Sw) as [Tb _].
  exists p, q. split; [exact Np|]. split; [exact Nq|].
  assert (FR : a = DECIMAL \/ b = DECIMAL -> decimal v \/ decimal w) by (unfold decimal; rewrite Ta, Tb; tauto).
  assert (WH : ~ (a = DECIMAL \/ b = DECIMAL) -> forall m n, (p == inject_Z m)%Q -> (q == inject_Z n)%Q -> whole v m /\ whole w n).
  { intros NF m n Hm Hn. destruct Hp as [m' [W1 E1]]; [tauto|]. destruct Hq as [n' [W2 E2]]; [tauto|].
    rewrite (inject_same _ _ _ Hm E1), (inject_same _ _ _ Hn E2). auto. }
  destruct A as [<-|[<-|[<-|[<-|[<-|[<-|[]]]]]]]; cbn [computes].
  - split; [intros F; apply (decimal_exact E d l r v w p q ADD L R Np Nq (FR F)); auto|].
    intros NF m n Hm Hn. destruct (WH NF m n Hm Hn) as [W1 W2]. destruct (add_multiply E d l r v w m n ADD L R W1 W2 (or_introl eq_refl)) as (y & x & -> & S & X & _). eauto.
  - split; [intros F; apply (decimal_exact E d l r v w p q SUBTRACT L R Np Nq (FR F)); auto|]. split.
    + intros NF Lo m n Hm Hn. destruct (WH NF m n Hm Hn) as [W1 W2].
      destruct (subtract_longs E d l r v w m n L R W1 W2) as (y & -> & X & _); [rewrite Ta, Tb; exact Lo|]. eauto.
    + intros NF NL m n Hm Hn. destruct (WH NF m n Hm Hn) as [W1 W2].
      destruct (whole_type v m W1) as [(T1 & -> & F1)|(T1 & _)]; [|exfalso; apply NL; left; congruence].
      destruct (whole_type w n W2) as [(T2 & -> & F2)|(T2 & _)]; [|exfalso; apply NL; right; congruence].
      destruct (subtract_ints E d l r m n L R F1 F2) as (y & -> & X & _). eauto.
  - split; [intros F; apply (decimal_exact E d l r v w p q MULTIPLY L R Np Nq (FR F)); auto|].
    intros NF m n Hm Hn. destruct (WH NF m n Hm Hn) as [W1 W2]. destruct (add_multiply E d l r v w m n MULTIPLY L R W1 W2 (or_intror eq_refl)) as (y & x & -> & S & X & _). eauto.
  - split; [intros Z; exact (divide_zero E d l r v w p q L R Np Nq Z)|]. intros NZ.
    destruct (divide_numbers E d l r v w p q L R Np Nq NZ) as (z & T & I1 & I2). exists z. split; [exact T|]. split; [|exact I2].
    intros n Hz. rewrite (I1 n Hz). rewrite fits32_iff. destruct (in_int n); split; intros H; try reflexivity; [contradiction H; reflexivity|discriminate H].
  - intros m n Hm Hn. destruct (WH ltac:(cbn in Pa, Pb; intuition congruence) m n Hm Hn) as [W1 W2]. split.
    + intros ->. exact (modulus_zero E d l r v w m L R W1 W2).
    + intros NZ. destruct (modulus_whole E d l r v w m n L R W1 W2 NZ) as (x & k & y & X & Wx & Eq & Lt & Sg & T). exists k, y. rewrite X.
      split; [exact Eq|]. split; [exact Lt|]. split; [exact Sg|]. rewrite Ta, Tb in T.
      destruct Wx as [y F|y F]; cbn in T; split; intros H; try reflexivity.
      * exfalso. destruct (proj1 T eq_refl) as [-> ->]. intuition discriminate.
      * exfalso. assert (a = INTEGER /\ b = INTEGER) as [-> ->] by (cbn in Pa, Pb; tauto). discriminate (proj2 T (conj eq_refl eq_refl)).
  - assert (X : arith_eval E d (bin l EXPONENT r) = eval_exponent E v a w b).
    { destruct (stands_type v a Sv) as (_ & _ & Va). destruct (stands_type w b Sw) as (_ & _ & Vb).
      rewrite (bin_apply E d l EXPONENT r v w L R); rewrite ?Ta, ?Tb; try assumption; [reflexivity|cbn; tauto]. }
    rewrite X. unfold eval_exponent. split.
    + intros F. assert (G : either DECIMAL a b = true) by (unfold either; destruct F as [-> | ->]; [reflexivity|apply orb_true_r]). rewrite G.
      destruct (number_decimal v p Np) as (s & -> & Vs). destruct (number_decimal w q Nq) as (t & -> & Vt). cbn [opt_get bind].
      exists s, t. split; [exact Vs|]. split; [exact Vt|]. apply cast_returned.
    + intros NF m n Hm Hn. destruct (WH NF m n Hm Hn) as [W1 W2]. destruct (whole_types v w m n W1 W2) as (T & _). rewrite Ta, Tb in T. rewrite T.
      rewrite (long_of_whole v m W1), (long_of_whole w n W2). cbn [opt_get bind]. apply cast_returned.
Qed.
Lemma stands_float_text v a : stands v a -> forall b t, v = VFloat b t -> exists q, float_text t q.
Proof.
  intros S b t ->. inversion S; subst; eauto.
  - match goal with H : denotes_date _ _ |- _ => destruct H as [[H _]|[? [H _]]]; discriminate H end.
  - match goal with H : denotes_datetime _ _ |- _ => destruct H as [[H _]|[? [H _]]]; discriminate H end.
Qed.
Lemma any_arithmetic E d l r op v w a b : arithmetic op -> arith_eval E d l = Ok v -> arith_eval E d r = Ok w -> stands v a -> stands w b ->
  (~ (supported op a /\ supported op b) -> arith_eval E d (bin l op r) = Err InvalidDataType) /\
  (supported op a -> supported op b -> wordy a \/ wordy b -> arith_eval E d (bin l op r) = Ok (VStr (show v ++ show w))) /\
  (supported op a -> supported op b -> ~ wordy a -> ~ wordy b ->
     exists p q, number v p /\ number w q /\ computes E op a b p q (arith_eval E d (bin l op r))).
Proof.
  intros A L R Sv Sw. destruct (stands_type v a Sv) as [Ta _]. destruct (stands_type w b Sw) as [Tb _]. split; [|split].
  - intros N. assert (D : supported op a \/ ~ supported op a) by (clear; destruct op, a; cbn; intuition discriminate). destruct D as [D|D].
    + apply (reject_right E d l r op v w A L R). rewrite Tb. tauto.
    + apply (reject_left E d l r op v w A L R). rewrite Ta. exact D.
  - intros Pa Pb W. assert (op = ADD) as ->.
    { clear -A Pa Pb W. unfold wordy in W. destruct A as [<-|[<-|[<-|[<-|[<-|[<-|[]]]]]]]; [reflexivity| | | | |]; exfalso; cbn in Pa, Pb; intuition congruence. }
    apply (concat_text E d l r v w L R); [|rewrite Ta; exact Pa|rewrite Tb; exact Pb|].
    + unfold textual. rewrite Ta, Tb. unfold wordy in W. cbn. intuition.
    + intros b0 t [X|X]; [exact (stands_float_text v a Sv b0 t X)|exact (stands_float_text w b Sw b0 t X)].
  - intros Pa Pb Wa Wb. eapply computed; eauto.
Qed.
Lemma not_finite_arithmetic E d l r op v w dbl t : arithmetic op -> arith_eval E d l = Ok v -> arith_eval E d r = Ok w -> not_finite t ->
  v = VFloat dbl t \/ w = VFloat dbl t -> arith_eval E d (bin l op r) = Err InvalidDataType.
Proof.
  intros A L R N H. destruct (not_finite_parse t N) as [P _].
  assert (F : is_valid (get_data_type (VFloat dbl t)) (VFloat dbl t) = Ok false) by (cbn; rewrite P; reflexivity).
  rewrite bin_eval by (intros ->; destruct A as [A|[A|[A|[A|[A|[A|[]]]]]]]; discriminate A). rewrite L, R. cbn [bind]. unfold evaluate_arithmetic.
  destruct (arithmetic_types op) as [types|] eqn:T; [|exfalso; destruct A as [<-|[<-|[<-|[<-|[<-|[<-|[]]]]]]]; discriminate T].
  destruct (mem_type (get_data_type v) types); [|reflexivity]. cbn [negb].
  destruct H as [-> | ->]; [rewrite F; reflexivity|]. destruct (own_valid_res v) as [x ->]. cbn [bind]. destruct x; [|reflexivity]. cbn [negb].
  destruct (mem_type (get_data_type (VFloat dbl t)) types); [|reflexivity]. cbn [negb]. rewrite F. reflexivity.
Qed.
Lemma any_negation E d n v a : arith_eval E d n = Ok v -> stands v a -> negates v (arith_eval E d (neg n)).
Proof.
  intros L S. destruct (stands_type v a S) as [T _].
  assert (U : ~ (a = INTEGER \/ a = LONG \/ a = DECIMAL) -> arith_eval E d (neg n) = Err InvalidDataType).
  { intros H. apply (reject_unary E d n v L). rewrite T. exact H. }
  destruct S as [b|z F|z F|b|dbl t q F|t|v a D|v x D|s N1 N2|il l|l t|es|t]; cbn [negates]; try (apply U; intuition discriminate).
  - destruct (proj1 (negate_whole E d n z) L F) as (y & -> & W & _). eauto.
  - destruct (proj2 (negate_whole E d n z) L F) as (y & -> & W & _). eauto.
  - apply (negate_decimal E d n b L).
  - apply (negate_float E d n dbl t q L F).
  - destruct D as [[-> _]|[s [-> _]]]; cbn [negates]; apply U; intuition discriminate.
  - destruct D as [[-> _]|[s [-> _]]]; cbn [negates]; apply U; intuition discriminate.
Qed.
