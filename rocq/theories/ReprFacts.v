(** The type a number is held in does not matter to conditions that compare numbers. *)
From Coq Require Import QArith.
From Verif Require Import RecoverFacts.
From Verif Require Import Base JNum BigDec Dates Values Ops Funcs Ast Eval Api SpecNum SpecBool SpecCompare SpecArith SpecFunc SpecLex SpecPath SpecSyntax SpecText SpecChain SpecTrend SpecRepr
  NumFacts BigDecFacts BoolFacts CompareFacts MemberFacts ValuesFacts FieldFacts ArithFacts FuncFacts FuncRound ExactFacts ChainFacts ChainText TrendFacts GrowFacts.
Local Open Scope Q_scope.

Lemma number_ext v p q : p == q -> number v p -> number v q.
Proof.
  intros H N. inversion N as [z x R X|z x R X|b x X|b t x X]; subst.
  - constructor; [exact R|]. rewrite <- H. exact X.
  - constructor; [exact R|]. rewrite <- H. exact X.
  - constructor. rewrite <- H. exact X.
  - constructor. destruct X as (neg & ip & fp & ex & A1 & A2 & A3 & A4 & A5 & A6 & A7 & A8). exists neg, ip, fp, ex.
    split; [exact A1|]. split; [exact A2|]. split; [exact A3|]. split; [exact A4|]. split; [exact A5|]. split; [exact A6|]. split; [exact A7|]. rewrite <- H. exact A8.
Qed.
Lemma both_ways E d d' m : rises E d d' m -> rises E d' d m -> same_measure E d d' m.
Proof.
  intros [v [p [v' [p' [Y [N [Y' [N' L]]]]]]]] [w' [q' [w [q [Z' [M' [Z [M R]]]]]]]].
  assert (w = v) by (destruct Y, Z; congruence). assert (w' = v') by (destruct Y', Z'; congruence). subst. exists v, v'. split; [exact Y|]. split; [exact Y'|].
  exists p. split; [exact N|]. apply (number_ext v' p'); [|exact N']. apply Qle_antisym; [|exact L].
  rewrite (number_unique _ _ _ N' M'), (number_unique _ _ _ N M). exact R.
Qed.
Lemma measure_rises E d d' m : same_measure E d d' m -> rises E d d' m /\ rises E d' d m.
Proof. intros [v [w [Y [Y' [q [N N']]]]]]. split; [exists v, q, w, q|exists w, q, v, q]; (split; [|split; [|split; [|split]]]; try assumption; apply Qle_refl). Qed.

Lemma asked_all op p q : In op [EQUALS; NOT_EQUAL; GREATER_THAN; GREATER_THAN_EQUAL; LESS_THAN; LESS_THAN_EQUAL] -> exists b, question op p q = Some b.
Proof. intros H. cbn [In] in H. decompose [or] H; subst; try contradiction; cbn; eauto. Qed.
Lemma test_number E d f v q m p : yields E d (NField (Some f)) v -> number v q -> number m p -> bool_eval E d (test_of f m) = Ok (Qeq_bool q p).
Proof.
  intros Y N M. unfold test_of, cond. eapply compare_number_operands; [exact Y|apply yields_lit; intros ->; inversion M|exact N|exact M|reflexivity].
Qed.
Lemma in_numbers E d f v q items ms qs : yields E d (NField (Some f)) v -> number v q -> list_members E d items ms -> Forall2 number ms qs ->
  bool_eval E d (NIn (Some f) items) = Ok (existsb (Qeq_bool q) qs).
Proof.
  intros Y N L F. destruct ms as [|m ms].
  - inversion F; subst. destruct L as [vs [H [Em Hn]]]. rewrite in_unfold. destruct Y as [Y _]. cbn [arith_eval] in Y. rewrite Y. cbn [bind].
    rewrite (item_values _ _ _ _ H). cbn [bind]. rewrite in_logical, (number_valid v q N). cbn [bind]. unfold map_to_evaluated. rewrite flatten_members, <- Em. reflexivity.
  - rewrite (in_disjunction E d f v items m ms Y L). clear L items. revert m qs F. induction ms as [|m' ms IH]; intros m qs F; inversion F as [|? p ? ps Np F']; subst.
    + inversion F'; subst. cbn [map or_chain]. rewrite (test_number E d f v q m p Y N Np). cbn [existsb]. rewrite orb_false_r. reflexivity.
    + cbn [map or_chain]. rewrite eval_or. rewrite (test_number E d f v q m p Y N Np).
      cbn [existsb]. destruct (Qeq_bool q p); [reflexivity|]. exact (IH m' ps F').
Qed.
Lemma numbers_both ms ms' : Forall2 same_number ms ms' -> exists qs, Forall2 number ms qs /\ Forall2 number ms' qs.
Proof. induction 1 as [|m m' ms ms' [q [N N']] _ [qs [H H']]]; [exists []; split; constructor|]. exists (q :: qs). split; constructor; assumption. Qed.

Lemma measured_answer E d d' n : measured E d d' n -> bool_eval E d n = bool_eval E d' n.
Proof.
  induction 1 as [l r op t O [v [v' [Yl [Yl' [p [Nl Nl']]]]]] [w [w' [Yr [Yr' [q [Nr Nr']]]]]]|f lo hi t1 t2 p q B1 B2 [v [v' [Y [Y' [x [N N']]]]]]
    |f items ms ms' [v [v' [Y [Y' [x [N N']]]]]] L L' F|n F|n _ IH|l r op O _ IH1 _ IH2].
  - destruct (asked_all op p q O) as [b B]. rewrite (compare_number_operands E d l r op t v w p q b Yl Yr Nl Nr B). symmetry. eapply compare_number_operands; eassumption.
  - rewrite (range_numeric E d f lo hi t1 t2 p q v x B1 B2 (proj1 Y) N). symmetry. exact (range_numeric E d' f lo hi t1 t2 p q v' x B1 B2 (proj1 Y') N').
  - destruct (numbers_both ms ms' F) as [qs [M M']]. rewrite (in_numbers E d f v x items ms qs Y N L M). symmetry. exact (in_numbers E d' f v' x items ms' qs Y' N' L' M').
  - apply bool_same, F.
  - cbn [bool_eval]. rewrite IH. reflexivity.
  - destruct O as [-> | ->]; cbn [bool_eval]; rewrite IH1, IH2; reflexivity.
Qed.
Lemma measured_text E d d' dflt s ws n : passage Nothing s ws n -> measured E d d' n -> evaluate_boolean E (unwords ws) d dflt = evaluate_boolean E (unwords ws) d' dflt.
Proof. intros P M. rewrite (proj1 (passage_value E d dflt _ _ _ P)), (proj1 (passage_value E d' dflt _ _ _ P)). apply measured_answer, M. Qed.

(** ** Operands *)
Lemma measure_by E d d' m v w q : ~ null_word m -> arith_eval E d m = Ok v -> arith_eval E d' m = Ok w -> number v q -> number w q -> same_measure E d d' m.
Proof. intros W H H' N N'. exists v, w. split; [exact (not_field E d m v q W H N)|]. split; [exact (not_field E d' m w q W H' N')|]. exists q. auto. Qed.
Lemma field_measure E d d' f v w : to_lower f <> J "null" -> arith_eval E d (NField (Some f)) = Ok v -> arith_eval E d' (NField (Some f)) = Ok w -> same_number v w ->
  same_measure E d d' (NField (Some f)).
Proof. intros F H H' [q [N N']]. apply (measure_by E d d' _ v w q); auto. intros [g [G X]]. injection G as <-. contradiction. Qed.
Lemma literal_measure E d d' t v q : number v q -> same_measure E d d' (NUnary t v).
Proof. intros N. apply (measure_by E d d' _ v v q); auto. intros [g [G _]]. discriminate. Qed.

Lemma whole_value v a p : whole v a -> number v p -> p == inject_Z a.
Proof. intros W N. exact (number_unique v p _ N (whole_number v a W)). Qed.
Lemma room_number E d l r op v w p q : arith_eval E d l = Ok v -> arith_eval E d r = Ok w -> number v p -> number w q -> op = ADD \/ op = SUBTRACT \/ op = MULTIPLY -> room v op w ->
  exists x, arith_eval E d (bin l op r) = Ok x /\ number x (rational_op op p q).
Proof.
  intros L R P1 Q1 O Rm. assert (D : decimal v \/ decimal w -> exists x, arith_eval E d (bin l op r) = Ok x /\ number x (rational_op op p q)).
  { intros D. destruct (decimal_exact E d l r v w p q op L R P1 Q1 D O) as [x [X Ex]]. exists (VDec x). split; [exact X|]. constructor. symmetry. exact Ex. }
  destruct Rm as [H|[H|[a [b [Wa [Wb H]]]]]]; auto. pose proof (whole_value v a p Wa P1) as Pa. pose proof (whole_value w b q Wb Q1) as Qb.
  assert (Sm : forall z x, smallest z x -> number x (inject_Z z)). { intros z x [[S1 ->]|[_ [S1 ->]]]; constructor; try reflexivity; exact S1. }
  destruct O as [-> |[-> | ->]]; cbn [rational_op].
  - destruct (add_multiply E d l r v w a b ADD L R Wa Wb (or_introl eq_refl)) as [y [x [X [S1 [_ Ex]]]]]. cbn [exact_op] in *. rewrite (Ex H) in S1. exists x. split; [exact X|].
    apply (number_ext x (inject_Z (a + b))); [|apply Sm, S1]. rewrite Pa, Qb, inject_Z_plus. reflexivity.
  - assert (V : inject_Z (a - b) == p - q) by (rewrite Pa, Qb; unfold Z.sub, Qminus; rewrite inject_Z_plus, inject_Z_opp; reflexivity).
    inversion Wa as [a' Fa|a' Fa]; inversion Wb as [b' Fb|b' Fb]; subst; cbn [get_data_type dtype_eqb andb] in H.
    + destruct (subtract_ints E d l r a b L R Fa Fb) as [y [X [_ Ex]]]. rewrite (Ex H) in X. exists (VInt (a - b)). split; [exact X|]. constructor; [exact H|symmetry; exact V].
    + destruct (subtract_longs E d l r _ _ a b L R Wa Wb (or_intror eq_refl)) as [y [X [_ Ex]]]. rewrite (Ex H) in X. exists (VLong (a - b)). split; [exact X|]. constructor; [exact H|symmetry; exact V].
    + destruct (subtract_longs E d l r _ _ a b L R Wa Wb (or_introl eq_refl)) as [y [X [_ Ex]]]. rewrite (Ex H) in X. exists (VLong (a - b)). split; [exact X|]. constructor; [exact H|symmetry; exact V].
    + destruct (subtract_longs E d l r _ _ a b L R Wa Wb (or_introl eq_refl)) as [y [X [_ Ex]]]. rewrite (Ex H) in X. exists (VLong (a - b)). split; [exact X|]. constructor; [exact H|symmetry; exact V].
  - destruct (add_multiply E d l r v w a b MULTIPLY L R Wa Wb (or_intror eq_refl)) as [y [x [X [S1 [_ Ex]]]]]. cbn [exact_op] in *. rewrite (Ex H) in S1. exists x. split; [exact X|].
    apply (number_ext x (inject_Z (a * b))); [|apply Sm, S1]. rewrite Pa, Qb, inject_Z_mult. reflexivity.
Qed.
Lemma arithmetic_measure E d d' l r op v w v' w' : arith_eval E d l = Ok v -> arith_eval E d r = Ok w -> arith_eval E d' l = Ok v' -> arith_eval E d' r = Ok w' ->
  same_number v v' -> same_number w w' -> op = ADD \/ op = SUBTRACT \/ op = MULTIPLY -> room v op w -> room v' op w' -> same_measure E d d' (bin l op r).
Proof.
  intros L R L' R' [p [P1 P2]] [q [Q1 Q2]] O M M'. destruct (room_number E d l r op v w p q L R P1 Q1 O M) as [x [X N]].
  destruct (room_number E d' l r op v' w' p q L' R' P2 Q2 O M') as [x' [X' N']]. exact (measure_by E d d' _ x x' _ (bin_word _ _ _) X X' N N').
Qed.
Lemma divide_measure E d d' l r v w v' w' x : arith_eval E d l = Ok v -> arith_eval E d r = Ok w -> arith_eval E d' l = Ok v' -> arith_eval E d' r = Ok w' ->
  same_number v v' -> same_number w w' -> arith_eval E d (bin l DIVIDE r) = Ok x -> same_measure E d d' (bin l DIVIDE r).
Proof.
  intros L R L' R' [p [P1 P2]] [q [Q1 Q2]] X. destruct (Qeq_dec q 0) as [Z|Z].
  { rewrite (divide_zero E d l r v w p q L R P1 Q1 Z) in X. discriminate. }
  destruct (divide_numbers E d l r v w p q L R P1 Q1 Z) as [z [T [A B]]]. destruct (divide_numbers E d' l r v' w' p q L' R' P2 Q2 Z) as [z' [T' [A' B']]].
  rewrite <- (truncates_unique _ z z' T T') in A', B'. destruct (Z.eq_dec (z mod 1000) 0) as [M|M].
  - assert (En : z = (1000 * (z / 1000))%Z) by (pose proof (Z.div_mod z 1000); lia). specialize (A _ En). specialize (A' _ En).
    destruct (in_int (z / 1000)) eqn:I; [|congruence]. apply (measure_by E d d' _ _ _ (inject_Z (z / 1000)) (bin_word _ _ _) A A').
    all: apply int_number; unfold in_int, int_min, int_max in I; unfold fits32; lia.
  - assert (Nn : forall n, z <> (1000 * n)%Z) by (intros n ->; apply M; rewrite Z.mul_comm; apply Z_mod_mult). destruct (B Nn) as [y [Y Ey]]. destruct (B' Nn) as [y' [Y' Ey']].
    apply (measure_by E d d' _ _ _ (inject_Z z / inject_Z 1000) (bin_word _ _ _) Y Y'); constructor; symmetry; assumption.
Qed.
Lemma int_measure E d d' n v v' : arith_eval E d n = Ok v -> arith_eval E d' n = Ok v' -> same_number v v' ->
  arith_eval E d (NFunc F_INT [n]) = arith_eval E d' (NFunc F_INT [n]).
Proof.
  intros H H' [q [N N']]. destruct (int_result E d n v q H N) as [z [y [T [X [W _]]]]]. destruct (int_result E d' n v' q H' N') as [z' [y' [T' [X' [W' _]]]]].
  rewrite X, X'. do 2 f_equal. rewrite (truncates_unique _ z' z T' T) in W'. destruct W as [R [m M]], W' as [R' [m' M']]. change (2 ^ (32 - 1))%Z with 2147483648%Z in *. change (2 ^ 32)%Z with 4294967296%Z in *. nia.
Qed.
