(** Functions and decimal sums of numbers that rise. *)
From Coq Require Import QArith.
From Verif Require Import RecoverFacts.
From Verif Require Import Base JNum BigDec Dates Values Ops Funcs Ast Eval Api SpecNum SpecBool SpecCompare SpecArith SpecFunc SpecLex SpecPath SpecSyntax SpecText SpecChain SpecTrend
  NumFacts BoolFacts CompareFacts MemberFacts ValuesFacts FieldFacts ArithFacts FuncFacts FuncRound ExactFacts ChainFacts ChainText TrendFacts.
Local Open Scope Q_scope.

Lemma not_field E d m v q : ~ null_word m -> arith_eval E d m = Ok v -> number v q -> yields E d m v.
Proof. intros W H N. split; [exact H|]. split; [intros ->; inversion N|exact W]. Qed.
Lemma func_word f items : ~ null_word (NFunc f items). Proof. intros [g [G _]]. discriminate. Qed.
Lemma bin_word l op r : ~ null_word (bin l op r). Proof. intros [g [G _]]. discriminate. Qed.
Lemma rises_by E d d' m v q v' q' : ~ null_word m -> arith_eval E d m = Ok v -> number v q -> arith_eval E d' m = Ok v' -> number v' q' -> q <= q' -> rises E d d' m.
Proof. intros W H N H' N' L. exists v, q, v', q'. split; [|split; [|split; [|split]]]; eauto using not_field. Qed.

Lemma int_number z : fits32 z -> number (VInt z) (inject_Z z).
Proof. intros F. constructor; [exact F|reflexivity]. Qed.
Lemma decimal_result_number r q v : decimal_result r q -> r = Ok v -> number v q.
Proof. intros [z p H F|z p _ _|x p _ H] X; try discriminate; injection X as <-; [constructor; [exact F|exact H]|constructor; symmetry; exact H]. Qed.

Lemma len_rises E d d' items ms ms' : arguments E d items ms -> arguments E d' items ms' -> (2 <= length ms)%nat -> (length ms <= length ms')%nat ->
  fits32 (Z.of_nat (length ms')) -> Forall finite ms -> Forall finite ms' -> rises E d d' (NFunc F_LEN items).
Proof.
  intros A A' L M F Fi Fi'. assert (F0 : fits32 (Z.of_nat (length ms))) by (unfold fits32 in *; lia).
  apply (rises_by E d d' _ _ _ _ _ (func_word _ _) (len_list E d items ms A L Fi) (int_number _ F0) (len_list E d' items ms' A' ltac:(lia) Fi') (int_number _ F)).
  rewrite <- Zle_Qle. lia.
Qed.
Lemma decimal_sum_rises E d d' l r op p q p' q' vl vr vl' vr' :
  arith_eval E d l = Ok vl -> arith_eval E d r = Ok vr -> arith_eval E d' l = Ok vl' -> arith_eval E d' r = Ok vr' ->
  number vl p -> number vr q -> number vl' p' -> number vr' q' -> decimal vl \/ decimal vr -> decimal vl' \/ decimal vr' ->
  p <= p' -> (op = ADD /\ q <= q') \/ (op = SUBTRACT /\ q' <= q) -> rises E d d' (bin l op r).
Proof.
  intros L R L' R' P1 Q1 P2 Q2 D D' P O. assert (Op : op = ADD \/ op = SUBTRACT \/ op = MULTIPLY) by tauto.
  destruct (decimal_exact E d l r vl vr p q op L R P1 Q1 D Op) as [x [X1 X2]]. destruct (decimal_exact E d' l r vl' vr' p' q' op L' R' P2 Q2 D' Op) as [x' [X1' X2']].
  apply (rises_by E d d' _ (VDec x) (dec_value x) (VDec x') (dec_value x') (bin_word _ _ _)); auto; try (constructor; reflexivity).
  rewrite X2, X2'. destruct O as [[-> B]|[-> B]]; cbn [rational_op].
  - apply Qplus_le_compat; assumption.
  - unfold Qminus. apply Qplus_le_compat; [assumption|]. apply Qopp_le_compat, B.
Qed.

(** ** MIN, MAX and SUM *)
Lemma whole_number v z : whole v z -> number v (inject_Z z).
Proof. intros [x F|x F]; constructor; try reflexivity; exact F. Qed.
Lemma whole_result_number r z v : whole_result r z -> r = Ok v -> number v (inject_Z z).
Proof.
  intros [A B] X. assert (D : fits32 z \/ ~ fits32 z) by (unfold fits32; lia). destruct D as [D|D].
  - rewrite (A D) in X. injection X as <-. apply int_number, D.
  - destruct (B D) as [x [Y Ex]]. rewrite Y in X. injection X as <-. constructor. symmetry. exact Ex.
Qed.
Lemma in_forall2 {A B} (R : A -> B -> Prop) l l' b : Forall2 R l l' -> In b l' -> exists a, In a l /\ R a b.
Proof. induction 1 as [|x y l l' H _ IH]; [intros []|]. intros [<-|I]; [exists x; split; [left; reflexivity|exact H]|]. destruct (IH I) as [a [P Ra]]. exists a. split; [right; exact P|exact Ra]. Qed.
Lemma in_forall2' {A B} (R : A -> B -> Prop) l l' a : Forall2 R l l' -> In a l -> exists b, In b l' /\ R a b.
Proof. induction 1 as [|x y l l' H _ IH]; [intros []|]. intros [<-|I]; [exists y; split; [left; reflexivity|exact H]|]. destruct (IH I) as [b [P Ra]]. exists b. split; [right; exact P|exact Ra]. Qed.

Lemma min_bounds E d items ms qs v : arguments E d items ms -> Forall2 number ms qs -> (2 <= length ms)%nat -> precise ms -> arith_eval E d (NFunc F_MIN items) = Ok v ->
  exists q, number v q /\ (exists m, In m ms /\ number m q) /\ forall m, In m ms -> exists p, number m p /\ q <= p.
Proof.
  intros A N L [D|[zs [W [S1 _]]]] V.
  - destruct (min_decimal E d items ms qs A N L D) as [q [[I Le] R]]. exists q. split; [exact (decimal_result_number _ _ _ R V)|]. split.
    + destruct (in_forall2 _ _ _ _ N I) as [m [M X]]. eauto.
    + intros m M. destruct (in_forall2' _ _ _ _ N M) as [p [P X]]. eauto.
  - destruct (min_whole E d items ms zs A W L) as [z [I [Le R]]]. exists (inject_Z z).
    rewrite Forall_forall in S1. split; [exact (whole_result_number _ _ _ (R (S1 z I)) V)|]. split.
    + destruct (in_forall2 _ _ _ _ W I) as [m [M X]]. eauto using whole_number.
    + intros m M. destruct (in_forall2' _ _ _ _ W M) as [p [P X]]. exists (inject_Z p). split; [apply whole_number, X|]. rewrite <- Zle_Qle. auto.
Qed.
Lemma max_bounds E d items ms qs v : arguments E d items ms -> Forall2 number ms qs -> (2 <= length ms)%nat -> precise ms -> arith_eval E d (NFunc F_MAX items) = Ok v ->
  exists q, number v q /\ (exists m, In m ms /\ number m q) /\ forall m, In m ms -> exists p, number m p /\ p <= q.
Proof.
  intros A N L [D|[zs [W [S1 _]]]] V.
  - destruct (max_decimal E d items ms qs A N L D) as [q [[I Le] R]]. exists q. split; [exact (decimal_result_number _ _ _ R V)|]. split.
    + destruct (in_forall2 _ _ _ _ N I) as [m [M X]]. eauto.
    + intros m M. destruct (in_forall2' _ _ _ _ N M) as [p [P X]]. eauto.
  - destruct (max_whole E d items ms zs A W L) as [z [I [Le R]]]. exists (inject_Z z).
    rewrite Forall_forall in S1. split; [exact (whole_result_number _ _ _ (R (S1 z I)) V)|]. split.
    + destruct (in_forall2 _ _ _ _ W I) as [m [M X]]. eauto using whole_number.
    + intros m M. destruct (in_forall2' _ _ _ _ W M) as [p [P X]]. exists (inject_Z p). split; [apply whole_number, X|]. rewrite <- Zle_Qle. auto.
Qed.
Lemma total_whole zs : total (map inject_Z zs) == inject_Z (whole_total zs).
Proof. induction zs as [|z zs IH]; [reflexivity|]. unfold total, whole_total in *. cbn [map fold_right]. rewrite IH, <- inject_Z_plus. reflexivity. Qed.
Lemma sum_total E d items ms qs v : arguments E d items ms -> Forall2 number ms qs -> (2 <= length ms)%nat -> precise ms -> arith_eval E d (NFunc F_SUM items) = Ok v ->
  exists ps q, Forall2 number ms ps /\ number v q /\ q == total ps.
Proof.
  intros A N L [D|[zs [W [_ S1]]]] V.
  - exists qs, (total qs). split; [exact N|]. split; [exact (decimal_result_number _ _ _ (sum_decimal E d items ms qs A N L D) V)|reflexivity].
  - exists (map inject_Z zs), (inject_Z (whole_total zs)). split; [|split].
    + clear - W. induction W; cbn [map]; constructor; auto using whole_number.
    + exact (whole_result_number _ _ _ (sum_whole E d items ms zs A W L S1) V).
    + symmetry. apply total_whole.
Qed.

Lemma max_rises E d d' items ms ms' qs qs' v v' : arguments E d items ms -> arguments E d' items ms' -> Forall2 number ms qs -> Forall2 number ms' qs' ->
  (2 <= length ms)%nat -> (2 <= length ms')%nat -> precise ms -> precise ms' -> (forall m, In m ms -> exists m', In m' ms' /\ no_smaller m m') ->
  arith_eval E d (NFunc F_MAX items) = Ok v -> arith_eval E d' (NFunc F_MAX items) = Ok v' -> rises E d d' (NFunc F_MAX items).
Proof.
  intros A A' N N' L L' P P' C V V'. destruct (max_bounds E d items ms qs v A N L P V) as [q [Nq [[m [M Nm]] _]]].
  destruct (max_bounds E d' items ms' qs' v' A' N' L' P' V') as [q' [Nq' [_ B]]]. apply (rises_by E d d' _ v q v' q' (func_word _ _) V Nq V' Nq').
  destruct (C m M) as [m' [M' [p [p' [Np [Np' Le]]]]]]. destruct (B m' M') as [r [Nr Ler]]. rewrite (number_unique m q p Nm Np).
  eapply Qle_trans; [exact Le|]. rewrite (number_unique m' p' r Np' Nr). exact Ler.
Qed.
Lemma min_rises E d d' items ms ms' qs qs' v v' : arguments E d items ms -> arguments E d' items ms' -> Forall2 number ms qs -> Forall2 number ms' qs' ->
  (2 <= length ms)%nat -> (2 <= length ms')%nat -> precise ms -> precise ms' -> (forall m', In m' ms' -> exists m, In m ms /\ no_smaller m m') ->
  arith_eval E d (NFunc F_MIN items) = Ok v -> arith_eval E d' (NFunc F_MIN items) = Ok v' -> rises E d d' (NFunc F_MIN items).
Proof.
  intros A A' N N' L L' P P' C V V'. destruct (min_bounds E d items ms qs v A N L P V) as [q [Nq [_ B]]].
  destruct (min_bounds E d' items ms' qs' v' A' N' L' P' V') as [q' [Nq' [[m' [M' Nm']] _]]]. apply (rises_by E d d' _ v q v' q' (func_word _ _) V Nq V' Nq').
  destruct (C m' M') as [m [M [p [p' [Np [Np' Le]]]]]]. destruct (B m M) as [r [Nr Ler]]. rewrite (number_unique m' q' p' Nm' Np').
  eapply Qle_trans; [|exact Le]. rewrite (number_unique m p r Np Nr). exact Ler.
Qed.
Lemma total_rises ms ms' ps ps' : Forall2 no_smaller ms ms' -> Forall2 number ms ps -> Forall2 number ms' ps' -> total ps <= total ps'.
Proof.
  intros F. revert ps ps'. induction F as [|m m' ms ms' [p [p' [Np [Np' Le]]]] _ IH]; intros ps ps' N N'; inversion N as [|? x ? xs X Xs]; inversion N' as [|? y ? ys Y Ys]; subst; [apply Qle_refl|].
  unfold total in *. cbn [fold_right]. apply Qplus_le_compat; [|apply IH; assumption]. rewrite (number_unique m x p X Np), (number_unique m' y p' Y Np'). exact Le.
Qed.
Lemma same_length {A B} (R : A -> B -> Prop) l l' : Forall2 R l l' -> length l = length l'.
Proof. induction 1; cbn [length]; congruence. Qed.
Lemma call_sum_rises E d d' items ms ms' qs qs' v v' : arguments E d items ms -> arguments E d' items ms' -> Forall2 number ms qs -> Forall2 number ms' qs' ->
  (2 <= length ms)%nat -> precise ms -> precise ms' -> Forall2 no_smaller ms ms' ->
  arith_eval E d (NFunc F_SUM items) = Ok v -> arith_eval E d' (NFunc F_SUM items) = Ok v' -> rises E d d' (NFunc F_SUM items).
Proof.
  intros A A' N N' L P P' C V V'. assert (L' : (2 <= length ms')%nat) by (rewrite <- (same_length _ _ _ C); exact L).
  destruct (sum_total E d items ms qs v A N L P V) as [ps [q [Np [Nq X]]]]. destruct (sum_total E d' items ms' qs' v' A' N' L' P' V') as [ps' [q' [Np' [Nq' X']]]].
  apply (rises_by E d d' _ v q v' q' (func_word _ _) V Nq V' Nq'). rewrite X, X'. exact (total_rises ms ms' ps ps' C Np Np').
Qed.
Lemma truncates_rises q q' z z' : truncates q z -> truncates q' z' -> q <= q' -> (z <= z')%Z.
Proof.
  intros [P M] [P' M'] L. assert (Lt : forall a b, inject_Z a < inject_Z b -> (a < b)%Z) by (intros a b; rewrite <- Zlt_Qlt; auto).
  destruct (Qlt_le_dec q 0) as [S1|S1].
  - apply Qlt_le_weak in S1. destruct (M S1) as [A B]. destruct (Qlt_le_dec q' 0) as [S2|S2].
    + apply Qlt_le_weak in S2. destruct (M' S2) as [C D]. enough (z - 1 < z')%Z by lia. apply Lt. eapply Qlt_le_trans; [exact A|]. eapply Qle_trans; [exact L|exact D].
    + destruct (P' S2) as [C D]. assert (z - 1 < 0)%Z by (apply Lt; eapply Qlt_le_trans; [exact A|exact S1]). assert (0 < z' + 1)%Z by (apply Lt; eapply Qle_lt_trans; [exact S2|exact D]). lia.
  - destruct (P S1) as [A B]. assert (S2 : 0 <= q') by (eapply Qle_trans; [exact S1|exact L]). destruct (P' S2) as [C D].
    enough (z < z' + 1)%Z by lia. apply Lt. eapply Qle_lt_trans; [exact A|]. eapply Qle_lt_trans; [exact L|exact D].
Qed.
Lemma int_rises E d d' n v v' q q' : arith_eval E d n = Ok v -> arith_eval E d' n = Ok v' -> number v q -> number v' q' -> q <= q' ->
  (forall z, truncates q z -> fits32 z) -> (forall z, truncates q' z -> fits32 z) -> rises E d d' (NFunc F_INT [n]).
Proof.
  intros H H' N N' L F F'. destruct (int_result E d n v q H N) as [z [y [T [X [_ Y]]]]]. destruct (int_result E d' n v' q' H' N') as [z' [y' [T' [X' [_ Y']]]]].
  rewrite (Y (F z T)) in X. rewrite (Y' (F' z' T')) in X'.
  apply (rises_by E d d' _ _ _ _ _ (func_word _ _) X (int_number z (F z T)) X' (int_number z' (F' z' T'))). rewrite <- Zle_Qle. exact (truncates_rises q q' z z' T T' L).
Qed.

(** ** Texts *)
Lemma grow_any E d d' dflt f c ws ns have have' ms ms' t : field_name f -> In (c, CONTAINS_ANY) array_operators -> listed ws ns ->
  arith_eval E d (NField (Some f)) = Ok (VColl true have) -> arith_eval E d' (NField (Some f)) = Ok (VColl true have') -> ~ In VNull have -> ~ In VNull have' ->
  list_members E d ns ms -> list_members E d' ns ms' -> incl have have' -> incl ms ms' -> (forall m, In m ms' -> get_data_type m = t) ->
  evaluate_boolean E (unwords (f :: c :: bracketed (commas ws))) d dflt = Ok true -> evaluate_boolean E (unwords (f :: c :: bracketed (commas ws))) d' dflt = Ok true.
Proof.
  intros F C W H H' N N' L L' I J T. pose proof (passage_clause Nothing _ _ _ (clause_contains Nothing f c _ ws ns F C W)) as P.
  rewrite (proj1 (passage_value E d dflt _ _ _ P)), (proj1 (passage_value E d' dflt _ _ _ P)). intros B.
  destruct (contains_both E d' f have' ns ms' t H' N' L' T) as [_ An]. rewrite An. f_equal.
  apply (any_follows have have' ms ms' I J). symmetry. exact (contains_answer E d f have ns ms CONTAINS_ANY true H N L (or_introl eq_refl) B).
Qed.
Lemma grow_all E d d' dflt f c ws ns have have' ms ms' t : field_name f -> In (c, CONTAINS_ALL) array_operators -> listed ws ns ->
  arith_eval E d (NField (Some f)) = Ok (VColl true have) -> arith_eval E d' (NField (Some f)) = Ok (VColl true have') -> ~ In VNull have -> ~ In VNull have' ->
  list_members E d ns ms -> list_members E d' ns ms' -> incl have have' -> incl ms' ms -> (forall m, In m ms' -> get_data_type m = t) ->
  evaluate_boolean E (unwords (f :: c :: bracketed (commas ws))) d dflt = Ok true -> evaluate_boolean E (unwords (f :: c :: bracketed (commas ws))) d' dflt = Ok true.
Proof.
  intros F C W H H' N N' L L' I J T. pose proof (passage_clause Nothing _ _ _ (clause_contains Nothing f c _ ws ns F C W)) as P.
  rewrite (proj1 (passage_value E d dflt _ _ _ P)), (proj1 (passage_value E d' dflt _ _ _ P)). intros B.
  destruct (contains_both E d' f have' ns ms' t H' N' L' T) as [Al _]. rewrite Al. f_equal.
  apply (all_follows have have' ms ms' I J). symmetry. exact (contains_answer E d f have ns ms CONTAINS_ALL true H N L (or_intror eq_refl) B).
Qed.
Lemma grow_in E d d' dflt f i ws ns v ms ms' : field_name f -> In i in_words -> listed ws ns ->
  yields E d (NField (Some f)) v -> yields E d' (NField (Some f)) v -> list_members E d ns ms -> list_members E d' ns ms' -> incl ms ms' ->
  evaluate_boolean E (unwords (f :: i :: bracketed (commas ws))) d dflt = Ok true -> evaluate_boolean E (unwords (f :: i :: bracketed (commas ws))) d' dflt <> Ok false.
Proof.
  intros F C W Y Y' L L' I. pose proof (passage_clause Nothing _ _ _ (clause_in Nothing f i ws ns F C W)) as P.
  rewrite (proj1 (passage_value E d dflt _ _ _ P)), (proj1 (passage_value E d' dflt _ _ _ P)). intros B B'.
  discriminate (in_follows v ms ms' true false I (in_answer E d f v ns ms true Y L B) (in_answer E d' f v ns ms' false Y' L' B') eq_refl).
Qed.
(** Added after the old members, nothing that follows is looked at. *)
Lemma grow_in_end E d d' dflt f i ws ns v ms more : field_name f -> In i in_words -> listed ws ns ->
  yields E d (NField (Some f)) v -> yields E d' (NField (Some f)) v -> list_members E d ns ms -> list_members E d' ns (ms ++ more) ->
  evaluate_boolean E (unwords (f :: i :: bracketed (commas ws))) d dflt = Ok true -> evaluate_boolean E (unwords (f :: i :: bracketed (commas ws))) d' dflt = Ok true.
Proof.
  intros F C W Y Y' L L'. pose proof (passage_clause Nothing _ _ _ (clause_in Nothing f i ws ns F C W)) as P.
  rewrite (proj1 (passage_value E d dflt _ _ _ P)), (proj1 (passage_value E d' dflt _ _ _ P)).
  destruct L as [vs [H [Em _]]], L' as [vs' [H' [Em' _]]]. rewrite !in_unfold. destruct Y as [Y _], Y' as [Y' _]. cbn [arith_eval] in Y, Y'. rewrite Y, Y'. cbn [bind].
  rewrite (item_values _ _ _ _ H), (item_values _ _ _ _ H'). cbn [bind]. rewrite !in_logical. unfold map_to_evaluated. rewrite (flatten_members vs), (flatten_members vs'), <- Em, <- Em'.
  destruct (is_valid _ v) as [[]|]; cbn [bind]; try discriminate. unfold eval_in. clear.
  induction ms as [|m ms IH]; [discriminate|]. cbn [map anyM app]. destruct (eval_equals _ _ _) as [[]|]; cbn [bind]; auto.
Qed.
