(** C63: comparisons between values of any two types. *)
From Coq Require Import QArith Qpower ZifyBool.
From Verif Require Import Base JNum BigDec Dates Version Values Ops Funcs Ast Eval JNumFacts SpecNum BigDecFacts NumFacts SpecCompare SpecDate SpecBool
  BoolFacts CompareFacts VersionFacts OrderFacts ValuesFacts CompareWitness DateFacts MemberFacts SpecMixed.
Local Open Scope Z_scope.

(** Texts *)
Lemma text_order_compare : forall s t c, text_order s t c <-> jstr_compare s t = c.
Proof.
  assert (B : forall s t, text_before s t -> jstr_compare s t = Lt).
  { intros s t [(c & r & ->) | (p & c & s' & d & t' & -> & -> & L)].
    - induction s as [|x s IH]; [reflexivity|]. cbn. rewrite N.compare_refl. exact IH.
    - induction p as [|x p IH]; cbn; [rewrite (proj2 (N.compare_lt_iff c d) L); reflexivity|]. rewrite N.compare_refl. exact IH. }
  assert (C : forall s t, jstr_compare s t = Lt -> text_before s t).
  { induction s as [|x s IH]; intros [|y t] H; try discriminate H.
    - left. exists y, t. reflexivity.
    - cbn in H. destruct (N.compare_spec x y) as [<- | L | L]; try discriminate H.
      + destruct (IH t H) as [(c & r & ->) | (p & c & s' & d & t' & -> & -> & L)].
        * left. exists c, r. reflexivity.
        * right. exists (x :: p), c, s', d, t'. auto.
      + right. exists [], x, s, y, t. auto. }
  intros s t c. split.
  - destruct c; cbn; intros H; [subst; apply jstr_compare_refl|auto|]. rewrite jstr_compare_antisym, (B _ _ H). reflexivity.
  - intros <-. destruct (jstr_compare s t) eqn:H; cbn; [apply jstr_compare_eq; auto|auto|]. apply C. rewrite jstr_compare_antisym, H. reflexivity.
Qed.

(** Numbers written as text *)
Lemma zeros_val : forall zs, forallb (fun c => (c =? 48)%N) zs = true -> digits_val zs = 0.
Proof.
  induction zs as [|c zs IH]; [reflexivity|]. cbn [forallb]. intros H. apply andb_true_iff in H as [H1 H2]. apply N.eqb_eq in H1. subst c.
  rewrite digits_val_cons, IH by auto. reflexivity.
Qed.
Lemma drop_zeros_short : forall ds, all_digits ds = true -> (length (drop_zeros ds) <= 10)%nat <-> digits_val ds < 10000000000.
Proof.
  intros ds D. unfold drop_zeros. destruct (span (fun c => (c =? 48)%N) ds) as [zs rs] eqn:S. apply span_spec in S as (-> & Z0 & H). cbn [snd].
  unfold all_digits in D. rewrite forallb_app in D. apply andb_true_iff in D as [_ D].
  rewrite digits_val_app, (zeros_val _ Z0), Z.mul_0_l, Z.add_0_l. pose proof (digits_val_nonneg rs D) as B. split; intros L.
  - assert (10 ^ Z.of_nat (length rs) <= 10 ^ 10) by (apply Z.pow_le_mono_r; lia). lia.
  - destruct rs as [|c rs]; [cbn; lia|]. destruct (Nat.le_gt_cases (length (c :: rs)) 10) as [G|G]; auto. exfalso.
    cbn [length] in G. rewrite digits_val_cons in L. cbn in D. apply andb_true_iff in D as [Dc Dr].
    pose proof (digits_val_nonneg rs Dr) as Br. assert (10 ^ 10 <= 10 ^ Z.of_nat (length rs)) as P by (apply Z.pow_le_mono_r; lia).
    assert (1 <= digit_val c). { unfold is_digit in Dc. unfold digit_val. apply N.eqb_neq in H. lia. }
    assert (1 * 10 ^ Z.of_nat (length rs) <= digit_val c * 10 ^ Z.of_nat (length rs)) by (apply Z.mul_le_mono_nonneg_r; lia). lia.
Qed.

Lemma not_digit_sign : forall c, is_digit c = true -> (c =? ch "-")%N = false /\ (c =? ch "+")%N = false.
Proof. intros c H. destruct (digit_not c H). auto. Qed.

Lemma exponent_parses : forall r e, parse_exponent r = Some e <->
  exists neg sg ds, r = sg ++ ds /\ sign_text neg sg /\ ds <> [] /\ all_digits ds = true /\ digits_val ds < 10000000000 /\
    e = (if neg : bool then - digits_val ds else digits_val ds).
Proof.
  assert (G : forall (neg : bool) ds e,
    match ds with [] => None | _ => if all_digits ds then if (10 <? length (drop_zeros ds))%nat then None
        else Some (if neg : bool then - digits_val ds else digits_val ds) else None end = Some e <->
    ds <> [] /\ all_digits ds = true /\ digits_val ds < 10000000000 /\ e = (if neg : bool then - digits_val ds else digits_val ds)).
  { intros neg ds e. destruct ds as [|c ds]; [split; [discriminate|intros (H & _); congruence]|]. set (s := c :: ds).
    destruct (all_digits s) eqn:D; [|split; [discriminate|intros (_ & H & _); discriminate]].
    pose proof (drop_zeros_short s D) as L. destruct (Nat.ltb_spec 10 (length (drop_zeros s))) as [B|B].
    - split; [discriminate|]. intros (_ & _ & H & _). apply L in H. lia.
    - split; [intros H; injection H as <-; split; [discriminate|]; split; [auto|]; split; [apply L; auto|reflexivity]|]. intros (_ & _ & _ & ->). reflexivity. }
  intros r e. unfold parse_exponent. split.
  - destruct r as [|c r]; [discriminate|]. destruct (c =? ch "-")%N eqn:M; [|destruct (c =? ch "+")%N eqn:P]; intros H; [apply (G true) in H|apply (G false) in H|apply (G false (c :: r)) in H]; destruct H as (N & D & B & ->).
    + apply N.eqb_eq in M. subst c. exists true, (J "-"), r. repeat split; auto. constructor.
    + apply N.eqb_eq in P. subst c. exists false, (J "+"), r. repeat split; auto. constructor.
    + exists false, [], (c :: r). repeat split; auto. constructor.
  - intros (neg & sg & ds & -> & S & N & D & B & ->). destruct S; cbn [app].
    + destruct ds as [|c ds]; [congruence|]. assert (Dc : is_digit c = true) by (cbn in D; apply andb_true_iff in D; tauto).
      destruct (not_digit_sign c Dc) as [-> ->]. apply (G false (c :: ds)). auto.
    + change (J "+" ++ ds) with (ch "+" :: ds). change ((ch "+" =? ch "-")%N) with false. change ((ch "+" =? ch "+")%N) with true. cbn iota. apply (G false). auto.
    + change (J "-" ++ ds) with (ch "-" :: ds). change ((ch "-" =? ch "-")%N) with true. cbn iota. apply (G true). auto.
Qed.

Definition unsigned_number (s : jstr) (d : bigdec) : Prop :=
  exists ip fp f e x, s = ip ++ f ++ x /\ all_digits ip = true /\ fraction_text fp f /\ ip ++ fp <> [] /\
    exponent_text (Z.of_nat (length fp)) e x /\ d = BD (digits_val (ip ++ fp)) (Z.of_nat (length fp) - e).

Lemma exponent_part : forall fp c r e, (if ((c =? ch "e")%N || (c =? ch "E")%N) then match parse_exponent r with
    | Some e => if in_int (Z.of_nat (length fp) - e) then Some e else None | None => None end else None) = Some e <->
  exponent_text (Z.of_nat (length (fp : jstr))) e (c :: r).
Proof.
  intros fp c r e. split.
  - destruct (_ || _) eqn:L; [|discriminate]. destruct (parse_exponent r) as [e'|] eqn:P; [|discriminate]. destruct (in_int _) eqn:I; [|discriminate].
    intros H. injection H as <-. apply exponent_parses in P as (neg & sg & ds & -> & S & N & D & B & E). apply in_int_iff in I.
    change (c :: sg ++ ds) with ([c] ++ sg ++ ds). apply orb_true_iff in L. apply exponent with neg; auto; try lia.
    destruct L as [L|L]; apply N.eqb_eq in L; subst; auto.
  - intros H. remember (c :: r) as cr eqn:Hx. destruct H as [|neg letter sg ds e Hl S N D B E I]; [discriminate Hx|]. destruct Hl as [-> | ->]; cbn in Hx; injection Hx as <- <-; cbn [N.eqb Pos.eqb orb];
    (replace (parse_exponent (sg ++ ds)) with (Some e) by (symmetry; apply exponent_parses; exists neg, sg, ds; repeat split; auto));
    (replace (in_int (Z.of_nat (length fp) - e)) with true by (symmetry; apply in_int_iff; auto)); reflexivity.
Qed.
Lemma exponent_digit : forall n e c r, exponent_text n e (c :: r) -> is_digit c = false /\ (c =? ch ".")%N = false.
Proof. intros n e c r H. remember (c :: r) as cr eqn:Hx. destruct H as [|neg letter sg ds e Hl S N D B E I]; [discriminate Hx|]. destruct Hl as [-> | ->]; injection Hx as <- _; split; reflexivity. Qed.

Lemma unsigned_parses : forall s d, parse_unsigned_bigdec s = Some d <-> unsigned_number s d.
Proof.
  intros s d. unfold parse_unsigned_bigdec. split.
  - destruct (span is_digit s) as [ip r1] eqn:S. apply span_spec in S as (-> & D & H1).
    assert (F : exists fp f r2, (match r1 with c :: r => if (c =? ch ".")%N then span is_digit r else ([], r1) | [] => ([], []) end) = (fp, r2) /\
       r1 = f ++ r2 /\ fraction_text fp f).
    { destruct r1 as [|c r]; [exists [], [], []; repeat split; constructor|]. destruct (c =? ch ".")%N eqn:P.
      - apply N.eqb_eq in P. subst. destruct (span is_digit r) as [fp r2] eqn:S. apply span_spec in S as (-> & Df & _).
        exists fp, (J "." ++ fp), r2. repeat split. constructor. exact Df.
      - exists [], [], (c :: r). repeat split. constructor. }
    destruct F as (fp & f & r2 & -> & -> & F). destruct (ip ++ fp) as [|y ys] eqn:Y; [discriminate|]. destruct r2 as [|c r].
    + intros H. injection H as <-. exists ip, fp, f, 0, []. rewrite Y, Z.sub_0_r. repeat split; auto; try discriminate. constructor.
    + intros H. pose proof (exponent_part fp c r) as X. destruct ((c =? ch "e")%N || (c =? ch "E")%N); [|discriminate]. destruct (parse_exponent r) as [e|]; [|discriminate].
      specialize (X e). destruct (in_int (Z.of_nat (length fp) - e)); [|discriminate].
      injection H as <-. exists ip, fp, f, e, (c :: r). rewrite Y. repeat split; auto; try discriminate. apply X. reflexivity.
  - intros (ip & fp & f & e & x & -> & D & F & N & X & ->).
    assert (Df : all_digits fp = true) by (destruct F; auto).
    assert (Sx : span is_digit x = ([], x)).
    { destruct x as [|c x]; [reflexivity|]. apply exponent_digit in X as [Dx _]. cbn. rewrite Dx. reflexivity. }
    assert (S1 : span is_digit (ip ++ f ++ x) = (ip, f ++ x)).
    { destruct F; cbn [app].
      - destruct x as [|c x]; [rewrite app_nil_r; apply span_all; auto|]. apply exponent_digit in X as [Dx _]. apply span_stop; auto.
      - change (J "." ++ ds) with (ch "." :: ds). cbn [app]. apply span_stop; auto. }
    rewrite S1. assert (S2 : (match f ++ x with c :: r => if (c =? ch ".")%N then span is_digit r else ([], f ++ x) | [] => ([], []) end) = (fp, x)).
    { destruct F; cbn [app].
      - destruct x as [|c x]; [reflexivity|]. apply exponent_digit in X as [_ ->]. reflexivity.
      - change (J "." ++ ds) with (ch "." :: ds). cbn [app]. change ((ch "." =? ch ".")%N) with true. cbn iota.
        destruct x as [|c x]; [rewrite app_nil_r; apply span_all; auto|]. apply exponent_digit in X as [Dx _]. apply span_stop; auto. }
    match goal with |- (let (_, _) := ?t in _) = _ => replace t with (fp, x) by (symmetry; exact S2) end. destruct (ip ++ fp) as [|y ys] eqn:Y; [congruence|]. destruct x as [|c x].
    + remember ([] : jstr) as cr eqn:Hx in X. destruct X as [|neg letter sg ds e Hl S Ne Dd B E I]; [rewrite Z.sub_0_r; reflexivity|]. destruct Hl as [-> | ->]; discriminate Hx.
    + apply exponent_part in X. destruct (_ || _); [|discriminate]. destruct (parse_exponent x) as [e'|]; [|discriminate]. destruct (in_int _); [|discriminate].
      injection X as ->. reflexivity.
Qed.

Lemma bd_neg_value : forall d, (dec_value (bd_neg d) == - dec_value d)%Q.
Proof. intros [u s]. unfold dec_value, bd_neg. cbn [unscaled scale]. rewrite inject_Z_opp. ring. Qed.

Lemma number_parses : forall s q, written_number s q <-> exists d, parse_bigdec s = Some d /\ (q == dec_value d)%Q.
Proof.
  assert (V : forall u n e, (inject_Z u * (10 # 1) ^ (e - n) == dec_value (BD u (n - e)))%Q).
  { intros u n e. unfold dec_value. cbn [unscaled scale]. replace (- (n - e)) with (e - n) by lia. reflexivity. }
  assert (H0 : forall s d, unsigned_number s d -> exists c r, s = c :: r /\ (c =? ch "-")%N = false /\ (c =? ch "+")%N = false).
  { intros s d (ip & fp & f & e & x & -> & D & F & N & _). destruct ip as [|c ip].
    - destruct F; [cbn in N; congruence|]. exists (ch "."), (ds ++ x). repeat split.
    - assert (Dc : is_digit c = true) by (cbn in D; apply andb_true_iff in D; tauto). exists c, (ip ++ f ++ x). split; [reflexivity|]. apply not_digit_sign; auto. }
  intros s q. split.
  - intros (neg & sg & ip & fp & f & e & x & -> & S & D & F & N & X & Q).
    assert (U : unsigned_number (ip ++ f ++ x) (BD (digits_val (ip ++ fp)) (Z.of_nat (length fp) - e))) by (exists ip, fp, f, e, x; repeat split; auto).
    pose proof (proj2 (unsigned_parses _ _) U) as P. rewrite <- Qmult_assoc, V in Q. destruct S; cbn [app].
    + destruct (H0 _ _ U) as (c & r & E & C1 & C2). eexists. split; [rewrite E in *; cbn [parse_bigdec]; rewrite C1, C2; exact P|]. rewrite Q. apply Qmult_1_l.
    + eexists. split; [exact P|]. rewrite Q. apply Qmult_1_l.
    + eexists. split; [change (J "-" ++ ip ++ f ++ x) with (ch "-" :: ip ++ f ++ x); rewrite parse_bigdec_neg, P; reflexivity|]. rewrite bd_neg_value, Q. ring.
  - intros (d & P & Q).
    assert (W : forall neg sg s d, sign_text neg sg -> parse_unsigned_bigdec s = Some d -> (q == (if neg then -1 # 1 else 1) * dec_value d)%Q -> written_number (sg ++ s) q).
    { clear. intros neg sg s d S P Q. apply unsigned_parses in P as (ip & fp & f & e & x & -> & D & F & N & X & ->).
      exists neg, sg, ip, fp, f, e, x. repeat split; auto. rewrite Q, <- Qmult_assoc. apply Qmult_comp; [reflexivity|]. unfold dec_value. cbn [unscaled scale].
      replace (- (Z.of_nat (length fp) - e)) with (e - Z.of_nat (length fp)) by lia. reflexivity. }
    destruct s as [|c s]; [discriminate|]. cbn [parse_bigdec] in P. destruct (c =? ch "-")%N eqn:M; [|destruct (c =? ch "+")%N eqn:Pl].
    + apply N.eqb_eq in M. subst c. destruct (parse_unsigned_bigdec s) as [d'|] eqn:U; [|discriminate]. injection P as <-.
      apply (W true (J "-") s d'); [constructor|auto|]. rewrite Q, bd_neg_value. ring.
    + apply N.eqb_eq in Pl. subst c. apply (W false (J "+") s d); [constructor|auto|]. rewrite Q. ring.
    + apply (W false [] (c :: s) d); [constructor|auto|]. rewrite Q. ring.
Qed.

(** Conversions *)
Lemma stands_type : forall v a, stands v a -> get_data_type v = a /\ v <> VNull /\ is_valid a v = Ok true.
Proof.
  intros v a H. destruct H as [b|z Z0|z Z0|b|dbl t q F|t|v x D|v x D|s D X|il l|l t|es|t]; try (split; [reflexivity|]; split; [discriminate|reflexivity]).
  - split; [reflexivity|]. split; [discriminate|]. destruct (float_parses t q F) as (d & P & _). cbn. rewrite P. reflexivity.
  - destruct (denotes_primitive v x D) as (N & T & V & _). auto.
  - destruct (denotes_dt_primitive v x D) as (N & T & V & _). auto.
  - split; [|split; [discriminate|reflexivity]]. cbn. destruct (parse_datetime s) eqn:P; [apply parse_datetime_spec in P; exfalso; eapply X; eauto|].
    destruct (parse_date s) eqn:P'; [apply parse_date_spec in P'; exfalso; eapply D; eauto|]. reflexivity.
Qed.

Lemma get_value_total : forall t v, v <> VNull -> exists o, get_value t v = Ok o.
Proof.
  intros t v N. assert (S : to_string v = Ok (show v)) by (destruct v; congruence || reflexivity).
  destruct t; cbn [get_value]; eauto; unfold get_string, get_boolean, get_date, get_datetime; rewrite ?S; cbn [bind]; eauto;
    destruct v; eauto; cbv zeta; destruct (jstr_eqb _ _); eauto; destruct (jstr_eqb _ _); eauto.
Qed.
Lemma primitive_total : forall t v, v <> VNull -> (exists x, primitive_value t v = Ok x) \/ primitive_value t v = Err InvalidDataType.
Proof.
  intros t v N. unfold primitive_value. destruct (get_value_total t v N) as ([x|] & ->); [left; exists x; reflexivity|right; reflexivity].
Qed.

(** A conversion that a comparison may ask for: to a type no narrower than the value's own. *)
Definition widening (a t : dtype) : Prop :=
  match t with
  | INTEGER => a <> LONG /\ a <> DECIMAL
  | LONG => a <> DECIMAL
  | BOOLEAN => a = BOOLEAN
  | _ => True
  end.

Definition holds_sense (t : dtype) (x : jval) (m : sense) : Prop :=
  match m with
  | AText s => x = VStr s
  | ANumber q => num_of x q /\ get_data_type x = t /\ three t
  | AVersion s => x = VVer s
  | ABool b => x = VBool b
  | ADate a => x = VDate a /\ calendar a
  | ADateTime y => x = VDateTime y /\ wall_time y
  end.

Definition plain (v : jval) : Prop := match v with VNull | VInt _ | VLong _ | VDec _ | VFloat _ _ => False | _ => True end.
Lemma plain_or : forall v a, stands v a -> plain v \/ (exists z, v = VInt z /\ a = INTEGER /\ -2147483648 <= z <= 2147483647) \/
  (exists z, v = VLong z /\ a = LONG /\ -9223372036854775808 <= z <= 9223372036854775807) \/ (a = DECIMAL /\ exists q, number v q).
Proof.
  intros v a H. destruct H as [b|z Z0|z Z0|b|dbl t q F|t|v x D|v x D|s D X|il l|l t|es|t]; try (left; exact Logic.I).
  - right; left. exists z. auto.
  - right; right; left. exists z. auto.
  - right; right; right. split; auto. exists (dec_value b). constructor. reflexivity.
  - right; right; right. split; auto. exists q. constructor. auto.
  - destruct D as [[-> _]|(s & -> & _)]; left; exact Logic.I.
  - destruct D as [[-> _]|(s & -> & _)]; left; exact Logic.I.
Qed.
Lemma plain_values : forall v, plain v -> decimal_value v = parse_bigdec (show v) /\
  integer_value v = match parse_bigdec (show v) with Some d => parse_int (bd_to_plain (bd_strip d)) | None => None end /\
  long_value v = match parse_bigdec (show v) with Some d => parse_long (bd_to_plain (bd_strip d)) | None => None end /\
  forall q, valued v q <-> written_number (show v) q.
Proof. intros v H. destruct v; try destruct H; repeat split; auto. Qed.
Lemma valued_comp : forall v p q, (p == q)%Q -> valued v p -> valued v q.
Proof.
  intros v p q E H. assert (W : forall s, written_number s p -> written_number s q).
  { intros s (neg & sg & ip & fp & f & e & x & A & B & C & D & F & G & Q). exists neg, sg, ip, fp, f, e, x. repeat split; auto. rewrite <- E. exact Q. }
  assert (M : number v p -> number v q).
  { intros K. destruct K as [z p0 R Q|z p0 R Q|d p0 Q|dbl t p0 (neg & ip & fp & ex & A1 & A2 & A3 & A4 & A5 & A6 & A7 & Q)]; try (constructor; auto; rewrite <- E; exact Q).
    constructor. exists neg, ip, fp, ex. repeat split; auto; try (apply A6; auto). rewrite <- E. exact Q. }
  destruct v; cbn [valued] in *; auto.
Qed.

Lemma dec_conv : forall v a, stands v a ->
  (forall d, decimal_value v = Some d -> valued v (dec_value d)) /\ (forall q, valued v q -> exists d, decimal_value v = Some d /\ (dec_value d == q)%Q).
Proof.
  intros v a H. destruct (plain_or v a H) as [P|[(z & -> & _ & R)|[(z & -> & _ & R)|(_ & q & N)]]].
  - destruct (plain_values v P) as (-> & _ & _ & V). split.
    + intros d E. apply V, number_parses. exists d. split; [auto|reflexivity].
    + intros q K. apply V, number_parses in K as (d & E & Q). exists d. split; auto. symmetry. auto.
  - split; [|intros q K; apply number_decimal; exact K]. intros d E. cbn in E. rewrite parse_bigdec_print_Z in E. injection E as <-. constructor; auto. apply dec_of_Z.
  - split; [|intros q K; apply number_decimal; exact K]. intros d E. cbn in E. rewrite parse_bigdec_print_Z in E. injection E as <-. constructor; auto. apply dec_of_Z.
  - assert (V : forall p, valued v p <-> number v p) by (intros p; destruct N; reflexivity). split.
    + intros d E. destruct (number_decimal v q N) as (d' & E' & Q). rewrite E in E'. injection E' as <-. apply valued_comp with q; [symmetry; auto|]. apply V. exact N.
    + intros p K. apply number_decimal, V. exact K.
Qed.
Lemma int_conv : forall v a z, stands v a -> a <> LONG -> a <> DECIMAL -> integer_value v = Some z <-> valued v (inject_Z z) /\ -2147483648 <= z <= 2147483647.
Proof.
  intros v a z H NL ND. destruct (plain_or v a H) as [P|[(z0 & -> & _ & R)|[(z0 & -> & -> & R)|(-> & _)]]]; try congruence.
  - destruct (plain_values v P) as (_ & -> & _ & V). rewrite V, number_parses. split.
    + destruct (parse_bigdec (show v)) as [d|]; [|discriminate]. intros E. apply parse_int_plain_strip in E as [E I]. apply in_int_iff in I. split; auto. exists d. split; auto. symmetry; auto.
    + intros [(d & -> & Q) I]. apply parse_int_plain_strip. split; [symmetry; auto|]. apply in_int_iff; auto.
  - cbn. split; [intros E; injection E as <-; split; auto; constructor; auto; reflexivity|]. intros [K _]. inversion K as [a' q R' Q| | |]; subst. apply (proj1 (inject_eq _ _)) in Q. congruence.
Qed.
Lemma long_conv : forall v a z, stands v a -> a <> DECIMAL -> long_value v = Some z <-> valued v (inject_Z z) /\ -9223372036854775808 <= z <= 9223372036854775807.
Proof.
  intros v a z H ND. destruct (plain_or v a H) as [P|[(z0 & -> & _ & R)|[(z0 & -> & _ & R)|(-> & _)]]]; try congruence.
  - destruct (plain_values v P) as (_ & _ & -> & V). rewrite V, number_parses. split.
    + destruct (parse_bigdec (show v)) as [d|]; [|discriminate]. intros E. apply parse_long_plain_strip in E as [E I]. apply in_long_iff in I. split; auto. exists d. split; auto. symmetry; auto.
    + intros [(d & -> & Q) I]. apply parse_long_plain_strip. split; [symmetry; auto|]. apply in_long_iff; auto.
  - rewrite long_value_int by (apply in_long_iff; lia). cbn [valued]. split; [intros E; injection E as <-; split; [constructor; auto; reflexivity|lia]|].
    intros [K _]. inversion K as [a' q R' Q| | |]; subst. apply (proj1 (inject_eq _ _)) in Q. congruence.
  - cbn. split; [intros E; injection E as <-; split; auto; constructor; auto; reflexivity|]. intros [K _]. inversion K as [|a' q R' Q| |]; subst. apply (proj1 (inject_eq _ _)) in Q. congruence.
Qed.

Lemma show_string : forall v, v <> VNull -> to_string v = Ok (show v).
Proof. intros v N. destruct v; congruence || reflexivity. Qed.

(** The conversion succeeds exactly on the values that can be read as the type. *)
Lemma read_converts : forall v a t m, stands v a -> widening a t -> read_as v t m -> exists x, primitive_value t v = Ok x /\ holds_sense t x m.
Proof.
  intros v a t m H W R. destruct (stands_type v a H) as (_ & N & _). pose proof (show_string v N) as S.
  destruct R as [|z V B|z V B|q V| |b E|x E|x E D|x E|x E D]; unfold primitive_value; cbn [get_value].
  - unfold get_string. rewrite S. eexists. split; reflexivity.
  - destruct W as [W1 W2]. rewrite (proj2 (int_conv v a z H W1 W2)) by auto. eexists. split; [reflexivity|]. split; [cbn|split; [reflexivity|]]; [reflexivity|left; reflexivity].
  - rewrite (proj2 (long_conv v a z H W)) by auto. eexists. split; [reflexivity|]. split; [cbn|split; [reflexivity|]]; [reflexivity|right; left; reflexivity].
  - destruct (proj2 (dec_conv v a H) q V) as (d & -> & Q). eexists. split; [reflexivity|]. split; [cbn|split; [reflexivity|]]; [symmetry; exact Q|right; right; reflexivity].
  - exists (VVer (show v)). split; [|reflexivity]. destruct v; congruence || reflexivity.
  - subst v. eexists. split; reflexivity.
  - destruct E as [-> C]. eexists. split; [reflexivity|]. split; auto.
  - apply parse_date_spec in D as D'. assert (G : get_date v = Ok (Some (VDate x))).
    { unfold get_date. rewrite S. cbn [bind]. rewrite D'. destruct v; reflexivity || congruence. }
    rewrite G. eexists. split; [reflexivity|]. split; auto. eapply written_calendar; eauto.
  - destruct E as [-> C]. eexists. split; [reflexivity|]. split; auto.
  - apply parse_datetime_spec in D as D'. assert (G : get_datetime v = Ok (Some (VDateTime x))).
    { unfold get_datetime. rewrite S. cbn [bind]. rewrite D'. destruct v; reflexivity || congruence. }
    rewrite G. eexists. split; [reflexivity|]. split; auto. eapply written_datetime_wall; eauto.
Qed.

Lemma converts_read : forall v a t x, stands v a -> widening a t -> primitive_value t v = Ok x -> exists m, read_as v t m.
Proof.
  intros v a t x H W P. destruct (stands_type v a H) as (T & N & _). pose proof (show_string v N) as S. unfold primitive_value in P.
  destruct t; cbn [get_value] in P.
  - eexists. constructor.
  - destruct W as [W1 W2]. destruct (integer_value v) as [z|] eqn:E; [|discriminate P]. apply (int_conv v a z H W1 W2) in E as [E B]. eexists. constructor 2; eauto.
  - destruct (long_value v) as [z|] eqn:E; [|discriminate P]. apply (long_conv v a z H W) in E as [E B]. eexists. constructor 3; eauto.
  - destruct (decimal_value v) as [d|] eqn:E; [|discriminate P]. apply (proj1 (dec_conv v a H)) in E. eexists. constructor 4; eauto.
  - eexists. constructor 5.
  - cbn in W. subst a. inversion H; subst. eexists. constructor 6. reflexivity.
  - assert (K : (exists d, v = VDate d) \/ forall d, v <> VDate d) by (destruct v; (right; discriminate) || (left; eexists; reflexivity)). destruct K as [[d ->]|K].
    + inversion H as [| | | | | |v0 y D|v0 y D| | | | |]; subst.
      * destruct D as [[E C]|(s & E & _)]; [|discriminate E]. exists (ADate y). constructor 7. split; auto.
      * destruct D as [[E C]|(s & E & _)]; discriminate E.
    + unfold get_date in P. rewrite S in P. cbn [bind] in P. destruct (parse_date (show v)) as [d|] eqn:E.
      * apply parse_date_spec in E. eexists. constructor 8; eauto.
      * destruct v; try (discriminate P). exfalso. eapply K. reflexivity.
  - assert (K : (exists d, v = VDateTime d) \/ forall d, v <> VDateTime d) by (destruct v; (right; discriminate) || (left; eexists; reflexivity)). destruct K as [[d ->]|K].
    + inversion H as [| | | | | |v0 y D|v0 y D| | | | |]; subst.
      * destruct D as [[E C]|(s & E & _)]; discriminate E.
      * destruct D as [[E C]|(s & E & _)]; [|discriminate E]. exists (ADateTime y). constructor 9. split; auto.
    + unfold get_datetime in P. rewrite S in P. cbn [bind] in P. destruct (parse_datetime (show v)) as [d|] eqn:E.
      * apply parse_datetime_spec in E. eexists. constructor 10; eauto.
      * destruct v; try (discriminate P). exfalso. eapply K. reflexivity.
Qed.

Lemma compare_senses : forall t x y m m' c, holds_sense t x m -> holds_sense t y m' -> compared m m' c -> compare_to x y = Ok c.
Proof.
  intros t x y m m' c X Y C. destruct C as [s u c O|p q|s u|b| | |a b k D|a b k D]; cbn [holds_sense] in X, Y.
  - subst. cbn. f_equal. apply text_order_compare. auto.
  - destruct X as (X & Tx & T), Y as (Y & Ty & _). apply compare_num_of; auto; [congruence|rewrite Tx; auto].
  - subst. reflexivity.
  - subst. destruct b; reflexivity.
  - subst. reflexivity.
  - subst. reflexivity.
  - destruct X as [-> Ca], Y as [-> Cb]. cbn. f_equal. apply days_later_epoch in D. subst k. rewrite epoch_compare, compare_shift by auto. reflexivity.
  - destruct X as [-> Ca], Y as [-> Cb]. cbn. f_equal. rewrite datetime_compare_clock by auto. destruct D as (days & D & ->). apply days_later_epoch in D. subst days. reflexivity.
Qed.
Lemma senses_compare : forall t x y v w m m', holds_sense t x m -> holds_sense t y m' -> read_as v t m -> read_as w t m' -> exists c, compared m m' c.
Proof.
  intros t x y v w m m' X Y U V.
  assert (D : forall a b, calendar a -> calendar b -> exists c, compared (ADate a) (ADate b) c)
    by (intros a b Ca Cb; eexists; constructor; apply days_later_exist; auto).
  assert (D' : forall a b, wall_time a -> wall_time b -> exists c, compared (ADateTime a) (ADateTime b) c)
    by (intros a b Ca Cb; eexists; constructor; eexists; split; [apply days_later_exist; [apply Ca|apply Cb]|reflexivity]).
  destruct U; inversion V; subst; cbn [holds_sense] in X, Y; try (eexists; constructor; fail); try (apply D; tauto); try (apply D'; tauto).
  - exists (jstr_compare (show v) (show w)). constructor. apply text_order_compare. reflexivity.
  - destruct b, b0; eexists; constructor.
Qed.

Definition answer (op : operator) (c : comparison) : res bool := match accepts op c with Some r => Ok r | None => Err NullPointer end.

Lemma is_valid_primitive : forall t v, t <> STRING -> v <> VNull -> is_valid t v = Ok (match primitive_value t v with Ok _ => true | Err _ => false end).
Proof.
  intros t v T N. unfold primitive_value, is_valid. destruct (get_value_total t v N) as ([x|] & G); rewrite G; destruct t; congruence || reflexivity.
Qed.

Lemma validate_absorbed : forall v w a b test, v <> VNull -> w <> VNull ->
  (_ <- ordering_validate v a w b ;; c <- compare_as (ordering_type a b) v w ;; Ok (test c : bool)) = (c <- compare_as (ordering_type a b) v w ;; Ok (test c)).
Proof.
  intros v w a b test Nv Nw. unfold ordering_validate, ordering_type. destruct (numeric a) eqn:A, (numeric b) eqn:B; cbn [negb andb orb bind]; try reflexivity.
  - rewrite is_valid_primitive by (auto; intros ->; discriminate A). unfold compare_as.
    destruct (primitive_total a w Nw) as [[x P]|P]; rewrite P; cbn [bind]; [reflexivity|]. destruct (primitive_total a v Nv) as [[y P']|P']; rewrite P'; reflexivity.
  - rewrite is_valid_primitive by (auto; intros ->; discriminate B). unfold compare_as.
    destruct (primitive_total b v Nv) as [[x P]|P]; rewrite P; cbn [bind]; reflexivity.
Qed.

Lemma logical_mixed : forall op c0 v w a b, accepts op c0 <> None -> stands v a -> stands w b ->
  evaluate_logical op PRIMITIVE v a [(w, b)] = match meeting op a b with None => Err InvalidDataType | Some t => c <- compare_as t v w ;; answer op c end.
Proof.
  intros op c0 v w a b A Hv Hw. destruct (stands_type v a Hv) as (_ & Nv & V), (stands_type w b Hw) as (_ & Nw & _).
  unfold evaluate_logical.
  assert (Qe : first_of a b = Some (equality_type a b)) by (destruct a, b; reflexivity).
  assert (Qo : boolean a || boolean b = false -> meeting LESS_THAN a b = Some (ordering_type a b)) by (destruct a, b; intros; reflexivity || discriminate).
  assert (L : mem_type a all_types = true /\ mem_type b all_types = true) by (destruct a, b; split; reflexivity). destruct L as [La Lb].
  assert (M : mem_type a [INTEGER; LONG; DECIMAL; STRING; VERSION; DATE; DATETIME] = negb (boolean a) /\ mem_type b [INTEGER; LONG; DECIMAL; STRING; VERSION; DATE; DATETIME] = negb (boolean b))
    by (destruct a, b; split; reflexivity). destruct M as [Ma Mb].
  assert (Ord : forall test, (if negb (negb (boolean a)) then Err InvalidDataType else
      (v0 <- is_valid a v ;; if negb v0 then Err InvalidDataType else if negb (negb (boolean b) && true) then Err InvalidDataType else
       (_ <- ordering_validate v a w b ;; c <- compare_as (ordering_type a b) v w ;; Ok (test c : bool)))) =
      match meeting LESS_THAN a b with None => Err InvalidDataType | Some t => c <- compare_as t v w ;; Ok (test c) end).
  { intros test. rewrite V. cbn [bind negb]. destruct (boolean a) eqn:Ba; cbn [negb]; [destruct a; try discriminate Ba; reflexivity|].
    destruct (boolean b) eqn:Bb; cbn [negb andb]; [destruct a, b; try discriminate Bb; try discriminate Ba; reflexivity|].
    rewrite validate_absorbed, Qo by auto. reflexivity. }
  destruct op; try (cbn in A; congruence); cbn [is_logical negb logical_container container_eqb logical_types forallb snd logical_evaluate first_operand bind container_is_valid fst];
    rewrite ?La, ?Lb, ?Ma, ?Mb; cbn [negb andb]; cbn [meeting]; fold (meeting LESS_THAN a b).
  - rewrite V. cbn [bind negb]. rewrite Qe. unfold eval_equals. cbn [fst snd]. destruct (compare_as (equality_type a b) v w) as [[]|]; reflexivity.
  - unfold eval_ordering. cbn [fst snd]. rewrite Ord. destruct (meeting LESS_THAN a b) as [t|]; [|reflexivity]. destruct (compare_as t v w) as [[]|]; reflexivity.
  - unfold eval_ordering. cbn [fst snd]. rewrite Ord. destruct (meeting LESS_THAN a b) as [t|]; [|reflexivity]. destruct (compare_as t v w) as [[]|]; reflexivity.
  - unfold eval_ordering. cbn [fst snd]. rewrite Ord. destruct (meeting LESS_THAN a b) as [t|]; [|reflexivity]. destruct (compare_as t v w) as [[]|]; reflexivity.
  - unfold eval_ordering. cbn [fst snd]. rewrite Ord. destruct (meeting LESS_THAN a b) as [t|]; [|reflexivity]. destruct (compare_as t v w) as [[]|]; reflexivity.
  - rewrite V. cbn [bind negb]. rewrite Qe. unfold eval_not_equals. cbn [fst snd]. destruct (compare_as (equality_type a b) v w) as [[]|]; reflexivity.
Qed.

Lemma meeting_widens : forall op a b t, meeting op a b = Some t -> widening a t /\ widening b t.
Proof. intros op a b t H. destruct op; try discriminate H; destruct a, b; cbn in H; try discriminate H; injection H as <-; cbn; repeat split; discriminate || auto. Qed.

Lemma mixed_comparison : forall E d l r op c0 v w a b, accepts op c0 <> None -> yields E d l v -> yields E d r w -> stands v a -> stands w b ->
  (forall t m m' c x, meeting op a b = Some t -> read_as v t m -> read_as w t m' -> compared m m' c -> accepts op c = Some x ->
     bool_eval E d (cond l op r) = Ok x) /\
  (incomparable op v w a b -> bool_eval E d (cond l op r) = Err InvalidDataType) /\
  (incomparable op v w a b \/ exists t m m' c x, meeting op a b = Some t /\ read_as v t m /\ read_as w t m' /\ compared m m' c /\ accepts op c = Some x).
Proof.
  intros E d l r op c0 v w a b A L R Hv Hw. rewrite (cond_yields _ _ _ _ _ _ _ L R).
  destruct (stands_type v a Hv) as (-> & Nv & _), (stands_type w b Hw) as (-> & Nw & _). rewrite (logical_mixed op c0 v w a b) by auto.
  split; [|split].
  - intros t m m' c x M Rv Rw C X. rewrite M. destruct (meeting_widens op a b t M) as [Wa Wb].
    destruct (read_converts v a t m Hv Wa Rv) as (y & Py & Sy), (read_converts w b t m' Hw Wb Rw) as (z & Pz & Sz).
    unfold compare_as. rewrite Py, Pz. cbn [bind]. rewrite (compare_senses t y z m m' c Sy Sz C). cbn [bind]. unfold answer. rewrite X. reflexivity.
  - intros I. destruct (meeting op a b) as [t|] eqn:M; [|reflexivity]. destruct (meeting_widens op a b t M) as [Wa Wb]. unfold compare_as.
    destruct (primitive_total t v Nv) as [[y Py]|P]; [|rewrite P; reflexivity]. destruct (primitive_total t w Nw) as [[z Pz]|P]; [|rewrite Py, P; reflexivity].
    exfalso. destruct (converts_read v a t y Hv Wa Py) as (m & Rm), (converts_read w b t z Hw Wb Pz) as (m' & Rm'). apply (I t m m' M). auto.
  - destruct (meeting op a b) as [t|] eqn:M; [|left; intros t m m' X; congruence]. destruct (meeting_widens op a b t M) as [Wa Wb].
    destruct (primitive_total t v Nv) as [[y Py]|P].
    2: { left. intros t' m m' X [Rv _]. assert (t' = t) by congruence. subst t'. destruct (read_converts v a t m Hv Wa Rv) as (y & Py & _). congruence. }
    destruct (primitive_total t w Nw) as [[z Pz]|P].
    2: { left. intros t' m m' X [_ Rw]. assert (t' = t) by congruence. subst t'. destruct (read_converts w b t m' Hw Wb Rw) as (z & Pz & _). congruence. }
    right. destruct (converts_read v a t y Hv Wa Py) as (m & Rm), (converts_read w b t z Hw Wb Pz) as (m' & Rm').
    destruct (read_converts v a t m Hv Wa Rm) as (y' & _ & Sy), (read_converts w b t m' Hw Wb Rm') as (z' & _ & Sz).
    destruct (senses_compare t y' z' v w m m' Sy Sz Rm Rm') as [c C].
    destruct (accepts op c) as [x|] eqn:X; [exists t, m, m', c, x; auto|]. exfalso. apply A. destruct op, c0, c; cbn in *; congruence.
Qed.

(** Pairs of types with no common reading *)
Lemma ymd_of_date : forall s a, written_date s a -> parse_ymd false 19 s <> None.
Proof. intros s a H E. apply parse_date_spec in H. unfold parse_date in H. rewrite E in H. discriminate H. Qed.
Lemma ymd_of_datetime : forall s x, written_datetime s x -> parse_ymd false 19 s <> None.
Proof. intros s a H E. apply parse_datetime_spec in H. unfold parse_datetime in H. rewrite E in H. discriminate H. Qed.

Lemma decimal_no_ymd : forall d, parse_ymd false 19 (bd_to_string d) = None.
Proof.
  intros d. destruct (parse_ymd false 19 (bd_to_string d)) as [[[[y m] dd] r]|] eqn:P; [|reflexivity]. exfalso.
  apply ymd_shape in P as (sg & ds & t & E & D & S & N).
  assert (X : exists ds1 r1, bd_to_string d = sign_str (unscaled d) ++ ds1 ++ r1 /\ ds1 <> [] /\ all_digits ds1 = true /\ match r1 with [] => True | c :: _ => is_digit c = false /\ c <> ch "-" end).
  { unfold bd_to_string. pose proof (print_N_digits (Z.abs_N (unscaled d))) as Pd. pose proof (print_N_nonnil (Z.abs_N (unscaled d))) as Pn. set (p := print_N _) in *.
    destruct (scale d =? 0) eqn:Z0; [exists p, []; rewrite app_nil_r; repeat split; auto|].
    destruct (_ && _).
    - unfold insert_point. destruct (Nat.ltb_spec (Z.to_nat (scale d)) (length p)) as [L|L].
      + exists (firstn (length p - Z.to_nat (scale d)) p), (ch "." :: skipn (length p - Z.to_nat (scale d)) p). split; [reflexivity|].
        split; [|split; [|split; [reflexivity|discriminate]]].
        * intros F. apply (f_equal (@length _)) in F. rewrite firstn_length in F. cbn in F. lia.
        * unfold all_digits in *. rewrite forallb_forall in *. intros c I. apply Pd. rewrite <- (firstn_skipn (length p - Z.to_nat (scale d)) p). apply in_or_app. auto.
      + exists (J "0"), (ch "." :: repeat (ch "0") (Z.to_nat (scale d) - length p) ++ p). repeat split; discriminate.
    - destruct p as [|c p]; [congruence|]. assert (Dc : is_digit c = true) by (cbn in Pd; apply andb_true_iff in Pd; tauto).
      set (q := if _ =? 0 then _ else _). assert (Q : match q with [] => True | c :: _ => is_digit c = false /\ c <> ch "-" end) by (unfold q; match goal with |- context [if ?b then [] else _] => destruct b end; [exact Logic.I|split; [reflexivity|discriminate]]).
      clearbody q. destruct p as [|c' p].
      + exists [c], q. split; [reflexivity|]. split; [discriminate|]. split; [cbn; rewrite Dc; reflexivity|exact Q].
      + exists [c], (ch "." :: c' :: p ++ q). split; [reflexivity|]. split; [discriminate|]. split; [cbn; rewrite Dc; reflexivity|split; [reflexivity|discriminate]]. }
  destruct X as (ds1 & r1 & E1 & N1 & D1 & R1). rewrite E1 in E. clear E1.
  destruct ds1 as [|c ds1]; [congruence|]. assert (Dc : is_digit c = true) by (cbn in D1; apply andb_true_iff in D1; tauto).
  destruct (not_digit_sign c Dc) as [Cm Cp]. apply N.eqb_neq in Cm, Cp.
  destruct ds as [|c2 ds]; [congruence|]. assert (Dc2 : is_digit c2 = true) by (cbn in D; apply andb_true_iff in D; tauto).
  destruct (not_digit_sign c2 Dc2) as [Cm2 Cp2]. apply N.eqb_neq in Cm2, Cp2.
  unfold sign_str in E. destruct (unscaled d <? 0); destruct S as [-> | ->]; cbn [app] in E.
  - injection E as E _. apply Cm2. symmetry. exact E.
  - discriminate E.
  - assert (G : span is_digit ((c :: ds1) ++ r1) = (c :: ds1, r1)).
    { destruct r1 as [|c1 r1]; [rewrite app_nil_r; apply span_all; auto|]. apply span_stop; auto. apply R1. }
    change (c :: ds1 ++ r1) with ((c :: ds1) ++ r1) in E. change (c2 :: ds ++ ch "-" :: t) with ((c2 :: ds) ++ ch "-" :: t) in E.
    rewrite E, span_stop in G by auto. injection G as _ _ G. subst r1. destruct R1 as [_ R1]. apply R1. reflexivity.
  - injection E as E _. apply Cp. exact E.
Qed.

Lemma number_no_ymd : forall v a, stands v a -> a = INTEGER \/ a = LONG \/ a = DECIMAL -> parse_ymd false 19 (show v) = None.
Proof.
  intros v a H T. assert (G : forall s d, parse_bigdec s = Some d -> parse_ymd false 19 s = None).
  { intros s d P. destruct (parse_ymd false 19 s) eqn:Y; auto. apply ymd_not_number in Y. congruence. }
  destruct H as [b|z Z0|z Z0|b|dbl t q F|t|v x D|v x D|s D X|il l|l t|es|t]; try (destruct T as [T|[T|T]]; discriminate T); cbn [show].
  - eapply G. apply parse_bigdec_print_Z.
  - eapply G. apply parse_bigdec_print_Z.
  - apply decimal_no_ymd.
  - destruct (float_parses t q F) as (d & P & _). eauto.
Qed.
Lemma number_not_dated : forall v a m, stands v a -> a = INTEGER \/ a = LONG \/ a = DECIMAL -> ~ read_as v DATE m /\ ~ read_as v DATETIME m.
Proof.
  intros v a m H T. pose proof (number_no_ymd v a H T) as Y. split; intros R; inversion R as [| | | | | |x K|x K W|x K|x K W]; subst.
  - destruct K as [-> _]. inversion H; subst; destruct T as [T|[T|T]]; discriminate T.
  - eapply ymd_of_date; eauto.
  - destruct K as [-> _]. inversion H; subst; destruct T as [T|[T|T]]; discriminate T.
  - eapply ymd_of_datetime; eauto.
Qed.

Lemma date_no_number : forall a r, parse_bigdec (date_to_string a ++ r) = None.
Proof.
  intros a r. unfold date_to_string. rewrite <- app_assoc. cbn [app]. set (t := (_ ++ _) ++ r). clearbody t.
  assert (N : forall n, pad 4 n <> []) by (intros n; unfold pad; intros E; apply app_eq_nil in E as [_ E]; apply (print_N_nonnil (Z.to_N n)); exact E).
  destruct (year a <? 0); [|destruct (9999 <? year a)]; cbn [app].
  - rewrite parse_bigdec_neg, dash_not_number by auto using pad_digits. reflexivity.
  - cbn [parse_bigdec]. change ((ch "+" =? ch "-")%N) with false. change ((ch "+" =? ch "+")%N) with true. cbn iota. apply dash_not_number; auto using pad_digits.
  - pose proof (pad_digits 4 (year a)) as D. destruct (digits_head (pad 4 (year a)) (N _) D) as (c & r' & E & Hc). rewrite E in *. cbn [app].
    erewrite parse_bigdec_unsigned by eauto. apply (dash_not_number (c :: r')); auto. discriminate.
Qed.
Lemma dated_no_number : forall v a q, stands v a -> a = DATE \/ a = DATETIME \/ a = BOOLEAN -> ~ valued v q.
Proof.
  intros v a q H T V. assert (G : forall s, parse_bigdec s = None -> ~ written_number s q) by (intros s P W; apply number_parses in W as (d & W & _); congruence).
  assert (Y : forall s, parse_ymd false 19 s <> None -> parse_bigdec s = None) by (intros s P; destruct (parse_ymd false 19 s) eqn:E; [eapply ymd_not_number; eauto|congruence]).
  destruct H as [b|z Z0|z Z0|b|dbl t p F|t|v x D|v x D|s D X|il l|l t|es|t]; try (destruct T as [T|[T|T]]; discriminate T).
  - cbn [valued] in V. apply G in V; auto. destruct b; reflexivity.
  - destruct D as [[-> _]|(s & -> & W)]; cbn [valued show] in V; apply G in V; auto; [rewrite <- (app_nil_r (date_to_string x)); apply date_no_number|]. apply Y. eapply ymd_of_date; eauto.
  - destruct D as [[-> _]|(s & -> & W)]; cbn [valued show] in V; apply G in V; auto; [apply date_no_number|]. apply Y. eapply ymd_of_datetime; eauto.
Qed.
Lemma bool_not_dated : forall v m, stands v BOOLEAN -> ~ read_as v DATE m /\ ~ read_as v DATETIME m.
Proof.
  intros v m H. inversion H; subst. split; intros R; inversion R as [| | | | | |x K|x K W|x K|x K W]; subst.
  - destruct K as [E _]. discriminate E.
  - apply ymd_of_date in W. apply W. destruct b; reflexivity.
  - destruct K as [E _]. discriminate E.
  - apply ymd_of_datetime in W. apply W. destruct b; reflexivity.
Qed.
Lemma date_not_read : forall v m, stands v DATE -> ~ read_as v DATETIME m.
Proof.
  intros v m H R. destruct (read_converts v DATE DATETIME m H Logic.I R) as (x & P & _).
  assert (D : exists a, denotes_date v a) by (inversion H; subst; eauto). destruct D as [a D]. rewrite (date_as_datetime v a D) in P. discriminate P.
Qed.

Lemma unrelated_incomparable : forall op v w a b, stands v a -> stands w b -> unrelated a b -> incomparable op v w a b /\ incomparable op w v b a.
Proof.
  intros op v w a b Hv Hw U.
  assert (G : forall t m m', meeting op a b = Some t \/ meeting op b a = Some t -> read_as v t m -> read_as w t m' -> False).
  { intros t m m' M Rv Rw. destruct U as [[Na B]|[[-> B]|[-> ->]]].
    - assert (T : t = a \/ t = DATE \/ t = DATETIME).
      { destruct M as [M|M]; destruct op; try discriminate M; destruct Na as [-> | [-> | ->]]; destruct B as [-> | [-> | ->]]; cbn in M; try discriminate M; injection M as <-; auto. }
      destruct T as [-> |[-> | ->]].
      + assert (V : exists q, valued w q) by (destruct Na as [-> | [-> | ->]]; inversion Rw; eauto). destruct V as [q V]. eapply dated_no_number; [exact Hw|exact B|exact V].
      + destruct (number_not_dated v a m Hv Na) as [K _]. auto.
      + destruct (number_not_dated v a m Hv Na) as [_ K]. auto.
    - destruct (bool_not_dated v m Hv) as [K1 K2].
      assert (T : t = DATE \/ t = DATETIME) by (destruct M as [M|M]; destruct op; try discriminate M; destruct B as [-> | ->]; cbn in M; try discriminate M; injection M as <-; auto).
      destruct T as [-> | ->]; auto.
    - assert (T : t = DATETIME) by (destruct M as [M|M]; destruct op; try discriminate M; cbn in M; injection M as <-; auto). subst t. eapply date_not_read; eauto. }
  split; intros t m m' M [R R']; eapply G; eauto.
Qed.

Lemma unrelated_fail : forall E d l r op c0 v w a b, accepts op c0 <> None -> yields E d l v -> yields E d r w -> stands v a -> stands w b -> unrelated a b ->
  bool_eval E d (cond l op r) = Err InvalidDataType /\ bool_eval E d (cond r op l) = Err InvalidDataType.
Proof.
  intros E d l r op c0 v w a b A L R Hv Hw U. destruct (unrelated_incomparable op v w a b Hv Hw U) as [I I']. split.
  - eapply mixed_comparison; eauto.
  - eapply (proj1 (proj2 (mixed_comparison E d r l op c0 w v b a A R L Hw Hv))); eauto.
Qed.

(** Text against a whole number *)
Lemma stands_number_text : forall s q, written_number s q -> stands (VStr s) STRING.
Proof.
  intros s q W. apply number_parses in W as (d & P & _). constructor; intros x H.
  - apply ymd_of_date in H. destruct (parse_ymd false 19 s) eqn:Y; [|congruence]. apply ymd_not_number in Y. congruence.
  - apply ymd_of_datetime in H. destruct (parse_ymd false 19 s) eqn:Y; [|congruence]. apply ymd_not_number in Y. congruence.
Qed.
Lemma written_unique : forall s p q, written_number s p -> written_number s q -> (p == q)%Q.
Proof. intros s p q P Q. apply number_parses in P as (d & P & E), Q as (d' & P' & E'). rewrite P in P'. injection P' as <-. rewrite E, E'. reflexivity. Qed.

Lemma text_beyond_int : forall E d l r op c0 s z q, accepts op c0 <> None -> op <> EQUALS -> op <> NOT_EQUAL ->
  yields E d l (VStr s) -> yields E d r (VInt z) -> -2147483648 <= z <= 2147483647 -> written_number s q ->
  (forall y, -2147483648 <= y <= 2147483647 -> ~ (q == inject_Z y)%Q) ->
  bool_eval E d (cond l op r) = Err InvalidDataType /\ bool_eval E d (cond r op l) = Err InvalidDataType.
Proof.
  intros E d l r op c0 s z q A N1 N2 L R Z0 W B. pose proof (stands_number_text s q W) as Hs. pose proof (stands_int z Z0) as Hz.
  assert (K : forall m, ~ read_as (VStr s) INTEGER m).
  { intros m X. inversion X as [|y V Y| | | | | | | |]; subst. cbn [valued show] in V. apply (B y Y). eapply written_unique; eauto. }
  assert (M : meeting op STRING INTEGER = Some INTEGER /\ meeting op INTEGER STRING = Some INTEGER) by (destruct op; cbn in A; try congruence; auto). destruct M as [M M'].
  split.
  - apply (proj1 (proj2 (mixed_comparison E d l r op c0 _ _ _ _ A L R Hs Hz))). intros t m m' X [Y _]. rewrite M in X. injection X as <-. eapply K; eauto.
  - apply (proj1 (proj2 (mixed_comparison E d r l op c0 _ _ _ _ A R L Hz Hs))). intros t m m' X [_ Y]. rewrite M' in X. injection X as <-. eapply K; eauto.
Qed.
Lemma text_decimal : forall E d l r op x s b q p, question op q p = Some x ->
  op <> EQUALS -> op <> NOT_EQUAL -> yields E d l (VStr s) -> yields E d r (VDec b) -> written_number s q -> (p == dec_value b)%Q ->
  bool_eval E d (cond l op r) = Ok x.
Proof.
  intros E d l r op x s b q p A N1 N2 L R W P. assert (A0 : accepts op Eq <> None) by (destruct op; cbn in *; congruence).
  refine (proj1 (mixed_comparison E d l r op Eq _ _ _ _ A0 L R (stands_number_text s q W) (stands_dec b)) DECIMAL (ANumber q) (ANumber p) _ x _ _ _ (by_value q p) _).
  - destruct op; cbn in A; try congruence; reflexivity.
  - constructor. exact W.
  - constructor. cbn. constructor. exact P.
  - destruct op; cbn [question] in A; try congruence; injection A as <-; rewrite ?Qle_bool_compare; try rewrite <- (Qcompare_antisym q p); destruct (q ?= p)%Q; reflexivity.
Qed.

(** NaN and the infinities *)
Lemma not_finite_parse : forall t, not_finite t -> parse_bigdec t = None /\ parse_ymd false 19 t = None.
Proof. intros t [-> | [-> | ->]]; split; reflexivity. Qed.
Lemma not_finite_left : forall E d l r op c0 dbl t w, accepts op c0 <> None -> not_finite t -> yields E d l (VFloat dbl t) -> yields E d r w ->
  bool_eval E d (cond l op r) = Err InvalidDataType.
Proof.
  intros E d l r op c0 dbl t w A N L R. rewrite (cond_yields _ _ _ _ _ _ _ L R). destruct (not_finite_parse t N) as [P _].
  unfold evaluate_logical. destruct op; try (cbn in A; congruence); cbn; rewrite P; reflexivity.
Qed.
Lemma not_finite_right : forall E d l r op c0 dbl t v a, accepts op c0 <> None -> not_finite t -> yields E d l v -> yields E d r (VFloat dbl t) -> stands v a ->
  bool_eval E d (cond l op r) = match op, a with
    | EQUALS, STRING => Ok (jstr_eqb (show v) t)
    | NOT_EQUAL, STRING => Ok (negb (jstr_eqb (show v) t))
    | _, _ => Err InvalidDataType
    end.
Proof.
  intros E d l r op c0 dbl t v a A N L R Hv. rewrite (cond_yields _ _ _ _ _ _ _ L R). destruct (not_finite_parse t N) as [P Y].
  destruct (stands_type v a Hv) as (-> & Nv & V).
  assert (J : jstr_eqb (show v) t = match jstr_compare (show v) t with Eq => true | _ => false end).
  { destruct (jstr_compare (show v) t) eqn:C; [apply jstr_compare_eq in C; apply jstr_eqb_iff; auto|..];
    (destruct (jstr_eqb (show v) t) eqn:X; auto; apply jstr_eqb_iff in X; rewrite X, jstr_compare_refl in C; discriminate C). }
  assert (Pd : forall x, primitive_value DECIMAL (VFloat dbl t) <> Ok x /\ primitive_value DATE (VFloat dbl t) <> Ok x /\ primitive_value DATETIME (VFloat dbl t) <> Ok x).
  { intros x. unfold primitive_value. cbn [get_value decimal_value number_of show get_date get_datetime to_string bind]. unfold parse_date, parse_datetime. rewrite P, Y. repeat split; discriminate. }
  assert (C : forall s, s = DECIMAL \/ s = DATE \/ s = DATETIME -> compare_as s v (VFloat dbl t) = Err InvalidDataType).
  { intros s S. unfold compare_as. destruct (primitive_total s v Nv) as [[y Py]|Py]; rewrite Py; [|reflexivity]. cbn [bind].
    destruct (primitive_total s (VFloat dbl t)) as [[z Pz]|Pz]; [discriminate| |rewrite Pz; reflexivity]. exfalso. destruct (Pd z) as (K1 & K2 & K3). destruct S as [-> |[-> | ->]]; contradiction. }
  assert (CS : compare_as STRING v (VFloat dbl t) = Ok (jstr_compare (show v) t)).
  { unfold compare_as, primitive_value. cbn [get_value]. unfold get_string. rewrite (show_string v Nv). reflexivity. }
  assert (O : forall test, (if negb (mem_type a [INTEGER; LONG; DECIMAL; STRING; VERSION; DATE; DATETIME]) then Err InvalidDataType else
       v0 <- is_valid a v ;; if negb v0 then Err InvalidDataType else eval_ordering test v a (VFloat dbl t, DECIMAL)) = Err InvalidDataType).
  { intros test. rewrite V. cbn [bind negb]. destruct (negb _); [reflexivity|]. unfold eval_ordering. cbn [fst snd]. rewrite validate_absorbed by (auto; discriminate).
    rewrite C; [reflexivity|]. destruct a; cbn; auto. }
  unfold evaluate_logical. cbn [get_data_type].
  destruct op; try (cbn in A; congruence); cbn [is_logical negb logical_container container_eqb logical_types forallb snd logical_evaluate first_operand bind container_is_valid fst].
  - assert (La : mem_type a all_types = true) by (destruct a; reflexivity). rewrite La, V. cbn [negb bind andb]. change (mem_type DECIMAL all_types) with true. cbn [negb andb].
    unfold eval_equals. cbn [fst snd]. destruct a; cbn [equality_type priority Z.ltb Z.compare Pos.compare Pos.compare_cont]; try (rewrite C by auto; reflexivity).
    rewrite CS, J. reflexivity.
  - apply O.
  - apply O.
  - apply O.
  - apply O.
  - assert (La : mem_type a all_types = true) by (destruct a; reflexivity). rewrite La, V. cbn [negb bind andb]. change (mem_type DECIMAL all_types) with true. cbn [negb andb].
    unfold eval_not_equals. cbn [fst snd]. destruct a; cbn [equality_type priority Z.ltb Z.compare Pos.compare Pos.compare_cont]; try (rewrite C by auto; reflexivity).
    rewrite CS, J. destruct (jstr_compare (show v) t); reflexivity.
Qed.

Lemma texts_by_units : forall E d l r op s t c x, yields E d l (VStr s) -> yields E d r (VStr t) -> of_kind Texts (VStr s) -> of_kind Texts (VStr t) ->
  text_order s t c -> accepts op c = Some x -> bool_eval E d (cond l op r) = Ok x.
Proof.
  intros E d l r op s t c x L R (s' & Es & D1 & D2) (t' & Et & D1' & D2') O A. injection Es as <-. injection Et as <-.
  assert (A0 : accepts op Eq <> None) by (destruct op, c; cbn in *; congruence).
  assert (S : forall u, parse_date u = None -> parse_datetime u = None -> stands (VStr u) STRING).
  { intros u P Q. constructor; intros y W; [apply parse_date_spec in W|apply parse_datetime_spec in W]; congruence. }
  refine (proj1 (mixed_comparison E d l r op Eq _ _ _ _ A0 L R (S s D1 D2) (S t D1' D2')) STRING _ _ c x _ (read_text (VStr s)) (read_text (VStr t)) (by_units _ _ c O) A).
  destruct op; cbn in *; congruence.
Qed.
Lemma text_order_total : forall s t, exists c, text_order s t c /\ forall c', text_order s t c' -> c' = c.
Proof.
  intros s t. exists (jstr_compare s t). split; [apply text_order_compare; reflexivity|]. intros c' H. apply text_order_compare in H. congruence.
Qed.
