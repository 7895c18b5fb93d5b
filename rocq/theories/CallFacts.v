(** Function calls on arguments of any types. *)
From Coq Require Import QArith Lia Permutation.
From Verif Require Import SpecRecover AnyText.
From Verif Require Import Base JNum BigDec Dates Values Ops Funcs Ast Eval Lexer Api SpecLex SpecTight SpecSyntax SpecText SpecOdd OddText SpecNum SpecBool SpecCompare SpecArith SpecFunc SpecDate SpecMixed SpecCall
  JNumFacts BigDecFacts NumFacts BoolFacts CompareFacts FieldFacts CacheFacts ArithFacts FuncFacts FuncRound DateFacts MixedFacts ComputeFacts.
Local Open Scope Z_scope.

Lemma argument_own v t : argument_type v t -> get_data_type v = t.
Proof. intros [H|[-> ->]]; [apply stands_type, H|reflexivity]. Qed.
Lemma argument_finite v t : argument_type v t -> finite v.
Proof. intros [H|[-> ->]] b s E; [exact (stands_float_text v t H b s E)|discriminate]. Qed.
Lemma arguments_finite ms ts : Forall2 argument_type ms ts -> Forall finite ms.
Proof. induction 1; constructor; eauto using argument_finite. Qed.
Lemma arguments_types f ms ts : Forall2 argument_type ms ts -> forallb (fun i : evaluated => mem_type (snd i) (func_types f)) (typed ms) = true <-> Forall (func_supported f) ts.
Proof.
  induction 1 as [|v t ms ts H _ IH]; [split; auto; constructor|]. cbn [typed map forallb snd]. rewrite andb_true_iff, (argument_own _ _ H), func_supported_mem.
  change (map (fun v => (v, get_data_type v)) ms) with (typed ms). rewrite IH. split; [intros [A B]; constructor; auto|intros A; inversion A; auto].
Qed.
Lemma takes_container f n : (1 <= n)%nat -> existsb (container_eqb (if (1 <? n)%nat then LIST else PRIMITIVE)) (func_containers f) = true <-> takes f n.
Proof. intros N. destruct (Nat.ltb_spec 1 n); destruct f; cbn; intuition (try discriminate; try lia). Qed.
Lemma call_checks E d f items ms ts : arguments E d items ms -> Forall2 argument_type ms ts -> let x := arith_eval E d (NFunc f items) in
  (ms = [] -> x = Err InvalidExpression) /\ (ms <> [] -> ~ takes f (length ms) -> x = Err InvalidContainerType) /\
  (ms <> [] -> takes f (length ms) -> ~ Forall (func_supported f) ts -> x = Err InvalidDataType).
Proof.
  intros A T. cbv zeta. rewrite (function_arguments E d f items ms A). unfold evaluate_function.
  destruct ms as [|m ms]; [split; [auto|split; intros; contradiction]|]. split; [discriminate|]. pose proof (takes_container f (length (m :: ms)) ltac:(cbn; lia)) as C.
  change (typed (m :: ms)) with ((m, get_data_type m) :: typed ms). change ((m, get_data_type m) :: typed ms) with (typed (m :: ms)). rewrite typed_length.
  split.
  - intros _ N. destruct (existsb _ _); [exfalso; apply N, C; reflexivity|reflexivity].
  - intros _ K N. apply C in K. rewrite K. cbn [negb]. pose proof (arguments_types f (m :: ms) ts T) as S. destruct (forallb _ _); [exfalso; apply N, S; reflexivity|reflexivity].
Qed.
Lemma supported_numbers f ms ts : list_function f \/ f = F_INT -> Forall2 argument_type ms ts -> Forall (func_supported f) ts ->
  exists qs, Forall2 number ms qs /\ (~ Exists decimal ms -> exists zs, Forall2 whole ms zs).
Proof.
  intros L. induction 1 as [|v t ms ts H _ IH]; intros S.
  - exists []. split; [constructor|]. intros _. exists []. constructor.
  - inversion S as [|? ? St Sr]; subst. destruct (IH Sr) as [qs [N W]].
    assert (T : t = INTEGER \/ t = LONG \/ t = DECIMAL) by (destruct L as [L|L]; [destruct f; cbn in L, St; try exact St; exfalso; intuition discriminate|subst f; exact St]).
    destruct H as [H|[-> ->]]; [|intuition discriminate]. destruct (stands_number v t H T) as [q [Nq Wq]]. exists (q :: qs). split; [constructor; assumption|].
    intros D. destruct W as [zs W]; [intros X; apply D; right; exact X|]. destruct Wq as [z [Wz _]]; [|exists (z :: zs); constructor; assumption].
    intros ->. apply D. left. unfold decimal. apply stands_type, H.
Qed.
Lemma avg_wrapped E d items ms zs : arguments E d items ms -> Forall2 whole ms zs -> (2 <= length ms)%nat ->
  exists z, wraps 64 (whole_total zs) z /\ two_decimals (inject_Z z / inject_Z (Z.of_nat (length ms))) (arith_eval E d (NFunc F_AVG items)).
Proof.
  intros A W L. exists (wrap64 (whole_total zs)). split; [apply wraps64|].
  rewrite (call_list E d F_AVG items ms _ A (whole_numbers _ _ W) L) by (cbn; auto 10). cbn [func_evaluate]. unfold eval_avg.
  rewrite (whole_no_decimal ms zs W), (longs_typed ms _ W). cbn [bind]. rewrite long_sum_wrap. set (s := wrap64 (whole_total zs)).
  assert (M : (dec_value (bd_of_Z s) / dec_value (bd_of_Z (Z.of_nat (length (typed ms)))) * (10 # 1) ^ 2 == inject_Z s / inject_Z (Z.of_nat (length ms)) * inject_Z 100)%Q).
  { unfold bd_of_Z. rewrite !dec_of_Z, typed_length. reflexivity. }
  unfold two_decimals. destruct (bd_divide_exact (bd_of_Z s) _ 2 (length_nonzero ms L)) as [(z & -> & T)|[-> T]]; cbn [bind].
  - rewrite M in T. split.
    + intros _. apply cast_decimal_result. transitivity (inject_Z z / inject_Z 100)%Q; [reflexivity|]. rewrite <- T. field. intros X. unfold Qeq in X. cbn in X. lia.
    + intros X. exfalso. apply (X z), T.
  - split; auto. intros [z X]. exfalso. apply (T z). rewrite M. exact X.
Qed.
(** DAYS_ELAPSED of texts *)
Lemma span_digits ds r : all_digits ds = true -> (forall c r', r = c :: r' -> is_digit c = false) -> span is_digit (ds ++ r) = (ds, r).
Proof.
  intros D N. induction ds as [|c ds IH]; cbn [app].
  - destruct r as [|c r]; [reflexivity|]. cbn. rewrite (N c r eq_refl). reflexivity.
  - unfold all_digits in *. cbn [forallb] in D. apply andb_true_iff in D as [Dc D]. cbn [span]. rewrite Dc, (IH D). reflexivity.
Qed.
Lemma iso_short y m d s : ymd_text y m d s -> parse_ymd true 10 s = if (length s <=? 17)%nat then Some (y, m, d, []) else None.
Proof.
  intros P. assert (Q : parse_ymd false 19 s = Some (y, m, d, [])) by (apply parse_ymd_spec; exists s; rewrite app_nil_r; auto).
  destruct P as (a & b & c & Y & (Lb & _) & (Lc & _) & ->). destruct Y as [Y|(ds & -> & Ld & (_ & D & V))].
  - replace (length _ <=? 17)%nat with true.
    + rewrite <- Q. unfold parse_ymd. f_equal. destruct Y as (L & D & _). destruct a as [|x a]; [discriminate L|]. cbn [app take_year].
      assert (Dx : is_digit x = true) by (cbn in D; apply andb_true_iff in D; tauto). destruct (digit_not x Dx) as [-> ->]. reflexivity.
    + symmetry. apply Nat.leb_le. rewrite !app_length. destruct Y as (L & _). cbn [J length]. cbn. lia.
  - assert (Sp : span is_digit (ds ++ J "-" ++ b ++ J "-" ++ c) = (ds, J "-" ++ b ++ J "-" ++ c)) by (apply span_digits; [exact D|intros ? ? [= <- _]; reflexivity]).
    assert (Len : length ((J "+" ++ ds) ++ J "-" ++ b ++ J "-" ++ c) = (length ds + 7)%nat) by (rewrite !app_length; cbn; lia). rewrite Len.
    unfold parse_ymd in *. change ((J "+" ++ ds) ++ J "-" ++ b ++ J "-" ++ c) with (ch "+" :: ds ++ J "-" ++ b ++ J "-" ++ c) in *. cbn [take_year] in *. change (ch "+" =? ch "+")%N with true in *. cbv iota in *.
    rewrite Sp in *. replace (4 <? length ds)%nat with true in * by (symmetry; apply Nat.ltb_lt; lia). cbn [andb] in *.
    replace (length ds <=? 19)%nat with true in Q by (symmetry; apply Nat.leb_le; lia). destruct (Nat.leb_spec (length ds + 7) 17).
    + replace (length ds <=? 10)%nat with true by (symmetry; apply Nat.leb_le; lia). exact Q.
    + replace (length ds <=? 10)%nat with false by (symmetry; apply Nat.leb_gt; lia). reflexivity.
Qed.
Lemma days_call E d items v : arguments E d items [v] -> get_data_type v = DATE -> arith_eval E d (NFunc F_DAYS_ELAPSED items) = eval_days_elapsed E [(v, DATE)].
Proof.
  intros A T. rewrite (function_arguments E d F_DAYS_ELAPSED items [v] A). unfold evaluate_function. cbn [typed map length Nat.ltb Nat.leb func_containers existsb container_eqb orb negb forallb snd].
  rewrite T. cbn [func_types mem_type existsb dtype_eqb orb andb negb]. unfold validate_items. replace (is_valid DATE v) with (Ok true); [reflexivity|]. destruct v; try discriminate T; [|reflexivity]. cbn in T |- *. destruct (parse_datetime s); [discriminate T|]. destruct (parse_date s); [reflexivity|discriminate T].
Qed.
Lemma elapsed_days E a : calendar a -> calendar (today E) -> elapsed E a (Ok (VLong (to_epoch_day (today E) - to_epoch_day a))).
Proof.
  intros C C'. destruct (elapsed_date E [] (lit (VDate a)) a eq_refl C C') as [k [H [K _]]]. exists k. split; [|exact K].
  rewrite (elapsed_call E [] (lit (VDate a)) (VDate a) eq_refl eq_refl) in H. cbn [eval_days_elapsed] in H. exact H.
Qed.
Lemma days_gives E d items ms ts : arguments E d items ms -> Forall2 argument_type ms ts -> Forall (func_supported F_DAYS_ELAPSED) ts -> gives E F_DAYS_ELAPSED ms (arith_eval E d (NFunc F_DAYS_ELAPSED items)).
Proof.
  intros A T S C. split.
  - intros a ->. inversion T as [|? t ? ? Ht Tr]; subst. inversion S as [|? ? St _]; subst. cbn in St. subst t.
    rewrite (days_call E d items _ A eq_refl). cbn [eval_days_elapsed]. apply elapsed_days; [|exact C]. destruct Ht as [Ht|[Ht _]]; [|discriminate].
    inversion Ht as [| | | | | |v' a' D| | | | | |]; subst. destruct D as [[D K]|[s [D _]]]; [injection D as <-; exact K|discriminate].
  - intros s ->. inversion T as [|? t ? ? Ht Tr]; subst. inversion S as [|? ? St _]; subst. cbn in St. subst t.
    destruct Ht as [Ht|[Ht _]]; [|discriminate]. pose proof (proj1 (stands_type _ _ Ht)) as Hs. rewrite (days_call E d items _ A Hs). cbn [eval_days_elapsed].
    apply written_type in Hs. destruct Hs as [a (y & m & dd & n & P & Y & M & D & Ea)]. exists y, m, dd. split; [exact P|]. unfold parse_iso_date. rewrite (iso_short y m dd s P).
    assert (V : valid_date (Date y m dd) = true <-> calendar (Date y m dd)).
    { destruct (days_month_length _ _ _ M) as [Hm En]. unfold valid_date, max_year. cbn [year month day]. split.
      - intros H. exists n. cbn [year month day]. split; [exact M|]. lia.
      - intros (k & Mk & Dk). cbn [year month day] in *. destruct (days_month_length _ _ _ Mk) as [_ Ek]. lia. }
    destruct (Nat.leb_spec (length s) 17) as [L|L]; cbn [obind].
    + destruct (valid_date (Date y m dd)) eqn:Vd.
      * split; [intros _; apply elapsed_days; [apply V; reflexivity|exact C]|]. intros X. exfalso. apply X. split; [apply V; reflexivity|exact L].
      * split; [intros [X _]; apply V in X; discriminate|reflexivity].
    + split; [intros [_ X]; lia|reflexivity].
Qed.
Lemma call_result E d f items ms ts : arguments E d items ms -> Forall2 argument_type ms ts -> ms <> [] -> takes f (length ms) -> Forall (func_supported f) ts ->
  gives E f ms (arith_eval E d (NFunc f items)).
Proof.
  intros A T N K S. pose proof (fun L => supported_numbers f ms ts L T S) as SN.
  assert (DN : forall P : list Z -> Prop, (forall zs, Forall2 whole ms zs -> P zs) -> list_function f \/ f = F_INT -> ~ Exists decimal ms -> exists zs, Forall2 whole ms zs /\ P zs).
  { intros P H L X. destruct (SN L) as [_ [_ W]]. destruct (W X) as [zs W']. exists zs. split; [exact W'|apply H, W']. }
  assert (QN : forall P : list Q -> Prop, (forall qs, Forall2 number ms qs -> P qs) -> list_function f \/ f = F_INT -> exists qs, Forall2 number ms qs /\ P qs).
  { intros P H L. destruct (SN L) as [qs [W _]]. exists qs. split; [exact W|apply H, W]. }
  destruct f; cbn [gives takes] in *.
  - split; intros X; [apply QN; [|cbn; auto 10]; intros qs W; apply (min_decimal E d items ms qs A W K X)|apply DN; [|cbn; auto 10|exact X]; intros zs W; apply (min_long E d items ms zs A W K)].
  - split; intros X; [apply QN; [|cbn; auto 10]; intros qs W; apply (max_decimal E d items ms qs A W K X)|apply DN; [|cbn; auto 10|exact X]; intros zs W; apply (max_long E d items ms zs A W K)].
  - split; intros X; [apply QN; [|cbn; auto 10]; intros qs W; apply (avg_decimal E d items ms qs A W K X)|apply DN; [|cbn; auto 10|exact X]; intros zs W; apply (avg_wrapped E d items ms zs A W K)].
  - split; intros X; [apply QN; [|cbn; auto 10]; intros qs W; apply (sum_decimal E d items ms qs A W K X)|apply DN; [|cbn; auto 10|exact X]; intros zs W; apply (sum_long E d items ms zs A W K)].
  - rewrite <- (avg_mean E d items).
    split; intros X; [apply QN; [|cbn; auto 10]; intros qs W; apply (avg_decimal E d items ms qs A W K X)|apply DN; [|cbn; auto 10|exact X]; intros zs W; apply (avg_wrapped E d items ms zs A W K)].
  - destruct (SN ltac:(cbn; auto 10)) as [qs [W _]]. exact (mode_result E d items ms qs A W K).
  - apply QN; [|cbn; auto 10]. intros qs W. apply (median_result E d items ms qs A W K).
  - intros v ->. destruct (SN (or_intror eq_refl)) as [qs [W _]]. inversion W as [|? q ? ? Nq W']; subst.
    assert (X : arith_eval E d (NFunc F_INT items) = arith_eval E d (NFunc F_INT [lit v])).
    { rewrite (function_arguments E d F_INT items [v] A). symmetry. apply function_arguments. exists [v]. split; [repeat constructor|]. destruct v; try reflexivity. inversion Nq. }
    rewrite X. destruct (int_result E d (lit v) v q eq_refl Nq) as (z & y & Tz & -> & Wz & _). exists q, z, y. auto.
  - split.
    + intros s ->. apply (len_text E d items s A).
    + intros X. rewrite (len_call E d items ms A N (arguments_finite ms ts T)). destruct ms as [|v [|v' ms]]; [contradiction| |]; cbn [typed map eval_len length].
      * destruct v; try reflexivity. exfalso. exact (X s eq_refl).
      * rewrite map_length. destruct v; reflexivity.
  - exact (days_gives E d items ms ts A T S).
Qed.
Lemma any_call E d f items ms ts : arguments E d items ms -> Forall2 argument_type ms ts -> call_outcome E f ms ts (arith_eval E d (NFunc f items)).
Proof. intros A T. destruct (call_checks E d f items ms ts A T) as [H1 [H2 H3]]. split; [exact H1|]. split; [exact H2|]. split; [exact H3|]. apply call_result; assumption. Qed.
Lemma any_call_text E d f fn ws ns ms ts t : In (f, fn) function_names -> listed ws ns -> arguments E d ns ms -> Forall2 argument_type ms ts ->
  laid_out (f :: bracketed (commas ws)) t -> call_outcome E fn ms ts (evaluate_arith E t d).
Proof. intros F L A T O. rewrite (proj2 (layout_condition E d None Function _ _ t (w_call Nothing f fn ws ns F L) O)). exact (any_call E d fn ns ms ts A T). Qed.
(** A float that is no number. *)
Lemma validate_not_finite dbl t ms : In (VFloat dbl t) ms -> not_finite t -> validate_items (typed ms) = Err InvalidDataType.
Proof.
  intros H N. destruct (not_finite_parse t N) as [P _]. assert (F : is_valid (get_data_type (VFloat dbl t)) (VFloat dbl t) = Ok false) by (cbn; rewrite P; reflexivity).
  induction ms as [|v ms IH]; [destruct H|]. cbn [typed map validate_items]. destruct H as [-> |H]; [rewrite F; reflexivity|].
  destruct (own_valid_res v) as [x ->]. cbn [bind]. destruct x; [exact (IH H)|reflexivity].
Qed.
Lemma not_finite_call E d f items ms dbl t : arguments E d items ms -> In (VFloat dbl t) ms -> not_finite t -> takes f (length ms) -> arith_eval E d (NFunc f items) = Err InvalidDataType.
Proof.
  intros A H N K. rewrite (function_arguments E d f items ms A). unfold evaluate_function. destruct ms as [|m ms]; [destruct H|].
  change (typed (m :: ms)) with ((m, get_data_type m) :: typed ms). change ((m, get_data_type m) :: typed ms) with (typed (m :: ms)). rewrite typed_length.
  apply (takes_container f (length (m :: ms)) ltac:(cbn; lia)) in K. rewrite K. cbn [negb]. destruct (forallb _ _); [|reflexivity]. cbn [negb]. rewrite (validate_not_finite dbl t (m :: ms) H N). reflexivity.
Qed.
(** An argument that fails. *)
Lemma failing_argument E d f before i after ms e : arguments E d before ms -> arith_eval E d i = Err e -> arith_eval E d (NFunc f (before ++ i :: after)) = Err e.
Proof.
  intros (vs & H & _) X. rewrite arith_func. assert (M : arith_items E d (before ++ i :: after) = Err e); [|rewrite M; reflexivity].
  unfold arith_items. induction H as [|j v js vs' Hj _ IH]; cbn; [rewrite X; reflexivity|]. rewrite Hj. cbn. rewrite IH. reflexivity.
Qed.
