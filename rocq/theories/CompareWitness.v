(** Concrete counterexamples for comparisons, and text against numbers. *)
From Coq Require Import QArith.
From Verif Require Import Base JNum BigDec Dates Version Values Ops Funcs Ast Eval SpecNum SpecCompare JNumFacts BigDecFacts NumFacts CompareFacts VersionFacts OrderFacts VersionTextFacts.
Local Open Scope Z_scope.

Definition witness_env : env := Env (Date 2024 1 1) (fun _ _ => DNaN) (fun _ _ => DNaN).

Lemma texts_not_transitive : exists E d a b c,
  let holds l op r := bool_eval E d (cond (lit (VStr l)) op (lit (VStr r))) = Ok true in
  holds a LESS_THAN_EQUAL b /\ holds b LESS_THAN_EQUAL c /\ ~ holds a LESS_THAN_EQUAL c.
Proof. exists witness_env, [], (J "+12023-01-01"), (J "20"), (J "2023-01-01"). vm_compute. repeat split; discriminate. Qed.

Lemma trichotomy_fails : exists E d l r,
  bool_eval E d (cond l GREATER_THAN_EQUAL r) = Ok true /\ bool_eval E d (cond l LESS_THAN_EQUAL r) = Ok true /\
  bool_eval E d (cond l EQUALS r) = Ok false.
Proof. exists witness_env, [(J "a", VStr (J "5.0"))], (NField (Some (J "a"))), (lit (VInt 5)). vm_compute. auto. Qed.

(** A text that reads as a number is no date. *)
Lemma take2_digits : forall s x r, take2 s = Some (x, r) -> exists a b, s = a :: b :: r /\ is_digit a = true /\ is_digit b = true.
Proof.
  intros [|a [|b s]] x r H; try discriminate. cbn in H. destruct (is_digit a) eqn:A, (is_digit b) eqn:B; try discriminate.
  injection H as <- <-. eauto.
Qed.
Lemma expect_cons : forall c s r, expect c s = Some r -> s = c :: r.
Proof. intros c [|x s] r H; [discriminate|]. cbn in H. destruct (x =? c)%N eqn:E; [|discriminate]. apply N.eqb_eq in E. congruence. Qed.
Lemma ymd_shape : forall n s y m d r, parse_ymd false n s = Some (y, m, d, r) ->
  exists sg ds t, s = sg ++ ds ++ ch "-" :: t /\ all_digits ds = true /\ (sg = [] \/ sg = [ch "+"]) /\ ds <> [].
Proof.
  intros n s y m d r H. unfold parse_ymd in H. destruct (take_year false n s) as [[y' r1]|] eqn:T; [|discriminate]. cbn [obind] in H.
  destruct (expect (ch "-") r1) as [r2|] eqn:X; [|discriminate]. apply expect_cons in X. subst.
  unfold take_year in T. destruct s as [|c s]; [discriminate|]. destruct (c =? ch "+")%N eqn:P.
  - apply N.eqb_eq in P. subst. destruct (span is_digit s) as [ds rest] eqn:S. destruct (_ && _) eqn:L; [|discriminate]. injection T as Ty Tr; subst rest.
    apply span_spec in S as (-> & Hd & _). exists [ch "+"], ds, r2. repeat split; auto. destruct ds; [discriminate L|discriminate].
  - destruct (c =? ch "-")%N; [discriminate|]. destruct (span is_digit (c :: s)) as [ds rest] eqn:S.
    destruct (length ds =? 4)%nat eqn:L; [|discriminate]. injection T as Ty Tr; subst rest.
    apply span_spec in S as (E & Hd & _). rewrite E. exists [], ds, r2. repeat split; auto. destruct ds; [discriminate L|discriminate].
Qed.
Lemma dash_not_number : forall ds t, all_digits ds = true -> ds <> [] -> parse_unsigned_bigdec (ds ++ ch "-" :: t) = None.
Proof.
  intros ds t H Hn. unfold parse_unsigned_bigdec. rewrite span_stop by auto.
  change ((ch "-" =? ch ".")%N) with false. cbn iota. rewrite app_nil_r. destruct ds; [congruence|]. reflexivity.
Qed.
Lemma ymd_not_number : forall n s x, parse_ymd false n s = Some x -> parse_bigdec s = None.
Proof.
  intros n s [[[y m] d] r] H. apply ymd_shape in H as (sg & ds & t & -> & Hd & Hs & Hn).
  destruct Hs as [-> | ->]; cbn [app].
  - destruct (digits_head ds Hn Hd) as (c & r' & -> & Hc). cbn [app]. erewrite parse_bigdec_unsigned by eauto. apply (dash_not_number (c :: r')); auto.
  - cbn [parse_bigdec]. change ((ch "+" =? ch "-")%N) with false. change ((ch "+" =? ch "+")%N) with true. cbn iota. apply dash_not_number; auto.
Qed.
Lemma number_text_type : forall s b, parse_bigdec s = Some b -> get_data_type (VStr s) = STRING.
Proof.
  intros s b H. cbn. unfold parse_datetime, parse_date. destruct (parse_ymd false 19 s) eqn:P; auto.
  apply ymd_not_number in P. congruence.
Qed.

Lemma text_against_integer : forall E d l r s z, yields E d l (VStr s) -> yields E d r (VInt z) ->
  (-2147483648 <= z <= 2147483647)%Z -> reads_as (VStr s) (inject_Z z) ->
  bool_eval E d (cond l GREATER_THAN_EQUAL r) = Ok true /\ bool_eval E d (cond l LESS_THAN_EQUAL r) = Ok true /\
  (bool_eval E d (cond l EQUALS r) = Ok true <-> s = print_Z z).
Proof.
  intros E d l r s z Yl Yr Hz (b & Hp & Hb). cbn [show] in Hp.
  assert (T : get_data_type (VStr s) = STRING) by (eapply number_text_type; eauto).
  assert (Iv : integer_value (VStr s) = Some z).
  { cbn. rewrite Hp. apply parse_int_plain_strip. split; [symmetry; auto|]. apply in_int_iff. auto. }
  assert (P : primitive_value INTEGER (VStr s) = Ok (VInt z)) by (unfold primitive_value, get_value; rewrite Iv; reflexivity).
  assert (V : is_valid INTEGER (VStr s) = Ok true) by (unfold is_valid, get_value; rewrite Iv; reflexivity).
  rewrite !(cond_yields _ _ _ _ _ _ _ Yl Yr), T. cbn [get_data_type].
  assert (O : forall op, accepts op Eq = Some true -> op <> EQUALS -> op <> NOT_EQUAL -> evaluate_logical op PRIMITIVE (VStr s) STRING [(VInt z, INTEGER)] = Ok true).
  { intros op Ha N1 N2. eapply logical_ordering with (t := INTEGER) (x := VInt z) (y := VInt z) (c := Eq); eauto; try discriminate; try reflexivity.
    - unfold ordering_validate. cbn [numeric negb andb]. rewrite V. reflexivity.
    - cbn. rewrite Z.compare_refl. reflexivity. }
  split; [|split].
  - apply O; auto; discriminate.
  - apply O; auto; discriminate.
  - unfold evaluate_logical. cbn -[jstr_compare print_Z]. unfold eval_equals, compare_as. cbn -[jstr_compare print_Z].
    split; intros H.
    + destruct (jstr_compare s (print_Z z)) eqn:C; try discriminate. apply jstr_compare_eq in C. auto.
    + subst. rewrite jstr_compare_refl. reflexivity.
Qed.
