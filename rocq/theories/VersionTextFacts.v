(** Versions held as text compared with version literals. *)
From Coq Require Import QArith.
From Verif Require Import Base JNum BigDec Dates Version Values Ops Ast Eval SpecNum SpecCompare JNumFacts NumFacts CompareFacts VersionFacts OrderFacts.
Local Open Scope Z_scope.

(** A text without '-' is neither a date nor a date-time. *)
Lemma no_dash_no_ymd : forall b n s, ~ In (ch "-") s -> parse_ymd b n s = None.
Proof.
  intros b n s H. unfold parse_ymd. destruct (take_year b n s) as [[y r]|] eqn:T; auto. cbn [obind].
  assert (R : exists p, s = p ++ r).
  { unfold take_year in T. destruct s as [|c s]; [discriminate|]. destruct (c =? ch "+")%N.
    - destruct (span is_digit s) as [ds rest] eqn:S. destruct (_ && _); [|discriminate]. injection T as <- <-.
      apply span_spec in S as (-> & _). exists (c :: ds). reflexivity.
    - destruct (c =? ch "-")%N.
      + destruct b; [|discriminate]. destruct (span is_digit s) as [ds rest] eqn:S. destruct (_ && _); [|discriminate]. injection T as <- <-.
        apply span_spec in S as (-> & _). exists (c :: ds). reflexivity.
      + destruct (span is_digit (c :: s)) as [ds rest] eqn:S. destruct (_ =? _)%nat; [|discriminate]. injection T as <- <-.
        apply span_spec in S as (-> & _). exists ds. reflexivity. }
  destruct R as (p & ->). destruct r as [|c r]; auto. unfold expect. destruct (c =? ch "-")%N eqn:E; auto.
  exfalso. apply H. apply N.eqb_eq in E. subst. apply in_or_app. right. left. reflexivity.
Qed.
Lemma digits_no_dash : forall s, all_digits s = true -> ~ In (ch "-") s.
Proof. intros s H I. unfold all_digits in H. rewrite forallb_forall in H. specialize (H _ I). discriminate H. Qed.
Lemma dotted_no_dash : forall cs, ~ In (ch "-") (dotted cs).
Proof.
  induction cs as [|c [|c' cs] IH]; auto.
  - apply digits_no_dash, print_N_digits.
  - change (dotted (c :: c' :: cs)) with (print_N c ++ ch "." :: dotted (c' :: cs)). intros I. apply in_app_or in I as [I|[I|I]].
    + eapply digits_no_dash; eauto using print_N_digits.
    + discriminate I.
    + auto.
Qed.
Lemma no_dash_string : forall s, ~ In (ch "-") s -> get_data_type (VStr s) = STRING.
Proof. intros s H. cbn. unfold parse_datetime, parse_date. rewrite no_dash_no_ymd by auto. reflexivity. Qed.

Lemma logical_ordering : forall op v tv w tw t x y c b,
  accepts op c = Some b -> op <> EQUALS -> op <> NOT_EQUAL -> tv <> BOOLEAN -> tw <> BOOLEAN ->
  is_valid tv v = Ok true -> ordering_validate v tv w tw = Ok tt -> ordering_type tv tw = t ->
  primitive_value t v = Ok x -> primitive_value t w = Ok y -> compare_to x y = Ok c ->
  evaluate_logical op PRIMITIVE v tv [(w, tw)] = Ok b.
Proof.
  intros op v tv w tw t x y c b Ha N1 N2 Tv Tw Vv Va To Pv Pw Hc. unfold evaluate_logical.
  assert (L : is_logical op = true /\ container_eqb (logical_container op) PRIMITIVE = true /\ mem_type tv (logical_types op) = true /\ mem_type tw (logical_types op) = true).
  { destruct op; try discriminate Ha; try congruence; destruct tv, tw; repeat split; congruence. }
  destruct L as (-> & -> & L & L'). rewrite L. cbn [negb container_is_valid forallb snd]. rewrite Vv, L'. cbn [bind negb andb].
  assert (C : compare_as t v w = Ok c) by (unfold compare_as; rewrite Pv, Pw; exact Hc).
  destruct op; try discriminate Ha; try congruence; cbn [logical_evaluate first_operand bind]; unfold eval_ordering;
    cbn [fst snd]; rewrite Va; cbn [bind]; rewrite To, C; cbn [bind]; destruct c; cbn in *; congruence.
Qed.

Lemma versions_order : forall E d l r v a b op res, yields E d l v -> version_like v a -> yields E d r (VVer (dotted b)) -> b <> [] ->
  accepts op (components_compare a b) = Some res -> op <> EQUALS -> op <> NOT_EQUAL ->
  bool_eval E d (cond l op r) = Ok res /\
  (forall res', accepts op (components_compare b a) = Some res' -> bool_eval E d (cond r op l) = Ok res').
Proof.
  intros E d l r v a b op res Yl [Ha Hv] Yr Hb Hacc N1 N2.
  assert (Tv : get_data_type v = STRING \/ get_data_type v = VERSION).
  { destruct Hv as [-> | ->]; auto. left. apply no_dash_string, dotted_no_dash. }
  assert (Pv : primitive_value VERSION v = Ok (VVer (dotted a))) by (destruct Hv as [-> | ->]; reflexivity).
  assert (Vv : is_valid (get_data_type v) v = Ok true).
  { destruct Tv as [-> | ->]; auto. destruct Hv as [-> | ->]; auto. }
  assert (Vv' : is_valid VERSION v = Ok true) by (destruct Hv as [-> | ->]; auto).
  split; [|intros res' Hacc'].
  - rewrite (cond_yields _ _ _ _ _ _ _ Yl Yr).
    eapply logical_ordering with (t := VERSION) (y := VVer (dotted b)); eauto; try (destruct Tv as [-> | ->]; discriminate); try discriminate.
    + unfold ordering_validate. destruct Tv as [-> | ->]; cbn [get_data_type numeric negb andb]; [rewrite Vv'|]; reflexivity.
    + destruct Tv as [-> | ->]; reflexivity.
    + cbn [compare_to]. rewrite version_compare_dotted by auto. reflexivity.
  - rewrite (cond_yields _ _ _ _ _ _ _ Yr Yl).
    eapply logical_ordering with (t := VERSION) (x := VVer (dotted b)); eauto; try (destruct Tv as [-> | ->]; discriminate); try discriminate.
    + unfold ordering_validate. destruct Tv as [-> | ->]; cbn [get_data_type numeric negb andb]; [rewrite Vv'|]; reflexivity.
    + destruct Tv as [-> | ->]; reflexivity.
    + cbn [compare_to]. rewrite version_compare_dotted by auto. reflexivity.
Qed.

Lemma versions_equal : forall E d l r a b, yields E d l (VVer (dotted a)) -> yields E d r (VVer (dotted b)) -> a <> [] -> b <> [] ->
  bool_eval E d (cond l EQUALS r) = Ok (match components_compare a b with Eq => true | _ => false end).
Proof.
  intros E d l r a b Yl Yr Ha Hb. rewrite (cond_yields _ _ _ _ _ _ _ Yl Yr). cbn -[version_compare dotted]. unfold eval_equals, compare_as. cbn -[version_compare dotted].
  rewrite version_compare_dotted by auto. reflexivity.
Qed.
