(** The generated parser and the parser model agree on the sentences of the grammar: the alternatives of [expression], the lists, and
    the induction. *)
From Coq Require Import FMapPositive.
From Verif Require Import Base Lexer Grammar LexerAtn ParserTable ParserAtn NetFacts NetRun ParseFuel.
Local Open Scope Z_scope.
Opaque next_tokens.

Lemma at_primary st ts : A 2 st (codes ts) -> exists i q, nth_error (moves 53) i = Some (TEpsilon q) /\ A q st (codes ts).
Proof.
  intros H. at_state H. at_state H;
  [exists 0%nat | exists 1%nat | exists 2%nat | exists 3%nat | exists 4%nat | exists 5%nat | exists 6%nat | exists 7%nat]; eexists; (split; [reflexivity | exact H]).
Qed.
Lemma alternative_first p m st t ts i q : nth_error (moves 53) i = Some (TEpsilon q) -> accepts p m q st (codes (t :: ts)) ->
  match i with
  | 0%nat => q = 25%N /\ kind t = T_LPAREN
  | 1%nat => q = 30%N /\ kind t = T_NOT
  | 2%nat => q = 32%N /\ kind t = T_SUBTRACT
  | 3%nat => q = 34%N /\ is_function (kind t) = true
  | 4%nat => q = 37%N
  | 5%nat => q = 38%N /\ kind t = T_FIELD
  | 6%nat => q = 43%N /\ kind t = T_FIELD
  | 7%nat => q = 49%N /\ kind t = T_FIELD
  | _ => False
  end.
Proof.
  intros N H. vm_compute in N.
  do 4 (destruct i as [| i]; [injection N as <-; (split; [reflexivity |]); cbn [codes map] in H; apply starts_with in H; [| vm_compute; reflexivity];
    destruct (kind t); first [reflexivity | vm_compute in H; discriminate H] |]).
  destruct i as [| i]; [injection N as <-; reflexivity |].
  do 3 (destruct i as [| i]; [injection N as <-; (split; [reflexivity |]); cbn [codes map] in H; apply starts_with in H; [| vm_compute; reflexivity];
    destruct (kind t); first [reflexivity | vm_compute in H; discriminate H] |]).
  destruct i; discriminate.
Qed.
Lemma predict_primary p st t ts i q : nth_error (moves 53) i = Some (TEpsilon q) -> accepts p (Some 0) q st (codes (t :: ts)) ->
  (forall j q', (j < i)%nat -> nth_error (moves 53) j = Some (TEpsilon q') -> ~ accepts p (Some 0) q' st (codes (t :: ts))) ->
  predicts p 1 st (t :: ts) (S i).
Proof.
  intros N H O. split.
  - exists q. rewrite Nat.sub_succ, Nat.sub_0_r. repeat split; auto. lia.
  - intros j J (x & X & Z & V). destruct j as [| j]; [lia |]. rewrite Nat.sub_succ, Nat.sub_0_r in X. apply (O j x); auto. lia.
Qed.
(** The lower alternatives are excluded by the first token. *)
Ltac lower t :=
  let j := fresh "j" in let q' := fresh "q'" in let L := fresh "Lt" in let N := fresh "Nt" in let V := fresh "V" in let F := fresh "Fst" in
  intros j q' L N V; pose proof (alternative_first _ _ _ _ _ _ _ N V) as F;
  destruct j as [| [| [| [| [| [| [| [| j]]]]]]]]; try lia; try contradiction; try (match type of F with _ /\ _ => destruct F as [-> F] end; first [congruence | match goal with K : kind t = _ |- _ => rewrite K in F; discriminate F end | rewrite F in *; discriminate]).

Lemma choose_parent p st t ts : estack st -> kind t = T_LPAREN -> A 2 st (codes (t :: ts)) ->
  predicts p 1 st (t :: ts) 1 /\ A 2 (28%N :: st) (codes ts).
Proof.
  intros E K H. apply at_primary in H. destruct H as (i & q & N & H). pose proof (alternative_first _ _ _ _ _ _ _ N H) as F.
  destruct i as [| [| [| [| [| [| [| [| i]]]]]]]]; try (match type of F with _ /\ _ => destruct F as [-> F] end; try congruence; try (rewrite K in F; discriminate F)); try contradiction.
  - at_state H. pose proof H as H0. at_state H. cbn [codes map] in H. destruct H as [_ H]. at_state H. split; [| exact H].
    apply (predict_primary p st t ts 0 25).
    + reflexivity.
    + go 0. now apply unfree.
    + intros j q' L. lia.
  - subst q. apply operand_not in H; [| exact E]. rewrite K in H. vm_compute in H.
    repeat match goal with D : _ \/ _ |- _ => destruct D as [D | D] end; try contradiction; discriminate.
Qed.
Lemma choose_not p st t ts : estack st -> kind t = T_NOT -> A 2 st (codes (t :: ts)) ->
  predicts p 1 st (t :: ts) 2 /\ A 2 (54%N :: st) (codes ts).
Proof.
  intros E K H. apply at_primary in H. destruct H as (i & q & N & H). pose proof (alternative_first _ _ _ _ _ _ _ N H) as F.
  destruct i as [| [| [| [| [| [| [| [| i]]]]]]]]; try (match type of F with _ /\ _ => destruct F as [-> F] end; try congruence; try (rewrite K in F; discriminate F)); try contradiction.
  - pose proof H as H0. at_state H. cbn [codes map] in H. destruct H as [I H]. pose proof H as H1. at_state H. split; [| exact H].
    apply (predict_primary p st t ts 1 30).
    + reflexivity.
    + go 0. cbn [codes map]. split; [exact I |]. now apply unfree.
    + lower t.
  - subst q. apply operand_not in H; [| exact E]. rewrite K in H. vm_compute in H.
    repeat match goal with D : _ \/ _ |- _ => destruct D as [D | D] end; try contradiction; discriminate.
Qed.
Lemma choose_negation p st t ts : estack st -> kind t = T_SUBTRACT -> A 2 st (codes (t :: ts)) ->
  predicts p 1 st (t :: ts) 3 /\ A 2 (54%N :: st) (codes ts).
Proof.
  intros E K H. apply at_primary in H. destruct H as (i & q & N & H). pose proof (alternative_first _ _ _ _ _ _ _ N H) as F.
  assert (G : A 2 (54%N :: st) (codes ts)).
  { destruct i as [| [| [| [| [| [| [| [| i]]]]]]]]; try (match type of F with _ /\ _ => destruct F as [-> F] end; try congruence; try (rewrite K in F; discriminate F)); try contradiction.
    - at_state H. cbn [codes map] in H. destruct H as [I H]. at_state H. exact H.
    - subst q. apply at_operand in H. destruct H as [(t' & ts' & [= <- <-] & T & _) | H]; [rewrite K in T; discriminate T |].
      destruct (innermost st t ts 7%nat E H) as (i & b & B & O & R); [now rewrite K |].
      destruct (branch_facts _ _ _ B O) as (_ & _ & T & _).
      apply (replace_frame _ _ _ _ _ R [] _ _ st st eq_refl). intros ks' X. apply loop_tail; [left; reflexivity |]. eapply tail_loop; eauto. }
  split; [| exact G]. apply (predict_primary p st t ts 2 32).
  - reflexivity.
  - go 0. cbn [codes map]. rewrite K. split; [reflexivity |]. go 0. now apply unfree.
  - lower t.
Qed.
Lemma choose_function p st t ts : estack st -> is_function (kind t) = true -> A 2 st (codes (t :: ts)) ->
  predicts p 1 st (t :: ts) 4 /\ A 10 (36%N :: st) (codes ts).
Proof.
  intros E K H. apply at_primary in H. destruct H as (i & q & N & H). pose proof (alternative_first _ _ _ _ _ _ _ N H) as F.
  destruct i as [| [| [| [| [| [| [| [| i]]]]]]]]; try (match type of F with _ /\ _ => destruct F as [-> F] end; try (rewrite F in K; discriminate K)); try contradiction.
  - at_state H. at_state H. at_state H. cbn [codes map] in H. destruct H as [I H]. at_state H. at_end H. pose proof H as H1. at_state H. split; [| exact H].
    apply (predict_primary p st t ts 3 34).
    + reflexivity.
    + go 0. go 0. go 0. cbn [codes map]. split; [exact I |]. go 0. apply acc_return; [reflexivity |]. now apply unfree.
    + lower t.
  - subst q. apply operand_not in H; [| exact E].
    destruct (kind t); try discriminate K; vm_compute in H; repeat match goal with D : _ \/ _ |- _ => destruct D as [D | D] end; try contradiction; discriminate.
Qed.
(** A literal, or nothing. *)
Lemma choose_operand p st t ts : estack st -> fits p st -> is_function (kind t) = false -> ~ In (kind t) [T_LPAREN; T_NOT; T_SUBTRACT; T_FIELD] ->
  A 2 st (codes (t :: ts)) -> predicts p 1 st (t :: ts) 5 /\ A 83 st (codes (if is_type (kind t) then ts else t :: ts)).
Proof.
  intros E P K O H. apply at_primary in H. destruct H as (i & q & N & H). pose proof (alternative_first _ _ _ _ _ _ _ N H) as F.
  destruct i as [| [| [| [| [| [| [| [| i]]]]]]]]; try (match type of F with _ /\ _ => destruct F as [-> F] end; try congruence; exfalso; apply O; rewrite F; cbn; tauto); try contradiction.
  subst q. apply at_operand in H. split.
  - apply (predict_primary p st t ts 4 37); [reflexivity | now apply take_operand |].
    intros j q' L N' V. pose proof (alternative_first _ _ _ _ _ _ _ N' V) as F.
    do 4 (destruct j as [| j]; [destruct F as [-> F]; try congruence; apply O; rewrite F; cbn; tauto |]). lia.
  - destruct H as [(t' & ts' & [= <- <-] & T & H) | H].
    + rewrite T. exact H.
    + destruct (is_type (kind t)) eqn:T; [| exact H]. exfalso. cbn [codes map] in H. apply after_ok in H; [| vm_compute; reflexivity | exact E].
      destruct (kind t); try discriminate T; vm_compute in H; repeat match goal with D : _ \/ _ |- _ => destruct D as [D | D] end; try contradiction; discriminate.
Qed.

(** The conditions that start with a field. *)
Lemma at_range p m st t u ts : accepts p m 38 st (codes (t :: u :: ts)) ->
  is_numeric_type (kind u) = true /\
  exists to hi rest, ts = to :: hi :: rest /\ kind to = T_TO /\ is_numeric_type (kind hi) = true /\ A 83 st (codes rest).
Proof.
  intros H. apply free in H. at_state H. cbn [codes map] in H. destruct H as [_ H]. at_state H. at_state H. at_state H. destruct H as [L H].
  at_state H. at_end H. at_state H. destruct ts as [| to ts]; [contradiction |]. cbn [codes map] in H. destruct H as [T H].
  at_state H. at_state H. at_state H. destruct ts as [| hi ts]; [contradiction |]. cbn [codes map] in H. destruct H as [L' H].
  at_state H. at_end H. at_state H. at_state H. split.
  - destruct (kind u); try discriminate L; reflexivity.
  - exists to, hi, ts. repeat split; [| | exact H].
    + destruct (kind to); try discriminate T; reflexivity.
    + destruct (kind hi); try discriminate L'; reflexivity.
Qed.
Lemma at_in p m st t u ts : accepts p m 43 st (codes (t :: u :: ts)) ->
  (kind u = T_IN /\ A 10 (54%N :: st) (codes ts)) \/
  (kind u = T_NOT /\ exists it rest, ts = it :: rest /\ kind it = T_IN /\ A 10 (54%N :: st) (codes rest)).
Proof.
  intros H. apply free in H. at_state H. cbn [codes map] in H. destruct H as [_ H]. at_state H.
  - right. at_state H. destruct H as [K H]. at_state H. at_state H. destruct ts as [| it ts]; [contradiction |]. cbn [codes map] in H.
    destruct H as [K' H]. at_state H. split; [destruct (kind u); try discriminate K; reflexivity |]. exists it, ts. repeat split; [| exact H].
    destruct (kind it); try discriminate K'; reflexivity.
  - left. at_state H. at_state H. destruct H as [K H]. at_state H. split; [destruct (kind u); try discriminate K; reflexivity | exact H].
Qed.
Lemma at_array p m st t u ts : accepts p m 49 st (codes (t :: u :: ts)) ->
  (kind u = T_CONTAINS_ALL \/ kind u = T_CONTAINS_ANY) /\ A 10 (52%N :: st) (codes ts).
Proof.
  intros H. apply free in H. at_state H. cbn [codes map] in H. destruct H as [_ H]. at_state H. at_state H. at_state H. destruct H as [K H].
  at_state H. at_end H. at_state H. split; [destruct (kind u); try discriminate K; tauto | exact H].
Qed.
Lemma token_first p p' m q st k ks : (match moves q with [TTokens _ _] => True | _ => False end) -> accepts p' m q st (k :: ks) -> accepts p (Some 0) q st (k :: ks).
Proof.
  intros M H. apply acc_free with (p' := p) in H. apply acc_inv in H. apply acc_mk. destruct (moves q) as [| x [| y l]] eqn:Q; try contradiction; destruct x; try contradiction.
  destruct H as [[H _] | H].
  - exfalso. assert (C : forallb (fun kl => match moves (key_state (fst kl)) with [] => true | _ => false end) (PositiveMap.elements (ends_map net)) = true) by (vm_compute; reflexivity).
    unfold ends, ended_rule in H. destruct (PositiveMap.find (key q) (ends_map net)) eqn:E; [| discriminate H].
    apply PositiveMap.elements_correct in E. rewrite forallb_forall in C. apply C in E. cbn [fst] in E. rewrite key_state_key, Q in E. discriminate.
  - rewrite Exists_cons in H. destruct H as [H | H]; [apply Exists_cons_hd; exact H | inversion H].
Qed.

Definition special (k : tkind) : bool :=
  match k with T_INTEGER | T_DECIMAL | T_NOT | T_IN | T_CONTAINS_ALL | T_CONTAINS_ANY => true | _ => false end.
Lemma special_not_after k : special k = true -> ~ In (code k) after_operand.
Proof. destruct k; try discriminate; intros _ H; vm_compute in H; repeat match goal with D : _ \/ _ |- _ => destruct D as [D | D] end; try contradiction; discriminate. Qed.
Inductive field_choice (p : nat) (st : list N) (t u : token) (ts : list token) : Prop :=
| choice_plain : special (kind u) = false -> predicts p 1 st (t :: u :: ts) 5 -> A 83 st (codes (u :: ts)) -> field_choice p st t u ts
| choice_range to hi rest : is_numeric_type (kind u) = true -> predicts p 1 st (t :: u :: ts) 6 -> ts = to :: hi :: rest -> kind to = T_TO ->
    is_numeric_type (kind hi) = true -> A 83 st (codes rest) -> field_choice p st t u ts
| choice_in : kind u = T_IN -> predicts p 1 st (t :: u :: ts) 7 -> A 10 (54%N :: st) (codes ts) -> field_choice p st t u ts
| choice_not_in it rest : kind u = T_NOT -> predicts p 1 st (t :: u :: ts) 7 -> ts = it :: rest -> kind it = T_IN -> A 10 (54%N :: st) (codes rest) -> field_choice p st t u ts
| choice_array : kind u = T_CONTAINS_ALL \/ kind u = T_CONTAINS_ANY -> predicts p 1 st (t :: u :: ts) 8 -> A 10 (52%N :: st) (codes ts) -> field_choice p st t u ts.
Lemma choose_field p st t u ts : estack st -> fits p st -> kind t = T_FIELD -> A 2 st (codes (t :: u :: ts)) -> field_choice p st t u ts.
Proof.
  intros E P K H. apply at_primary in H. destruct H as (i & q & N & H). pose proof (alternative_first _ _ _ _ _ _ _ N H) as F.
  destruct i as [| [| [| [| [| [| [| [| i]]]]]]]]; try (match type of F with _ /\ _ => destruct F as [-> F] end; try congruence; try (rewrite K in F; discriminate F)); try contradiction.
  - subst q. assert (S : special (kind u) = false).
    { destruct (special (kind u)) eqn:S; [| reflexivity]. exfalso. apply (special_not_after _ S). eapply field_then; eauto. }
    apply choice_plain; [exact S | |].
    + apply (predict_primary p st t (u :: ts) 4 37); [reflexivity | apply take_operand; [exact P | now apply at_operand in H] | lower t].
    + apply at_operand in H. destruct H as [(t' & ts' & [= <- <-] & T & H) | H]; [exact H |].
      exfalso. cbn [codes map] in H. rewrite K in H. apply after_ok in H; [| vm_compute; reflexivity | exact E].
      vm_compute in H. repeat match goal with D : _ \/ _ |- _ => destruct D as [D | D] end; try contradiction; discriminate.
  - pose proof (at_range _ _ _ _ _ _ H) as (L & to & hi & rest & -> & T & L' & R). apply choice_range with to hi rest; auto.
    apply (predict_primary p st t (u :: to :: hi :: rest) 5 38); [reflexivity | now apply token_first with 0%nat None |].
    lower t. subst q'. apply (special_not_after (kind u)); [destruct (kind u); try discriminate L; reflexivity |]. eapply field_then; eauto.
  - pose proof (at_in _ _ _ _ _ _ H) as R.
    assert (S : special (kind u) = true) by (destruct R as [[-> _] | [-> _]]; reflexivity).
    assert (M : predicts p 1 st (t :: u :: ts) 7).
    { apply (predict_primary p st t (u :: ts) 6 43); [reflexivity | now apply token_first with 0%nat None |]. lower t.
      - subst q'. apply (special_not_after _ S). eapply field_then; eauto.
      - destruct Fst as [-> _]. apply at_range in V. destruct V as [V _]. destruct R as [[R _] | [R _]]; rewrite R in V; discriminate V. }
    destruct R as [[R1 R2] | (R1 & it & rest & -> & R2 & R3)]; [apply choice_in | apply choice_not_in with it rest]; auto.
  - pose proof (at_array _ _ _ _ _ _ H) as (R & W). apply choice_array; auto.
    assert (S : special (kind u) = true) by (destruct R as [-> | ->]; reflexivity).
    apply (predict_primary p st t (u :: ts) 7 49); [reflexivity | now apply token_first with 0%nat None |]. lower t.
    + subst q'. apply (special_not_after _ S). eapply field_then; eauto.
    + destruct Fst as [-> _]. apply at_range in V. destruct V as [V _]. destruct R as [R | R]; rewrite R in V; discriminate V.
    + destruct Fst as [-> _]. apply at_in in V. destruct V as [[V _] | [V _]]; destruct R as [R | R]; congruence.
Qed.
