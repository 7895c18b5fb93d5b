(** The generated parser and the parser model agree on the sentences of the grammar. *)
From Coq Require Import FMapPositive.
From Verif Require Import Base Lexer Grammar LexerAtn ParserTable ParserAtn NetFacts.
Local Open Scope Z_scope.

Notation A := (accepts 0 None).
Opaque next_tokens.

Lemma code_token k : code k <> epsilon.
Proof. destruct k; discriminate. Qed.
Lemma free p m q st ks : accepts p m q st ks -> A q st ks.
Proof. apply acc_free. Qed.
Lemma unfree p q st ks : A q st ks -> accepts p None q st ks.
Proof. apply acc_free. Qed.

(** The contexts in which [expression] is invoked. *)
Inductive estack : list N -> Prop :=
| es_parse : estack [23%N]
| es_tail r st : tail_state r -> estack st -> estack (r :: st)
| es_paren st : estack st -> estack (28%N :: st)
| es_words r w st : In r [103; 117]%N -> In w [36; 52; 54]%N -> estack st -> estack (r :: w :: st).
Lemma estack_after st : estack st -> forallb after_state st = true.
Proof.
  induction 1; cbn [forallb].
  - vm_compute. reflexivity.
  - rewrite IHestack, andb_true_r. destruct H as [<- | [<- | [<- | [<- | []]]]]; vm_compute; reflexivity.
  - rewrite IHestack, andb_true_r. vm_compute. reflexivity.
  - rewrite IHestack, andb_true_r. apply andb_true_intro. split.
    + destruct H as [<- | [<- | []]]; vm_compute; reflexivity.
    + destruct H0 as [<- | [<- | [<- | []]]]; vm_compute; reflexivity.
Qed.
Lemma estack_parse st : estack st -> In 23%N st.
Proof. induction 1; cbn; auto. Qed.
Definition fits (p : nat) (st : list N) : Prop := p = 0%nat \/ exists r st', st = r :: st' /\ tail_state r.

Lemma after_ok p m q st k ks : accepts p m q st (code k :: ks) -> after_state q = true -> estack st -> In (code k) after_operand.
Proof.
  intros H Q E. apply first_sound in H. specialize (H (code_token k)). apply (after_in _ st (code_token k)) with q; auto.
  now apply estack_after.
Qed.
Lemma starts_with p m q st k ks : accepts p m q st (code k :: ks) -> nullable q = false -> has (next_tokens q) (code k) = true.
Proof. intros H. eapply not_first; eauto. apply code_token. Qed.
Lemma synced p m q st t ts : accepts p m q st (codes (t :: ts)) -> in_sync q (t :: ts).
Proof.
  intros H. apply first_sound in H. cbn [codes map] in H. specialize (H (code_token _)).
  destruct st; cbn [first_in] in H; destruct H as [H | [N _]]; [left; exact H | | left; exact H |]; right; now apply has_in.
Qed.
(** Facts that hold for every kind of token, by cases. *)
Ltac kinds k := destruct k; try discriminate; try reflexivity; try tauto.

(** * Operators *)
Lemma branch_facts i b k : nth_error branches i = Some b -> operator b k = true ->
  infix_prec k = Some (required b) /\ right_precedence b = S (required b) /\ tail_state (return_state (calling_state b)) /\
  (forall l t r, kind t = k -> node b l t r = mk_infix l t r).
Proof.
  intros N O. unfold mk_infix, tail_state.
  do 8 (destruct i as [| i]; [injection N as <-; destruct k; try discriminate O; (repeat split; [vm_compute; tauto | intros l t r ->; reflexivity]) |]).
  destruct i; discriminate.
Qed.
Lemma branch_of k q : infix_prec k = Some q -> exists i b, nth_error branches i = Some b /\ operator b k = true.
Proof.
  intros H. destruct k; try discriminate H;
  first [exists 0%nat, (nth 0 branches (Branch 0 (fun _ => false) 0 0 PCmp)); split; reflexivity
        | exists 1%nat, (nth 1 branches (Branch 0 (fun _ => false) 0 0 PCmp)); split; reflexivity
        | exists 2%nat, (nth 2 branches (Branch 0 (fun _ => false) 0 0 PCmp)); split; reflexivity
        | exists 3%nat, (nth 3 branches (Branch 0 (fun _ => false) 0 0 PCmp)); split; reflexivity
        | exists 4%nat, (nth 4 branches (Branch 0 (fun _ => false) 0 0 PCmp)); split; reflexivity
        | exists 5%nat, (nth 5 branches (Branch 0 (fun _ => false) 0 0 PCmp)); split; reflexivity
        | exists 6%nat, (nth 6 branches (Branch 0 (fun _ => false) 0 0 PCmp)); split; reflexivity
        | exists 7%nat, (nth 7 branches (Branch 0 (fun _ => false) 0 0 PCmp)); split; reflexivity].
Qed.
Lemma branch_unique i j b b' k : nth_error branches i = Some b -> nth_error branches j = Some b' -> operator b k = true -> operator b' k = true -> i = j.
Proof.
  intros N N' O O'.
  do 8 (destruct i as [| i]; [injection N as <-; destruct k; try discriminate O;
    (do 8 (destruct j as [| j]; [injection N' as <-; first [reflexivity | discriminate O'] |]); destruct j; discriminate) |]).
  destruct i; discriminate.
Qed.

(** An alternative of the operator loop. *)
Lemma take_branch p m i b st t ts : nth_error branches i = Some b -> operator b (kind t) = true ->
  (m = Some 0 -> (p <= required b)%nat) -> A 2 (return_state (calling_state b) :: st) (codes ts) ->
  exists q, nth_error (moves 81) i = Some (TEpsilon q) /\ accepts p m q st (codes (t :: ts)).
Proof.
  intros N O P H. cbn [codes map]. set (k := kind t) in *. clearbody k. fold (codes ts).
  apply (unfree p) in H.
  destruct i as [| i].
  { injection N as <-. cbn [calling_state required operator] in *. exists 55%N. split; [reflexivity |].
    go 0. split; [exact P |]. go 0. go 0. go 0. destruct k; try discriminate O; (split; [reflexivity |]); go 0; (apply acc_return; [reflexivity |]);
    go 0; exact H. }
  do 6 (destruct i as [| i]; [injection N as <-; cbn [calling_state required operator] in *; eexists; (split; [reflexivity |]);
    go 0; (split; [exact P |]); go 0; destruct k; try discriminate O; (split; [reflexivity |]); go 0; exact H |]).
  destruct i as [| i]; [| destruct i; discriminate].
  injection N as <-. cbn [calling_state required operator] in *. exists 77%N. split; [reflexivity |].
  go 0. split; [exact P |]. go 0. go 0. go 0. destruct k; try discriminate O; (split; [reflexivity |]); go 0; (apply acc_return; [reflexivity |]);
  go 0; exact H.
Qed.
Lemma at_branch p m i q st t ts : nth_error (moves 81) i = Some (TEpsilon q) -> accepts p m q st (codes (t :: ts)) ->
  exists b, nth_error branches i = Some b /\ operator b (kind t) = true /\ (m = Some 0 -> (p <= required b)%nat) /\
    A 2 (return_state (calling_state b) :: st) (codes ts).
Proof.
  intros N H. cbn [codes map] in H. set (k := kind t) in *. clearbody k. fold (codes ts) in H. vm_compute in N.
  destruct i as [| i].
  { injection N as <-. eexists. split; [reflexivity |]. at_state H. destruct H as [P H]. at_state H. at_state H. at_state H.
    destruct H as [O H]. at_state H. at_end H. at_state H. apply free in H.
    repeat split; [| exact P | exact H]. destruct k; try discriminate O; reflexivity. }
  do 6 (destruct i as [| i]; [injection N as <-; eexists; (split; [reflexivity |]); at_state H; destruct H as [P H]; at_state H;
    destruct H as [O H]; at_state H; apply free in H; repeat split; [destruct k; try discriminate O; reflexivity | exact P | exact H] |]).
  destruct i as [| i]; [| destruct i; discriminate].
  injection N as <-. eexists. split; [reflexivity |]. at_state H. destruct H as [P H]. at_state H. at_state H. at_state H.
  destruct H as [O H]. at_state H. at_end H. at_state H. apply free in H.
  repeat split; [| exact P | exact H]. destruct k; try discriminate O; reflexivity.
Qed.
Lemma at_operators p m st ts : accepts p m 81 st (codes ts) ->
  exists t ts' i b, ts = t :: ts' /\ nth_error branches i = Some b /\ operator b (kind t) = true /\ (m = Some 0 -> (p <= required b)%nat) /\
    A 2 (return_state (calling_state b) :: st) (codes ts').
Proof.
  intros H. apply acc_inv in H. destruct H as [[H _] | H]; [discriminate H |]. apply Exists_exists in H. destruct H as (t & I & H).
  apply In_nth_error in I. destruct I as [i I].
  assert (E : exists q, t = TEpsilon q).
  { pose proof (nth_error_In _ _ I) as J. vm_compute in J.
    repeat match goal with D : _ \/ _ |- _ => destruct D as [D | D] end; try contradiction; eauto. }
  destruct E as [q ->]. cbn [step] in H. destruct ts as [| x ts'].
  - exfalso. apply nth_error_In in I. vm_compute in I.
    repeat match goal with D : _ \/ _ |- _ => destruct D as [D | D] end; try contradiction; injection I as <-;
    at_state H; destruct H as [_ H]; at_state H; try contradiction; at_state H; at_state H; contradiction.
  - destruct (at_branch _ _ _ _ _ _ _ I H) as (b & B & O & P & R). exists x, ts', i, b. auto.
Qed.
Lemma at_loop p m st ts : accepts p m 83 st (codes ts) ->
  (exists t ts' i b, ts = t :: ts' /\ nth_error branches i = Some b /\ operator b (kind t) = true /\ (m = Some 0 -> (p <= required b)%nat) /\
     A 2 (return_state (calling_state b) :: st) (codes ts')) \/
  accepts p m 3 st (codes ts).
Proof.
  intros H. at_state H.
  - left. now apply at_operators.
  - right. at_state H. exact H.
Qed.
Lemma into_loop p m i b st t ts : nth_error branches i = Some b -> operator b (kind t) = true ->
  (m = Some 0 -> (p <= required b)%nat) -> A 2 (return_state (calling_state b) :: st) (codes ts) -> accepts p m 81 st (codes (t :: ts)).
Proof.
  intros N O P H. destruct (take_branch p m i b st t ts N O P H) as (q & I & R). apply acc_mk. apply Exists_exists. eexists.
  split; [eapply nth_error_In; exact I | exact R].
Qed.
Lemma loop_more p m st ks : accepts p m 81 st ks -> accepts p m 83 st ks.
Proof. intros H. go 0. exact H. Qed.
Lemma loop_leave p m st ks : accepts p m 3 st ks -> accepts p m 83 st ks.
Proof. intros H. go 1. go 0. exact H. Qed.

(** An operator that can be taken at all can be taken in the innermost loop. *)
Lemma innermost st t ts q : estack st -> A 83 st (codes (t :: ts)) -> infix_prec (kind t) = Some q ->
  exists i b, nth_error branches i = Some b /\ operator b (kind t) = true /\ A 2 (return_state (calling_state b) :: st) (codes ts).
Proof.
  intros E. induction E as [| r st T E IHE | st E IHE | r w st R W E IHE]; intros H Q; apply at_loop in H; destruct H as [(t' & ts' & i & b & [= <- <-] & N & O & _ & H) | H];
    try (exists i, b; auto; fail).
  - exfalso. at_end H. at_state H. destruct H as [K _]. destruct (kind t); discriminate.
  - at_end H. apply (tail_loop _ _ _ _ T) in H. destruct (IHE H Q) as (i & b & N & O & R). exists i, b. repeat split; auto.
    destruct (branch_facts _ _ _ N O) as (_ & _ & T' & _).
    apply (replace_frame _ _ _ _ _ R [] _ _ st (r :: st) eq_refl). intros ks' F. apply loop_tail; auto. apply leave_loop; auto.
    eapply tail_loop; eauto.
  - exfalso. at_end H. at_state H. destruct H as [K _]. destruct (kind t); discriminate.
  - exfalso. at_end H. destruct R as [<- | [<- | []]]; apply starts_with in H; try reflexivity; destruct (kind t); try discriminate Q; vm_compute in H; discriminate H.
Qed.
Lemma outer st p ts : fits p st -> (0 < p)%nat -> A 83 st (codes ts) -> A 3 st (codes ts).
Proof.
  intros [-> | (r & st' & -> & T)] P H; [lia |]. apply outer_loop in H; [| exact T]. apply acc_return; [reflexivity |]. now apply loop_tail.
Qed.
Lemma exit_below p st ks : A 3 st ks -> accepts p (Some 0) 3 st ks.
Proof.
  intros H. at_end H. destruct st as [| r st]; [subst; apply acc_end; reflexivity |]. apply acc_return; [reflexivity |].
  apply acc_below; [now apply unfree | reflexivity].
Qed.
(** In the loop of an invocation with precedence p the predicates exclude nothing. *)
Lemma loop_predicates p st ts : fits p st -> A 83 st (codes ts) -> accepts p (Some 0) 83 st (codes ts).
Proof.
  intros F H. pose proof H as H0. apply at_loop in H. destruct H as [(t & ts' & i & b & -> & N & O & _ & H) | H].
  - destruct (Nat.le_gt_cases p (required b)) as [L | L].
    + apply loop_more. now apply into_loop with i b.
    + apply loop_leave. apply exit_below. apply outer with p; auto. lia.
  - apply loop_leave. now apply exit_below.
Qed.

Lemma predict_more p st t ts q : estack st -> A 83 st (codes (t :: ts)) -> infix_prec (kind t) = Some q -> (p <= q)%nat ->
  predicts p 3 st (t :: ts) 1 /\ exists i b, predicts p 2 st (t :: ts) (S i) /\ nth_error branches i = Some b /\ operator b (kind t) = true /\
    required b = q /\ A 2 (return_state (calling_state b) :: st) (codes ts).
Proof.
  intros E H Q L. destruct (innermost st t ts q E H Q) as (i & b & N & O & R).
  destruct (branch_facts _ _ _ N O) as (Q' & _). assert (required b = q) as B by congruence.
  destruct (take_branch p (Some 0) i b st t ts N O) as (s & I & V); [lia | exact R |]. split.
  - split.
    + exists 81%N. split; [reflexivity |]. split; [lia |]. apply into_loop with i b; auto. lia.
    + intros j J (x & _ & Z & _). lia.
  - exists i, b. repeat split; auto.
    + exists s. rewrite Nat.sub_succ, Nat.sub_0_r. repeat split; auto. lia.
    + intros j J (x & X & Z & V'). destruct j as [| j]; [lia |]. rewrite Nat.sub_succ, Nat.sub_0_r in X.
      destruct (at_branch _ _ _ _ _ _ _ X V') as (b' & N' & O' & _). pose proof (branch_unique _ _ _ _ _ N N' O O'). lia.
Qed.
Lemma predict_exit p st ts : fits p st -> A 83 st (codes ts) ->
  (forall t ts', ts = t :: ts' -> forall q, infix_prec (kind t) = Some q -> (q < p)%nat) -> predicts p 3 st ts 2 /\ A 3 st (codes ts).
Proof.
  intros F H Q.
  assert (X : A 3 st (codes ts)).
  { pose proof H as H0. apply at_loop in H0. destruct H0 as [(t & ts' & i & b & -> & N & O & _ & _) | H0]; [| exact H0].
    destruct (branch_facts _ _ _ N O) as (Q' & _). specialize (Q _ _ eq_refl _ Q'). apply outer with p; auto. lia. }
  split; [| exact X]. split.
  - exists 84%N. split; [reflexivity |]. split; [lia |]. go 0. now apply exit_below.
  - intros j J (x & Y & Z & V). destruct j as [| [| j]]; try lia. cbn in Y. injection Y as <-.
    apply at_operators in V. destruct V as (t & ts' & i & b & -> & N & O & P & _).
    destruct (branch_facts _ _ _ N O) as (Q' & _). specialize (Q _ _ eq_refl _ Q'). specialize (P eq_refl). lia.
Qed.

(** * Operands *)
Lemma at_types p m r st ts : accepts p m 16 (r :: st) (codes ts) ->
  (exists t ts', ts = t :: ts' /\ is_type (kind t) = true /\ A r st (codes ts')) \/ A r st (codes ts).
Proof.
  intros H. apply free in H. at_state H. at_state H;
    try (left; at_state H; destruct ts as [| t ts']; [contradiction |]; cbn [codes map] in H; destruct H as [K H]; at_state H; at_end H;
         exists t, ts'; repeat split; [destruct (kind t); try discriminate K; reflexivity | exact H]).
  - left. at_state H. at_state H. at_state H. destruct ts as [| t ts']; [contradiction |]. cbn [codes map] in H. destruct H as [K H].
    at_state H. at_end H. at_state H. at_end H. exists t, ts'. repeat split; [destruct (kind t); try discriminate K; reflexivity | exact H].
  - right. at_state H. at_state H. at_end H. exact H.
Qed.
Lemma type_index k : is_type k = true -> exists i test, nth_error type_alternatives i = Some test /\ test k = true /\ (i < 8)%nat.
Proof.
  intros H. destruct k; try discriminate H;
  first [exists 0%nat; (eexists; split; [reflexivity | split; [reflexivity | lia]]) | exists 1%nat; (eexists; split; [reflexivity | split; [reflexivity | lia]])
        | exists 2%nat; (eexists; split; [reflexivity | split; [reflexivity | lia]]) | exists 3%nat; (eexists; split; [reflexivity | split; [reflexivity | lia]])
        | exists 4%nat; (eexists; split; [reflexivity | split; [reflexivity | lia]]) | exists 5%nat; (eexists; split; [reflexivity | split; [reflexivity | lia]])
        | exists 6%nat; (eexists; split; [reflexivity | split; [reflexivity | lia]]) | exists 7%nat; (eexists; split; [reflexivity | split; [reflexivity | lia]])].
Qed.
Lemma take_type p m i test st t ts : nth_error type_alternatives i = Some test -> test (kind t) = true -> A 17 st (codes ts) ->
  exists q, nth_error (moves 140) i = Some (TEpsilon q) /\ accepts p m q st (codes (t :: ts)).
Proof.
  intros N T H. apply (unfree p) in H. cbn [codes map]. set (k := kind t) in *. clearbody k. fold (codes ts).
  do 3 (destruct i as [| i]; [injection N as <-; eexists; (split; [reflexivity |]); go 0; destruct k; try discriminate T; (split; [reflexivity |]);
    go 0; exact H |]).
  destruct i as [| i].
  { injection N as <-. eexists. split; [reflexivity |]. go 0. go 0. go 0. destruct k; try discriminate T; (split; [reflexivity |]);
    go 0; (apply acc_return; [reflexivity |]); go 0; exact H. }
  do 4 (destruct i as [| i]; [injection N as <-; eexists; (split; [reflexivity |]); go 0; destruct k; try discriminate T; (split; [reflexivity |]);
    go 0; exact H |]).
  destruct i; discriminate.
Qed.
Lemma at_type p m i q st t ts : (i < 8)%nat -> nth_error (moves 140) i = Some (TEpsilon q) -> accepts p m q st (codes (t :: ts)) ->
  exists test, nth_error type_alternatives i = Some test /\ test (kind t) = true.
Proof.
  intros L N H. apply free in H. cbn [codes map] in H. set (k := kind t) in *. clearbody k. vm_compute in N.
  do 3 (destruct i as [| i]; [injection N as <-; eexists; (split; [reflexivity |]); at_state H; destruct H as [K _]; destruct k; try discriminate K; reflexivity |]).
  destruct i as [| i].
  { injection N as <-. eexists. split; [reflexivity |]. at_state H. at_state H. at_state H. destruct H as [K _]. destruct k; try discriminate K; reflexivity. }
  do 4 (destruct i as [| i]; [injection N as <-; eexists; (split; [reflexivity |]); at_state H; destruct H as [K _]; destruct k; try discriminate K; reflexivity |]).
  lia.
Qed.
Lemma type_unique i j a b k : nth_error type_alternatives i = Some a -> nth_error type_alternatives j = Some b -> a k = true -> b k = true -> i = j.
Proof.
  intros N N' O O'.
  do 8 (destruct i as [| i]; [injection N as <-; destruct k; try discriminate O;
    (do 8 (destruct j as [| j]; [injection N' as <-; first [reflexivity | discriminate O'] |]); destruct j; discriminate) |]).
  destruct i; discriminate.
Qed.
Lemma type_is i a k : nth_error type_alternatives i = Some a -> a k = true -> is_type k = true.
Proof.
  intros N O. do 8 (destruct i as [| i]; [injection N as <-; destruct k; try discriminate O; reflexivity |]). destruct i; discriminate.
Qed.

Lemma types_take p st t ts : is_type (kind t) = true -> A 17 st (codes ts) -> types_run p st (t :: ts) (PTypes t) ts.
Proof.
  intros T H. destruct (type_index _ T) as (i & test & N & K & L).
  destruct (take_type p (Some 0) i test st t ts N K H) as (q & I & V).
  apply types_token with i test; auto.
  - apply synced with p (Some 0) st. apply acc_mk. apply Exists_exists. eexists. split; [eapply nth_error_In; exact I | exact V].
  - split.
    + exists q. rewrite Nat.sub_succ, Nat.sub_0_r. repeat split; auto. lia.
    + intros j J (x & X & Z & V'). destruct j as [| j]; [lia |]. rewrite Nat.sub_succ, Nat.sub_0_r in X.
      destruct (at_type p (Some 0) j x st t ts) as (test' & N' & K'); auto; [lia |]. pose proof (type_unique _ _ _ _ _ N N' K K'). lia.
Qed.
Lemma types_none p st t ts : is_type (kind t) = false -> A 17 st (codes (t :: ts)) -> types_run p st (t :: ts) (PEps t) (t :: ts).
Proof.
  intros T H. assert (V : accepts p (Some 0) 139 st (codes (t :: ts))).
  { go 0. go 0. at_end H. destruct st as [| r st]; [discriminate |]. apply acc_return; [reflexivity |]. apply acc_below; [now apply unfree | reflexivity]. }
  apply types_empty.
  - apply synced with p (Some 0) st. go 8. exact V.
  - split.
    + exists 139%N. repeat split; auto. lia.
    + intros j J (x & X & Z & V'). destruct j as [| j]; [lia |]. rewrite Nat.sub_succ, Nat.sub_0_r in X.
      destruct (at_type p (Some 0) j x st t ts) as (test' & N' & K'); auto; [lia |]. pose proof (type_is _ _ _ N' K'). congruence.
Qed.

(** The first alternatives of [expression] by their first token. *)
Lemma viable_first p st t ts i : viable p 1 st (t :: ts) i ->
  match i with
  | 1%nat => kind t = T_LPAREN
  | 2%nat => kind t = T_NOT
  | 3%nat => kind t = T_SUBTRACT
  | 4%nat => is_function (kind t) = true
  | 5%nat => accepts p (Some 0) 37 st (codes (t :: ts))
  | 6%nat | 7%nat | 8%nat => kind t = T_FIELD
  | _ => False
  end.
Proof.
  intros (q & N & P & H).
  destruct i as [| i]; [lia |]. rewrite Nat.sub_succ, Nat.sub_0_r in N. vm_compute in N.
  do 4 (destruct i as [| i]; [injection N as <-; cbn [codes map] in H; apply starts_with in H; [| vm_compute; reflexivity];
    destruct (kind t); first [reflexivity | vm_compute in H; discriminate H] |]).
  destruct i as [| i]; [injection N as <-; exact H |].
  do 3 (destruct i as [| i]; [injection N as <-; cbn [codes map] in H; apply starts_with in H; [| vm_compute; reflexivity];
    destruct (kind t); first [reflexivity | vm_compute in H; discriminate H] |]).
  destruct i; discriminate.
Qed.
(** The alternative [types]. *)
Lemma at_operand p m st ts : accepts p m 37 st (codes ts) ->
  (exists t ts', ts = t :: ts' /\ is_type (kind t) = true /\ A 83 st (codes ts')) \/ A 83 st (codes ts).
Proof.
  intros H. at_state H. apply at_types in H. destruct H as [(t & ts' & E & T & H) | H]; [left; exists t, ts'; repeat split; auto | right];
  (apply (tail_loop 0 54); [left; reflexivity | exact H]).
Qed.
Lemma operand_not p m st t ts : accepts p m 37 st (codes (t :: ts)) -> estack st -> is_type (kind t) = true \/ In (code (kind t)) after_operand.
Proof.
  intros H E. apply at_operand in H. destruct H as [(t' & ts' & [= <- <-] & T & _) | H]; [left; exact T | right].
  cbn [codes map] in H. apply after_ok in H; [exact H | vm_compute; reflexivity | exact E].
Qed.
Lemma field_then p m st t u ts : accepts p m 37 st (codes (t :: u :: ts)) -> estack st -> kind t = T_FIELD -> In (code (kind u)) after_operand.
Proof.
  intros H E K. pose proof H as H0. apply at_operand in H. destruct H as [(t' & ts' & [= <- <-] & T & H) | H].
  - cbn [codes map] in H. apply after_ok in H; [exact H | vm_compute; reflexivity | exact E].
  - exfalso. cbn [codes map] in H. rewrite K in H. apply after_ok in H; [| vm_compute; reflexivity | exact E].
    vm_compute in H. repeat match goal with D : _ \/ _ |- _ => destruct D as [D | D] end; try contradiction; discriminate.
Qed.
Lemma take_operand p st ts : fits p st -> (exists t ts', ts = t :: ts' /\ is_type (kind t) = true /\ A 83 st (codes ts')) \/ A 83 st (codes ts) ->
  accepts p (Some 0) 37 st (codes ts).
Proof.
  intros F [(t & ts' & -> & T & H) | H].
  - go 0. go 0. destruct (type_index _ T) as (i & test & N & K & L).
    destruct (take_type p (deeper (Some 0)) i test (54%N :: st) t ts' N K) as (q & I & V).
    + apply acc_return; [reflexivity |]. apply loop_tail; [left; reflexivity | exact H].
    + apply acc_mk. apply Exists_exists. eexists. split; [eapply nth_error_In; exact I | exact V].
  - go 0. go 0. go 8. go 0. go 0. apply acc_return; [reflexivity |]. cbn. go 0. apply loop_predicates; auto.
Qed.
