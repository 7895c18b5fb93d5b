(** Facts about the automaton of the parser: inverting and building runs, first tokens, the operator loop. *)
From Coq Require Import FMapPositive.
From Verif Require Import Base Lexer Grammar LexerAtn ParserTable ParserAtn.
Local Open Scope Z_scope.

Lemma net_decoded : parser_net = Some net.
Proof. vm_compute. reflexivity. Qed.

(** * One step *)
Definition step (p : nat) (m : option Z) (t : ptransition) (st : list N) (ks : list Z) : Prop :=
  match t with
  | TEpsilon q => accepts p m q st ks
  | TAction q => accepts p None q st ks
  | TPrecedence q c => (m = Some 0 -> (p <= c)%nat) /\ accepts p m q st ks
  | TCall s r _ => accepts p (deeper m) s (r :: st) ks
  | TTokens q l => match ks with [] => False | k :: ks' => within_set l k = true /\ accepts p None q st ks' end
  end.
Lemma acc_inv p m q st ks : accepts p m q st ks ->
  (ends q = true /\ match st with [] => ks = [] | r :: st' => accepts p (shallower m) r st' ks end) \/
  Exists (fun t => step p m t st ks) (moves q).
Proof.
  intros H. inversion H; subst; auto; right; apply Exists_exists; eexists; (split; [eassumption |]); cbn; auto.
Qed.
Lemma acc_mk p m q st ks : Exists (fun t => step p m t st ks) (moves q) -> accepts p m q st ks.
Proof.
  intros H. apply Exists_exists in H. destruct H as (t & I & H). destruct t; cbn in H.
  - eapply acc_epsilon; eauto.
  - eapply acc_call; eauto.
  - destruct H. eapply acc_precedence; eauto.
  - eapply acc_action; eauto.
  - destruct ks; [contradiction |]. destruct H. eapply acc_token; eauto.
Qed.
Ltac moves_at H :=
  match type of H with context [moves ?q] => let l := eval vm_compute in (moves q) in change (moves q) with l in H end.
(** Invert a run at a state given as a number; one goal for each transition. *)
Ltac at_state H :=
  apply acc_inv in H; destruct H as [[H _] | H]; [discriminate H |];
  moves_at H; repeat rewrite Exists_cons in H; rewrite Exists_nil in H; cbn [step] in H;
  repeat match type of H with _ \/ _ => destruct H as [H | H] end; try contradiction H.
(** Invert a run at the end of a rule. *)
Ltac at_end H :=
  apply acc_inv in H; destruct H as [[_ H] | H]; [| moves_at H; rewrite Exists_nil in H; contradiction H].
(** Take the transition number n. *)
Tactic Notation "go" integer(n) :=
  apply acc_mk;
  match goal with |- context [moves ?q] => let l := eval vm_compute in (moves q) in change (moves q) with l end;
  do n apply Exists_cons_tl; apply Exists_cons_hd; cbn [step].

Lemma acc_free p p' m q st ks : accepts p m q st ks -> accepts p' None q st ks.
Proof.
  intros H. induction H.
  - now apply acc_end.
  - now apply acc_return.
  - eapply acc_epsilon; eauto.
  - eapply acc_action; eauto.
  - eapply acc_precedence; eauto. discriminate.
  - eapply acc_call; eauto.
  - eapply acc_token; eauto.
Qed.

(** Below depth 0 no predicate is evaluated any more. *)
Lemma acc_below p q st ks d : accepts p None q st ks -> d < 0 -> accepts p (Some d) q st ks.
Proof.
  intros H. remember None as m eqn:E. revert d. induction H; intros d D; subst m.
  - now apply acc_end.
  - apply acc_return; [assumption |]. cbn. apply IHaccepts; [reflexivity | lia].
  - eapply acc_epsilon; eauto.
  - eapply acc_action; eauto.
  - eapply acc_precedence; eauto. intros [= ->]. lia.
  - eapply acc_call; eauto. cbn. destruct (0 <=? d) eqn:L; [lia |]. now apply IHaccepts.
  - eapply acc_token; eauto.
Qed.

(** * Rules without predicates *)
Definition key_state (k : positive) : N := Pos.pred_N k.
Lemma key_state_key q : key_state (key q) = q.
Proof. unfold key_state, key. apply N.pos_pred_succ. Qed.
Lemma moves_elements q t : In t (moves q) -> In (key q, moves q) (PositiveMap.elements (moves_map net)).
Proof.
  unfold moves. destruct (PositiveMap.find (key q) (moves_map net)) eqn:E; intros I; [| contradiction].
  now apply PositiveMap.elements_correct.
Qed.
Lemma every_move (check : N -> ptransition -> bool) :
  forallb (fun kl => forallb (check (key_state (fst kl))) (snd kl)) (PositiveMap.elements (moves_map net)) = true ->
  forall q t, In t (moves q) -> check q t = true.
Proof.
  intros C q t I. pose proof (moves_elements _ _ I) as E. rewrite forallb_forall in C. apply C in E. cbn [fst snd] in E.
  rewrite key_state_key, forallb_forall in E. now apply E.
Qed.

Definition plain_rule (r : Z) : bool := negb (r =? 1).
Definition plain_check (q : N) (t : ptransition) : bool :=
  if plain_rule (rule_of q) then
    match t with
    | TEpsilon q' | TAction q' | TTokens q' _ => plain_rule (rule_of q')
    | TCall _ r _ => plain_rule (rule_of r)
    | TPrecedence _ _ => false
    end
  else true.
Lemma plain_checked q t : In t (moves q) -> plain_check q t = true.
Proof. apply every_move. vm_compute. reflexivity. Qed.
(** In a rule other than [expression], prediction evaluates no predicate. *)
Lemma acc_plain p q st ks d : accepts p None q st ks -> 0 <= d ->
  plain_rule (rule_of (match d with 0 => q | _ => nth (Z.to_nat (d - 1)) st 0%N end)) = true ->
  accepts p (Some d) q st ks.
Proof.
  intros H. remember None as m eqn:E. revert d. induction H; intros d D P; subst m.
  - now apply acc_end.
  - apply acc_return; [assumption |]. cbn. destruct (Z.eq_dec d 0) as [-> | N].
    + apply acc_below; [assumption | lia].
    + apply IHaccepts; [reflexivity | lia |]. destruct d as [| d | d]; try lia.
      destruct (Z.eq_dec (Z.pos d) 1) as [E | N1].
      * rewrite E in P |- *. cbn in P. cbn. exact P.
      * destruct (Z.pos d - 1) eqn:F; try lia. replace (Z.to_nat (Z.pos p0)) with (S (Z.to_nat (Z.pos p0 - 1))) in P by lia. exact P.
  - eapply acc_epsilon; [eassumption |]. apply IHaccepts; [reflexivity | assumption |]. destruct d; try lia; [| exact P].
    apply plain_checked in H. unfold plain_check in H. now rewrite P in H.
  - eapply acc_action; eauto.
  - destruct (Z.eq_dec d 0) as [-> | N].
    + apply plain_checked in H. unfold plain_check in H. rewrite P in H. discriminate.
    + eapply acc_precedence; [eassumption | intros [= ->]; lia |]. apply IHaccepts; [reflexivity | assumption |]. destruct d; try lia. exact P.
  - eapply acc_call; [eassumption |]. cbn [deeper]. destruct (0 <=? d) eqn:L; [| lia]. apply IHaccepts; [reflexivity | lia |].
    destruct (d + 1) eqn:F; try lia. rewrite <- F. replace (d + 1 - 1) with d by lia. destruct d as [| d | d]; try lia.
    + apply plain_checked in H. unfold plain_check in H. rewrite P in H. exact H.
    + replace (Z.to_nat (Z.pos d)) with (S (Z.to_nat (Z.pos d - 1))) by lia. exact P.
  - eapply acc_token; eauto.
Qed.

(** * First tokens *)
Lemma interval_in i x : fst i <= x <= snd i -> In x (interval_elements i).
Proof.
  intros H. unfold interval_elements. apply in_map_iff. exists (Z.to_nat (x - fst i)). split; [lia |]. apply in_seq. lia.
Qed.
Lemma within_elements l x : within_set l x = true -> In x (concat (map interval_elements l)).
Proof.
  unfold within_set. rewrite existsb_exists. intros (i & I & H). apply in_concat. exists (interval_elements i). split.
  - now apply in_map.
  - apply interval_in. lia.
Qed.
Definition has (l : list Z) (x : Z) : bool := existsb (Z.eqb x) l.
Lemma has_in l x : has l x = true <-> In x l.
Proof. unfold has. rewrite existsb_exists. split; [intros (y & I & E) | intros I; exists x; split; [assumption |]]; [| lia]. now replace x with y by lia. Qed.
Definition nullable (q : N) : bool := has (next_tokens q) epsilon.
Opaque next_tokens.
Definition first_check (q : N) (t : ptransition) : bool :=
  match t with
  | TEpsilon q' | TAction q' | TPrecedence q' _ => forallb (has (next_tokens q)) (next_tokens q')
  | TCall s r _ =>
      forallb (fun x => (x =? epsilon) || has (next_tokens q) x) (next_tokens s) &&
      (negb (nullable s) || forallb (has (next_tokens q)) (next_tokens r))
  | TTokens _ l => forallb (has (next_tokens q)) (concat (map interval_elements l))
  end.
Lemma first_checked q t : In t (moves q) -> first_check q t = true.
Proof. apply every_move. vm_compute. reflexivity. Qed.
Lemma ends_nullable q : ends q = true -> nullable q = true.
Proof.
  unfold ends, ended_rule. destruct (PositiveMap.find (key q) (ends_map net)) eqn:E; [intros _ | discriminate].
  assert (C : forallb (fun kl => nullable (key_state (fst kl))) (PositiveMap.elements (ends_map net)) = true) by (vm_compute; reflexivity).
  rewrite forallb_forall in C. apply PositiveMap.elements_correct in E. apply C in E. cbn [fst] in E. now rewrite key_state_key in E.
Qed.

Fixpoint first_in (q : N) (st : list N) (k : Z) : Prop :=
  In k (next_tokens q) \/ (nullable q = true /\ match st with [] => False | r :: st' => first_in r st' k end).
Lemma first_mono q q' st k : (forall x, In x (next_tokens q') -> In x (next_tokens q)) -> first_in q' st k -> first_in q st k.
Proof.
  intros I H.
  assert (M : nullable q' = true -> nullable q = true).
  { unfold nullable. intros N. apply has_in. apply has_in in N. auto. }
  destruct st as [| r st]; cbn [first_in] in *; destruct H as [H | [N H]]; auto.
Qed.
Lemma forallb_has l l' : forallb (has l) l' = true -> forall x, In x l' -> In x l.
Proof. rewrite forallb_forall. intros H x I. apply has_in. auto. Qed.
Lemma first_sound p m q st ks : accepts p m q st ks -> match ks with [] => True | k :: _ => k <> epsilon -> first_in q st k end.
Proof.
  intros H. induction H; try exact I.
  - destruct ks as [| k ks]; [exact I |]. intros K. cbn [first_in]. right. split; [now apply ends_nullable |]. auto.
  - destruct ks as [| k ks]; [exact I |]. intros K. apply first_checked in H. cbn [first_check] in H.
    apply (first_mono _ q'); auto. now apply forallb_has.
  - destruct ks as [| k ks]; [exact I |]. intros K. apply first_checked in H. cbn [first_check] in H.
    apply (first_mono _ q'); auto. now apply forallb_has.
  - destruct ks as [| k ks]; [exact I |]. intros K. apply first_checked in H. cbn [first_check] in H.
    apply (first_mono _ q'); auto. now apply forallb_has.
  - destruct ks as [| k ks]; [exact I |]. intros K. specialize (IHaccepts K). cbn [first_in] in IHaccepts.
    apply first_checked in H. cbn [first_check] in H. apply andb_prop in H. destruct H as [H1 H2].
    destruct IHaccepts as [F | [N F]].
    + rewrite forallb_forall in H1. apply H1 in F. apply orb_prop in F. destruct F as [F | F]; [lia |].
      apply has_in in F. destruct st; cbn [first_in]; auto.
    + rewrite N in H2. cbn [negb orb] in H2. apply (first_mono _ r); auto. now apply forallb_has.
  - intros K. apply first_checked in H. cbn [first_check] in H. apply within_elements in H0.
    apply (forallb_has _ _ H) in H0. destruct st; cbn [first_in]; auto.
Qed.

(** What can come after an operand. *)
Definition after_operand : list Z := [-1; 1; 4; 5; 21; 22; 23; 24; 25; 26; 27; 28; 29; 30; 31; 32; 34; 40].
Definition after_state (q : N) : bool := forallb (fun x => (x =? epsilon) || has after_operand x) (next_tokens q).
Lemma after_in k st : k <> epsilon -> forallb after_state st = true -> forall q, after_state q = true -> first_in q st k -> In k after_operand.
Proof.
  intros K. induction st as [| r st IH]; intros F q A H; cbn [first_in] in H; destruct H as [H | [_ H]]; try contradiction.
  - unfold after_state in A. rewrite forallb_forall in A. apply A in H. apply orb_prop in H. destruct H as [H | H]; [lia |]. now apply has_in.
  - unfold after_state in A. rewrite forallb_forall in A. apply A in H. apply orb_prop in H. destruct H as [H | H]; [lia |]. now apply has_in.
  - cbn [forallb] in F. apply andb_prop in F. destruct F as [F1 F2]. now apply (IH F2 r).
Qed.
Lemma not_first p m q st k ks : accepts p m q st (k :: ks) -> k <> epsilon -> nullable q = false -> has (next_tokens q) k = true.
Proof.
  intros H K N. apply first_sound in H. specialize (H K). apply has_in. destruct st; cbn [first_in] in H; destruct H as [H | [E _]]; auto; congruence.
Qed.

(** * The operator loop *)
(** The states after an invocation of [expression] as the last operand of an operator. *)
Definition tail_state (r : N) : Prop := In r [54; 58; 80; 82]%N.
Lemma tail_loop p r st ks : tail_state r -> accepts p None r st ks -> accepts p None 83 st ks.
Proof.
  intros [<- | [<- | [<- | [<- | []]]]] H.
  - at_state H. exact H.
  - at_state H. at_state H. at_state H. exact H.
  - at_state H. at_state H. at_state H. exact H.
  - at_state H. at_state H. exact H.
Qed.
Lemma loop_tail p r st ks : tail_state r -> accepts p None 83 st ks -> accepts p None r st ks.
Proof.
  intros [<- | [<- | [<- | [<- | []]]]] H.
  - go 0. exact H.
  - go 0. go 0. go 0. exact H.
  - go 0. go 0. go 0. exact H.
  - go 0. go 0. exact H.
Qed.
Lemma leave_loop p r st ks : tail_state r -> accepts p None 83 st ks -> accepts p None 83 (r :: st) ks.
Proof.
  intros T H. go 1. go 0. apply acc_return; [reflexivity |]. now apply loop_tail.
Qed.

Definition loop_state (q : N) : bool := ((54 <=? q) && (q <=? 85) && negb (q =? 84))%N.
Definition leaving (q : N) : bool := ((q =? 3) || (q =? 84))%N.
Definition loop_check (q : N) (t : ptransition) : bool :=
  if loop_state q || leaving q then
    match t with
    | TEpsilon q' => (loop_state q' || leaving q') && (negb (leaving q') || (q =? 83)%N || (q =? 84)%N)
    | TPrecedence q' _ | TAction q' | TTokens q' _ => loop_state q'
    | TCall _ r _ => loop_state r
    end
  else true.
Lemma loop_checked q t : In t (moves q) -> loop_check q t = true.
Proof. apply every_move. vm_compute. reflexivity. Qed.
Lemma loop_ends q : loop_state q = true -> ends q = false.
Proof.
  unfold loop_state, ends, ended_rule. intros L. destruct (PositiveMap.find (key q) (ends_map net)) eqn:E; [| reflexivity].
  assert (C : forallb (fun kl => negb (loop_state (key_state (fst kl)))) (PositiveMap.elements (ends_map net)) = true) by (vm_compute; reflexivity).
  rewrite forallb_forall in C. apply PositiveMap.elements_correct in E. apply C in E. cbn [fst] in E. rewrite key_state_key in E.
  unfold loop_state in E. rewrite L in E. discriminate.
Qed.

(** Without predicates, the loop of an operand that ends an operator's right side can be left to the operator's own loop. *)
Lemma absorb p m q st0 ks : accepts p m q st0 ks -> forall r st', tail_state r ->
  (forall s S, st0 = s :: S ++ r :: st' -> loop_state (last (s :: S) 0%N) = true -> accepts p None q (s :: S ++ st') ks) /\
  (st0 = r :: st' -> loop_state q = true -> accepts p None q st' ks) /\
  (st0 = r :: st' -> leaving q = true -> accepts p None 83 st' ks).
Proof.
  intros H. induction H; intros r0 st' T.
  - repeat split; discriminate.
  - destruct (IHaccepts r0 st' T) as (I1 & I2 & I3). repeat split.
    + intros s S [= -> ->] L. apply acc_return; [assumption |]. destruct S as [| s' S].
      * cbn in *. apply I2; auto.
      * cbn [app] in *. apply I1; auto.
    + intros _ L. rewrite (loop_ends _ L) in H. discriminate.
    + intros [= -> ->] L. apply tail_loop with r0; auto. now apply (acc_free _ p) in H0.
  - destruct (IHaccepts r0 st' T) as (I1 & I2 & I3). pose proof (loop_checked _ _ H) as C. unfold loop_check in C. repeat split.
    + intros s S E L. eapply acc_epsilon; eauto.
    + intros E L. rewrite L in C. cbn [orb] in C. apply andb_prop in C. destruct C as [C1 C2]. destruct (leaving q') eqn:V.
      * destruct (q =? 83)%N eqn:Q.
        -- apply N.eqb_eq in Q. subst q. auto.
        -- cbn in C2. unfold loop_state in L. rewrite C2 in L. rewrite Bool.andb_false_r in L. discriminate.
      * rewrite orb_false_r in C1. eapply acc_epsilon; eauto.
    + intros E L. unfold leaving in L. apply orb_prop in L. destruct L as [L | L]; apply N.eqb_eq in L; subst q.
      * vm_compute in H. contradiction.
      * vm_compute in H. destruct H as [[= <-] | []]. apply I3; auto.
  - destruct (IHaccepts r0 st' T) as (I1 & I2 & I3). pose proof (loop_checked _ _ H) as C. unfold loop_check in C. repeat split.
    + intros s S E L. eapply acc_action; eauto.
    + intros E L. rewrite L in C. cbn [orb] in C. eapply acc_action; eauto.
    + intros E L. unfold leaving in L. apply orb_prop in L. destruct L as [L | L]; apply N.eqb_eq in L; subst q; vm_compute in H.
      * contradiction.
      * destruct H as [[=] | []].
  - destruct (IHaccepts r0 st' T) as (I1 & I2 & I3). pose proof (loop_checked _ _ H) as C. unfold loop_check in C. repeat split.
    + intros s S E L. eapply acc_precedence; eauto. discriminate.
    + intros E L. rewrite L in C. cbn [orb] in C. eapply acc_precedence; eauto. discriminate.
    + intros E L. unfold leaving in L. apply orb_prop in L. destruct L as [L | L]; apply N.eqb_eq in L; subst q; vm_compute in H.
      * contradiction.
      * destruct H as [[=] | []].
  - destruct (IHaccepts r0 st' T) as (I1 & I2 & I3). pose proof (loop_checked _ _ H) as C. unfold loop_check in C. repeat split.
    + intros s0 S E L. eapply acc_call; eauto. cbn [deeper]. apply (I1 r (s0 :: S)).
      * now rewrite E.
      * exact L.
    + intros E L. rewrite L in C. cbn [orb] in C. eapply acc_call; eauto. cbn [deeper]. apply (I1 r []); [now rewrite E | exact C].
    + intros E L. unfold leaving in L. apply orb_prop in L. destruct L as [L | L]; apply N.eqb_eq in L; subst q; vm_compute in H.
      * contradiction.
      * destruct H as [[=] | []].
  - destruct (IHaccepts r0 st' T) as (I1 & I2 & I3). pose proof (loop_checked _ _ H) as C. unfold loop_check in C. repeat split.
    + intros s S E L. eapply acc_token; eauto.
    + intros E L. rewrite L in C. cbn [orb] in C. eapply acc_token; eauto.
    + intros E L. unfold leaving in L. apply orb_prop in L. destruct L as [L | L]; apply N.eqb_eq in L; subst q; vm_compute in H.
      * contradiction.
      * destruct H as [[=] | []].
Qed.
Lemma outer_loop p r st ks : tail_state r -> accepts p None 83 (r :: st) ks -> accepts p None 83 st ks.
Proof. intros T H. destruct (absorb _ _ _ _ _ H r st T) as (_ & I & _). now apply I. Qed.

(** Replacing the states to return to. *)
Lemma replace_frame p m q st0 ks : accepts p m q st0 ks -> forall S a b st st', st0 = S ++ a :: st ->
  (forall ks', accepts p None a st ks' -> accepts p None b st' ks') -> accepts p None q (S ++ b :: st') ks.
Proof.
  intros H. induction H; intros S a b st1 st2 E I; subst.
  - destruct S; discriminate.
  - destruct S as [| s S]; cbn in E; injection E as -> ->.
    + cbn. apply acc_return; [assumption |]. apply I. now apply (acc_free _ p) in H0.
    + cbn. apply acc_return; [assumption |]. eapply IHaccepts; eauto.
  - eapply acc_epsilon; eauto.
  - eapply acc_action; eauto.
  - eapply acc_precedence; [eassumption | discriminate |]. eapply IHaccepts; eauto.
  - eapply acc_call; [eassumption |]. cbn [deeper]. apply (IHaccepts (r :: S) a b st1 st2); auto.
  - eapply acc_token; eauto.
Qed.

(** The end of the input is consumed in rule parse only. *)
Lemma acc_nonempty p m q st ks : accepts p m q st ks -> In 23%N (q :: st) -> ks <> [].
Proof.
  intros H. induction H; intros I.
  - destruct I as [-> | []]. discriminate.
  - apply IHaccepts. destruct I as [-> | I]; [discriminate | exact I].
  - apply IHaccepts. destruct I as [-> | I]; [vm_compute in H; destruct H as [H | []]; discriminate | right; exact I].
  - apply IHaccepts. destruct I as [-> | I]; [vm_compute in H; destruct H as [H | []]; discriminate | right; exact I].
  - apply IHaccepts. destruct I as [-> | I]; [vm_compute in H; destruct H as [H | []]; discriminate | right; exact I].
  - apply IHaccepts. destruct I as [-> | I]; [vm_compute in H; destruct H as [H | []]; discriminate | right; right; exact I].
  - discriminate.
Qed.
