(** Proofs about concurrent construction. *)
From Verif Require Import Base Values Ops Funcs Registry SpecRegistry.

Definition good_registry (r : registry) : Prop := forall k i, r k = Some i -> serving_class k = Some i.

(** [ready r t]: the lookups still to come are preceded by a put of their key, or find it already there. *)
Fixpoint safe (have : rkey -> Prop) (l : list raction) : Prop :=
  match l with
  | [] => True
  | Put k i :: l' => serving_class k = Some i /\ safe (fun k' => k' = k \/ have k') l'
  | Get k :: l' => have k /\ safe have l'
  end.
Definition has (r : registry) (k : rkey) : Prop := r k <> None.
Definition good_log (l : list (rkey * option impl)) : Prop :=
  forall k o, In (k, o) l -> o <> None /\ o = serving_class k.
Definition good_state (s : rstate) : Prop :=
  good_registry (reg s) /\ forall t, In t (threads s) -> safe (has (reg s)) (todo t) /\ good_log (seen t).

Lemma safe_mono : forall l (h h' : rkey -> Prop), (forall k, h k -> h' k) -> safe h l -> safe h' l.
Proof.
  induction l as [|[k i|k] l IH]; cbn; intros h h' Hh H; auto.
  - destruct H as [H1 H2]. split; auto. eapply IH; [|exact H2]. cbn. intuition.
  - destruct H; split; eauto.
Qed.

Lemma in_update : forall A (l : list A) i x y, In y (update l i x) -> y = x \/ In y l.
Proof.
  induction l as [|a l IH]; intros [|i] x y; cbn; intuition. destruct (IH _ _ _ H0); auto.
Qed.

Lemma step_good : forall s i, good_state s -> good_state (rstep s i).
Proof.
  intros s i [Hr Ht]. unfold rstep. destruct (nth_error (threads s) i) as [t|] eqn:Hn; [|split; auto].
  pose proof (Ht t (nth_error_In _ _ Hn)) as [Hsafe Hlog].
  destruct (todo t) as [|[k c|k] rest] eqn:Htd; [split; auto| |]; cbn in *.
  - destruct Hsafe as [Hc Hs]. split; cbn.
    + intros k' c'. unfold put. destruct (rkey_eq_dec k k'); [intros [= <-]; congruence|apply Hr].
    + assert (Hm : forall k', has (reg s) k' -> has (put k c (reg s)) k').
      { unfold has, put. intros k' H'. destruct (rkey_eq_dec k k'); congruence. }
      intros t' Hin. apply in_update in Hin as [->|Hin]; cbn.
      * split; auto. eapply safe_mono; [|exact Hs]. cbn. intros k' [->|H']; auto.
        unfold has, put. destruct (rkey_eq_dec k k); congruence.
      * destruct (Ht t' Hin). split; eauto using safe_mono.
  - destruct Hsafe as [Hk Hs]. split; cbn; auto.
    intros t' Hin. apply in_update in Hin as [->|Hin]; cbn; auto. split; auto.
    intros k' o Hin'. apply in_app_or in Hin' as [Hin'|[[= <- <-]|[]]]; auto.
    split; auto. unfold has in Hk. destruct (reg s k) eqn:E; [|congruence]. symmetry; auto.
Qed.

Lemma run_good : forall sched s, good_state s -> good_state (rrun s sched).
Proof. induction sched; cbn; intros; auto. apply IHsched, step_good; auto. Qed.

Definition all_served (l : list (rkey * impl)) : bool :=
  forallb (fun e => match serving_class (fst e) with Some c => jstr_eqb c (snd e) | None => false end) l.
Lemma jeq : forall a b, jstr_eqb a b = true -> a = b.
Proof. induction a as [|x a IH]; intros [|y b]; cbn; intros H; try discriminate; auto.
  apply andb_true_iff in H as [H1 H2]. apply N.eqb_eq in H1. apply IH in H2. congruence. Qed.
Lemma all_served_spec : forall l, all_served l = true -> forall k i, In (k, i) l -> serving_class k = Some i.
Proof.
  intros l H k i Hin. unfold all_served in H. rewrite forallb_forall in H. specialize (H _ Hin). cbn in H.
  destruct (serving_class k); [|discriminate]. f_equal. apply jeq; auto.
Qed.

Lemma safe_puts : forall l h rest, (forall k i, In (k, i) l -> serving_class k = Some i) ->
  safe (fun k => In k (map fst l) \/ h k) rest -> safe h (puts_of l ++ rest).
Proof.
  induction l as [|[k i] l IH]; cbn; intros h rest Hl Hs.
  - eapply safe_mono; [|exact Hs]. cbn. intuition.
  - split; [auto|]. apply IH; auto. eapply safe_mono; [|exact Hs]. cbn. intuition.
Qed.

Lemma arith_keys : forall k, serving_class k <> None -> In k (map fst arith_evaluator_puts).
Proof. intros k H. destruct k as [[]|[]|[]|[]]; cbn in *; try congruence; tauto. Qed.
Lemma bool_keys : forall k, serving_class k <> None -> In k (map fst bool_evaluator_puts).
Proof.
  intros k H. unfold bool_evaluator_puts. rewrite map_app. apply in_or_app. right. apply arith_keys; auto.
Qed.

Lemma served_p : all_served parser_puts = true. Proof. reflexivity. Qed.
Lemma served_a : all_served arith_evaluator_puts = true. Proof. reflexivity. Qed.
Lemma served_b : all_served bool_evaluator_puts = true. Proof. reflexivity. Qed.

Lemma parser_keys : forall k, serving_class k <> None -> operator_key k -> In k (map fst parser_puts).
Proof. intros k H O. destruct k as [[]|[]|[]|[]]; cbn in *; try congruence; tauto. Qed.

(** What the constructions so far provide is there. *)
Lemma safe_from : forall l pre (h : rkey -> Prop), (forall a k, In a pre -> provides a k -> serving_class k <> None -> h k) -> proper (pre ++ l) -> safe h (program l).
Proof.
  induction l as [|a l IH]; intros pre h Hh Hp; [exact I|].
  assert (Hr : forall h' : rkey -> Prop, (forall k, h k -> h' k) -> (forall k, provides a k -> serving_class k <> None -> h' k) -> safe h' (program l)).
  { intros h' H1 H2. apply (IH (pre ++ [a])); [|rewrite <- app_assoc; exact Hp]. intros b k Hb Hk Hs. apply in_app_or in Hb as [Hb|[<-|[]]]; eauto. }
  unfold program in *. cbn [flat_map]. destruct a; cbn [actions].
  - apply safe_puts; [exact (all_served_spec _ served_p)|apply Hr; [auto|]]. intros k Ho Hs. left. apply parser_keys; auto.
  - apply safe_puts; [exact (all_served_spec _ served_a)|apply Hr; [auto|]]. intros k _ Hs. left. apply arith_keys; auto.
  - apply safe_puts; [exact (all_served_spec _ served_b)|apply Hr; [auto|]]. intros k _ Hs. left. apply bool_keys; auto.
  - cbn [app safe]. destruct (Hp pre k l eq_refl) as [Hs [b [Hb Hk]]]. split; [eauto|]. apply Hr; [auto|]. intros k' [].
Qed.
Lemma proper_safe : forall l h, proper l -> safe h (program l).
Proof. intros l h H. apply (safe_from l []); [intros a k []|exact H]. Qed.

(** Deciding that a thread is proper. *)
Fixpoint in_order (parser evaluator : bool) (l : list activity) : bool :=
  match l with
  | [] => true
  | NewParser :: l' => in_order true evaluator l'
  | (NewArithmeticEvaluator | NewBooleanEvaluator) :: l' => in_order parser true l'
  | LookUp k :: l' =>
      match serving_class k with Some _ => true | None => false end &&
      (evaluator || parser && match k with KLogical _ | KArithmetic _ => true | _ => false end) && in_order parser evaluator l'
  end.
Lemma in_order_proper : forall l p e pre, (p = true -> In NewParser pre) -> (e = true -> exists a, In a pre /\ forall k, provides a k) -> in_order p e l = true ->
  forall before k after, l = before ++ LookUp k :: after -> serving_class k <> None /\ exists a, In a (pre ++ before) /\ provides a k.
Proof.
  induction l as [|a l IH]; intros p e pre Hp He H before k after E; [destruct before; discriminate|].
  destruct before as [|b before]; cbn [app] in E; injection E as -> E.
  - cbn [in_order] in H. apply andb_true_iff in H as [H _]. apply andb_true_iff in H as [H1 H2]. split; [destruct (serving_class k); [discriminate|discriminate H1]|].
    rewrite app_nil_r. apply orb_true_iff in H2 as [H2|H2].
    + destruct (He H2) as [a [Ha Hk]]. eauto.
    + apply andb_true_iff in H2 as [H2 H3]. exists NewParser. split; [auto|]. destruct k; cbn; auto; discriminate.
  - assert (Z : pre ++ b :: before = (pre ++ [b]) ++ before) by (rewrite <- app_assoc; reflexivity). rewrite Z.
    destruct b; cbn [in_order] in H.
    + apply (IH true e (pre ++ [NewParser])) with (after := after); auto; intros; [apply in_or_app; right; left; reflexivity|]. destruct (He H0) as [a [Ha Hk]]. exists a. split; [apply in_or_app; auto|auto].
    + apply (IH p true (pre ++ [NewArithmeticEvaluator])) with (after := after); auto; intros; [apply in_or_app; left; auto|]. exists NewArithmeticEvaluator. split; [apply in_or_app; right; left; reflexivity|intros; exact I].
    + apply (IH p true (pre ++ [NewBooleanEvaluator])) with (after := after); auto; intros; [apply in_or_app; left; auto|]. exists NewBooleanEvaluator. split; [apply in_or_app; right; left; reflexivity|intros; exact I].
    + apply andb_true_iff in H as [_ H]. apply (IH p e (pre ++ [LookUp k0])) with (after := after); auto; intros; [apply in_or_app; left; auto|]. destruct (He H0) as [a [Ha Hk]]. exists a. split; [apply in_or_app; auto|auto].
Qed.
Lemma proper_check : forall l, in_order false false l = true -> proper l.
Proof. intros l H before k after E. apply (in_order_proper l false false [] ltac:(discriminate) ltac:(discriminate) H before k after E). Qed.

Lemma initial_good : forall scripts, (forall l, In l scripts -> proper l) -> good_state (initial scripts).
Proof.
  intros scripts H. split.
  - intros k i Hk. discriminate Hk.
  - intros t Hin. cbn in Hin. apply in_map_iff in Hin as (l & <- & Hl). cbn. split.
    + apply proper_safe; auto.
    + intros k o [].
Qed.

Lemma lookups_served : forall scripts schedule, (forall l, In l scripts -> proper l) ->
  forall t k o, In t (threads (rrun (initial scripts) schedule)) -> In (k, o) (seen t) ->
  exists c, o = Some c /\ serving_class k = Some c.
Proof.
  intros scripts schedule H t k o Ht Hk.
  destruct (run_good schedule _ (initial_good scripts H)) as [_ Hg].
  destruct (Hg t Ht) as [_ Hlog]. destruct (Hlog k o Hk) as [Hn Ho].
  destruct o as [c|]; [|congruence]. exists c; auto.
Qed.

(** A lookup of a type or a function by a thread that has only constructed a parser can find nothing. *)
Lemma parser_only_refuted : forall k, serving_class k <> None -> ~ operator_key k -> exists schedule t,
  In t (threads (rrun (initial [[NewParser; LookUp k]]) schedule)) /\ In (k, None) (seen t).
Proof.
  intros k H O. exists (repeat 0 17), (RThread [] [(k, None)]).
  assert (E : threads (rrun (initial [[NewParser; LookUp k]]) (repeat 0 17)) = [RThread [] [(k, None)]]) by (destruct k as [o|o|[]|[]]; try (exfalso; apply O; exact I); vm_compute; reflexivity).
  rewrite E. split; left; reflexivity.
Qed.

(** Running one thread alone. *)
Lemma run_puts_alone : forall l r log, (forall k i, In (k, i) l -> serving_class k = Some i) ->
  forall k, reg (rrun (RState r [RThread (puts_of l) log]) (repeat 0 (length l))) k =
            if in_dec rkey_eq_dec k (map fst l) then serving_class k else r k.
Proof.
  induction l as [|[k0 i0] l IH]; intros r log Hl k; [reflexivity|].
  cbn [length repeat puts_of map fst snd rrun fold_left]. unfold rstep at 2. cbn [nth_error threads todo run_action reg update seen].
  change (fold_left rstep (repeat 0 (length l))) with (fun s => rrun s (repeat 0 (length l))). cbv beta.
  change (map (fun e => Put (fst e) (snd e)) l) with (puts_of l). rewrite IH by (intros; apply Hl; right; auto).
  destruct (in_dec rkey_eq_dec k (map fst l)); destruct (in_dec rkey_eq_dec k (k0 :: map fst l)) as [i'|n0]; auto.
  - exfalso. apply n0. right; auto.
  - unfold put. destruct i' as [->|i']; [|contradiction]. destruct (rkey_eq_dec k k); [|congruence].
    symmetry. apply Hl. left; auto.
  - unfold put. destruct (rkey_eq_dec k0 k); auto. exfalso. apply n0. left; auto.
Qed.

Lemma construction_resets : forall r log k, serving_class k <> None ->
  reg (rrun (RState r [RThread (program [NewBooleanEvaluator]) log]) (repeat 0 (length (program [NewBooleanEvaluator])))) k = serving_class k.
Proof.
  intros r log k Hk. unfold program. cbn [flat_map actions]. rewrite app_nil_r.
  replace (length (puts_of bool_evaluator_puts)) with (length bool_evaluator_puts) by reflexivity.
  rewrite run_puts_alone by exact (all_served_spec _ served_b).
  destruct (in_dec rkey_eq_dec k (map fst bool_evaluator_puts)); auto. exfalso. apply n, bool_keys; auto.
Qed.

(** ** Executions without synchronisation *)
Lemma safe_served : forall l h, safe h l -> forall i k c, nth_error l i = Some (Put k c) -> serving_class k = Some c.
Proof.
  induction l as [|[k0 c0|k0] l IH]; intros h S [|i] k c N; cbn in *; try discriminate; destruct S as [S1 S2].
  - injection N as <- <-. exact S1.
  - eapply IH; eauto.
  - eapply IH; eauto.
Qed.
Lemma safe_earlier : forall l h, safe h l -> forall i k, nth_error l i = Some (Get k) -> h k \/ exists j c, j < i /\ nth_error l j = Some (Put k c).
Proof.
  induction l as [|[k0 c0|k0] l IH]; intros h S [|i] k N; cbn in *; try discriminate; destruct S as [S1 S2].
  - destruct (IH _ S2 i k N) as [[->|H]|[j [c [L P]]]]; [right; exists 0, c0; split; [lia|reflexivity]|left; exact H|right; exists (S j), c; split; [lia|exact P]].
  - injection N as <-. left. exact S1.
  - destruct (IH _ S2 i k N) as [H|[j [c [L P]]]]; [left; exact H|right; exists (S j), c; split; [lia|exact P]].
Qed.
Lemma lookups_served_racy : forall scripts X e k, (forall l, In l scripts -> proper l) -> programs X = map program scripts -> consistent X ->
  action_at X e = Some (Get k) -> exists c, found X e = Some c /\ serving_class k = Some c.
Proof.
  intros scripts X [t i] k P Px [PO C] A.
  assert (SF : forall w a, action_at X w = Some a -> exists p, nth_error (programs X) (fst w) = Some p /\ nth_error p (snd w) = Some a /\ safe (fun _ => False) p).
  { intros w a Aw. unfold action_at in Aw. destruct (nth_error (programs X) (fst w)) as [p|] eqn:N; [|discriminate]. exists p. split; [reflexivity|]. split; [exact Aw|].
    apply nth_error_In in N. rewrite Px in N. apply in_map_iff in N. destruct N as [l [<- Il]]. apply proper_safe, P, Il. }
  specialize (C (t, i) k A). unfold found. destruct (source_of X (t, i)) as [|w].
  - exfalso. destruct (SF _ _ A) as [p [N [Ni S]]]. cbn [fst snd] in *. destruct (safe_earlier p _ S i k Ni) as [[]|[j [c [L Pj]]]].
    apply (C (t, j) c); [unfold action_at; cbn [fst snd]; rewrite N; exact Pj|apply PO, L].
  - destruct C as [[c Aw] _]. rewrite Aw. exists c. split; [reflexivity|]. destruct (SF _ _ Aw) as [p [_ [Nw S]]]. exact (safe_served p _ S _ _ _ Nw).
Qed.

(** two threads without any synchronisation; the lookup of the first finds what the second has put *)
Definition racy_scripts : list (list activity) := [[NewArithmeticEvaluator; LookUp (KFunction F_MIN)]; [NewArithmeticEvaluator]].
Definition racy : execution :=
  Execution (map program racy_scripts) (fun a b => fst a = fst b /\ snd a < snd b) (fun _ => Write (1, 24)).
Lemma racy_case : (forall l, In l racy_scripts -> proper l) /\ consistent racy /\ action_at racy (0, 34) = Some (Get (KFunction F_MIN)) /\
  action_at racy (1, 24) = Some (Put (KFunction F_MIN) (J "MinFunction")) /\ found racy (0, 34) = Some (J "MinFunction").
Proof.
  assert (A1 : action_at racy (0, 34) = Some (Get (KFunction F_MIN))) by reflexivity.
  assert (A2 : action_at racy (1, 24) = Some (Put (KFunction F_MIN) (J "MinFunction"))) by reflexivity.
  split; [|split; [|auto]].
  - intros l [<-|[<-|[]]]; apply proper_check; reflexivity.
  - split; [intros t i j L; split; [reflexivity|exact L]|]. intros [t i] k A. cbn [source_of racy].
    assert (K : (t, i) = (0, 34) /\ k = KFunction F_MIN).
    { unfold action_at in A. cbn [programs racy fst snd] in A. destruct t as [|[|t]].
      - cbn [nth_error map] in A. do 34 (destruct i as [|i]; [vm_compute in A; discriminate|]). destruct i as [|i]; [vm_compute in A; injection A as <-; auto|]. vm_compute in A. destruct i; discriminate.
      - cbn [nth_error map] in A. do 34 (destruct i as [|i]; [vm_compute in A; discriminate|]). vm_compute in A. destruct i; discriminate.
      - cbn in A. destruct t; discriminate. }
    destruct K as [Ke ->]. injection Ke as -> ->. split; [eexists; exact A2|]. split; [intros [H _]; discriminate|].
    intros w' c _ [[H1 _] [H2 _]]. cbn in *. congruence.
Qed.
