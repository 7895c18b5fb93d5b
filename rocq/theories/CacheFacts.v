(** Proofs about the caching parser. *)
From Verif Require Import Base Ast Api Cache SpecCache.

Lemma jstr_eqb_eq : forall a b, jstr_eqb a b = true <-> a = b.
Proof.
  induction a as [|x a IH]; intros [|y b]; cbn; split; intros H; try discriminate; auto.
  - apply andb_true_iff in H as [H1 H2]. apply N.eqb_eq in H1. apply IH in H2. congruence.
  - injection H as -> ->. rewrite N.eqb_refl. apply IH; auto.
Qed.
Lemma jstr_eqb_refl : forall a, jstr_eqb a a = true.
Proof. intros. apply jstr_eqb_eq; auto. Qed.

Lemma cache_key_text : forall x d, cache_key x d = x ++ J "_" ++ text_of d.
Proof. reflexivity. Qed.

Lemma find_filter : forall c k k' n, cache_find k (filter (fun e => negb (jstr_eqb (fst e) k')) c) = Some n -> cache_find k c = Some n.
Proof.
  induction c as [|[k0 n0] c IH]; cbn; intros k k' n H; [discriminate|].
  destruct (jstr_eqb k0 k') eqn:E1; cbn in H.
  - destruct (jstr_eqb k0 k) eqn:E2; [|eauto]. apply jstr_eqb_eq in E1, E2. subst.
    exfalso. clear IH. revert H. induction c as [|[k1 n1] c IH]; cbn; [discriminate|].
    destruct (jstr_eqb k1 k) eqn:E3; cbn; auto. rewrite E3; auto.
  - destruct (jstr_eqb k0 k); eauto.
Qed.
Lemma find_filter_other : forall c k k', k <> k' -> cache_find k (filter (fun e => negb (jstr_eqb (fst e) k')) c) = cache_find k c.
Proof.
  induction c as [|[k0 n0] c IH]; cbn; intros k k' H; auto.
  destruct (jstr_eqb k0 k') eqn:E1; cbn.
  - apply jstr_eqb_eq in E1; subst. destruct (jstr_eqb k' k) eqn:E2; auto. apply jstr_eqb_eq in E2; congruence.
  - rewrite IH by auto; auto.
Qed.

(** Invariant: every entry came from a call of the history (past, or all of it). *)
Definition sound (es : list cevent) (c : cache) : Prop :=
  forall k n, cache_find k c = Some n -> exists x d, In (Call x d) es /\ cache_key x d = k /\ parse_expression x d = Ok n.

Lemma sound_step : forall es c e, In e es -> sound es c -> sound es (fst (cstep c e)).
Proof.
  intros es c [x d|k'] He Hs; cbn.
  - destruct (cache_find (cache_key x d) c) eqn:Hf; cbn; auto.
    destruct (parse_expression x d) eqn:Hp; cbn; auto.
    intros k n. cbn. destruct (jstr_eqb (cache_key x d) k) eqn:E; [|auto].
    intros [= <-]. apply jstr_eqb_eq in E. eauto.
  - intros k n H. apply find_filter in H. auto.
Qed.

Lemma transparent_from : forall all es c, collision_free all -> (forall e, In e es -> In e all) -> sound all c ->
  map (option_map result) (snd (crun c es)) = map plain es.
Proof.
  intros all es. induction es as [|e es IH]; intros c Hcf Hin Hs; auto.
  cbn [crun map]. pose proof (sound_step all c e (Hin _ (or_introl eq_refl)) Hs) as Hs'.
  destruct (cstep c e) as [c1 o] eqn:Hst. specialize (IH c1 Hcf (fun e H => Hin e (or_intror H)) Hs').
  destruct (crun c1 es) as [c2 os]. cbn in IH |- *. f_equal; auto.
  destruct e as [x d|k']; cbn in Hst |- *.
  - destruct (cache_find (cache_key x d) c) eqn:Hf.
    + injection Hst as <- <-. cbn. destruct (Hs _ _ Hf) as (x' & d' & Hi & Hk & Hp).
      rewrite !cache_key_text in Hk.
      destruct (Hcf x' d' x d Hi (Hin _ (or_introl eq_refl)) Hk) as [-> ->]. congruence.
    + destruct (parse_expression x d); injection Hst as <- <-; auto.
  - injection Hst as <- <-. auto.
Qed.

Lemma cache_transparent : forall es, collision_free es -> map (option_map result) (snd (crun [] es)) = map plain es.
Proof. intros. apply transparent_from with es; auto. intros k n H'. discriminate H'. Qed.

Lemma one_default_collision_free : forall dflt es, one_default dflt es -> collision_free es.
Proof.
  intros dflt es H x1 d1 x2 d2 H1 H2 E. rewrite (H _ _ H1), (H _ _ H2) in *. split; auto.
  apply app_inv_tail in E; auto.
Qed.

Lemma cache_transparent_one_default : forall dflt es, one_default dflt es ->
  map (option_map result) (snd (crun [] es)) = map plain es.
Proof. eauto using cache_transparent, one_default_collision_free. Qed.

Lemma cache_collision : exists es, map (option_map result) (snd (crun [] es)) <> map plain es.
Proof.
  exists [Call (J "> a") (Some (J "b_c")); Call (J "> a_b") (Some (J "c"))].
  vm_compute. discriminate.
Qed.

Lemma cache_absent_vs_empty : exists x, map (option_map result) (snd (crun [] [Call x None; Call x (Some [])])) <>
  map plain [Call x None; Call x (Some [])].
Proof. exists (J "> a"). vm_compute. discriminate. Qed.

Lemma failure_not_cached : forall c x d c' e p, cstep c (Call x d) = (c', Some (Outcome (Err e) p)) ->
  c' = c /\ parse_expression x d = Err e /\ cstep c' (Call x d) = (c', Some (Outcome (Err e) true)).
Proof.
  intros c x d c' e p H. cbn in H |- *. destruct (cache_find (cache_key x d) c) eqn:Hf; [discriminate|].
  destruct (parse_expression x d) eqn:Hp; [discriminate|]. injection H as <- <- <-. rewrite Hf. auto.
Qed.

Lemma find_stays : forall es c k n, cache_find k c = Some n -> ~ In (Evict k) es -> cache_find k (fst (crun c es)) = Some n.
Proof.
  induction es as [|e es IH]; intros c k n Hf Hne; auto.
  cbn [crun]. destruct (cstep c e) as [c1 o] eqn:Hst.
  assert (Hf1 : cache_find k c1 = Some n).
  { destruct e as [x d|k']; cbn in Hst.
    - destruct (cache_find (cache_key x d) c) eqn:Hf2; [injection Hst as <- <-; auto|].
      destruct (parse_expression x d); injection Hst as <- <-; auto. cbn.
      destruct (jstr_eqb (cache_key x d) k) eqn:E; auto. apply jstr_eqb_eq in E; congruence.
    - injection Hst as <- <-. rewrite find_filter_other; auto. intros ->. apply Hne; left; auto. }
  specialize (IH c1 k n Hf1 (fun H => Hne (or_intror H))). destruct (crun c1 es). auto.
Qed.

Lemma success_kept : forall c x d c1 n p es, cstep c (Call x d) = (c1, Some (Outcome (Ok n) p)) ->
  ~ In (Evict (x ++ J "_" ++ text_of d)) es ->
  let c2 := fst (crun c1 es) in cstep c2 (Call x d) = (c2, Some (Outcome (Ok n) false)).
Proof.
  intros c x d c1 n p es H Hne c2.
  assert (Hf : cache_find (cache_key x d) c1 = Some n).
  { cbn in H. destruct (cache_find (cache_key x d) c) eqn:Hf.
    - injection H as <- <- <-. auto.
    - destruct (parse_expression x d); [|discriminate]. injection H as <- <- <-. cbn. rewrite jstr_eqb_refl; auto. }
  apply (find_stays es) in Hf; auto. fold c2 in Hf. cbn. rewrite Hf. auto.
Qed.

Lemma failure_repeats : forall x d e es, collision_free (Call x d :: es) -> parse_expression x d = Err e ->
  forall c, c = fst (crun [] es) -> cstep c (Call x d) = (c, Some (Outcome (Err e) true)).
Proof.
  intros x d e es Hcf Hp c ->.
  assert (Hs : forall es' c, (forall e, In e es' -> In e (Call x d :: es)) -> sound (Call x d :: es) c -> sound (Call x d :: es) (fst (crun c es'))).
  { induction es' as [|e' es' IH]; intros c Hin Hs; auto. cbn.
    pose proof (sound_step _ c e' (Hin _ (or_introl eq_refl)) Hs) as H1. destruct (cstep c e') as [c1 o].
    specialize (IH c1 (fun e H => Hin e (or_intror H)) H1). destruct (crun c1 es'). auto. }
  specialize (Hs es [] (fun e H => or_intror H)). cbn.
  destruct (cache_find (cache_key x d) (fst (crun [] es))) eqn:Hf.
  - destruct (Hs ltac:(intros k' n' H'; discriminate H') _ _ Hf) as (x' & d' & Hi & Hk & Hp').
    rewrite !cache_key_text in Hk. destruct (Hcf x' d' x d Hi (or_introl eq_refl) Hk) as [-> ->]. congruence.
  - rewrite Hp. auto.
Qed.
