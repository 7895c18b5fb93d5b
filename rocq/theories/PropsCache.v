(** C42, C43: the caching parser. *)
From Verif Require Import Base Values Ops Ast Api Cache SpecCache CacheFacts.

(** C42: for every history of calls with evictions anywhere, each call returns what the plain parser returns. *)
Theorem C42_transparent : forall es, collision_free es ->
  map (option_map result) (snd (crun [] es)) = map plain es.
Proof. exact cache_transparent. Qed.
Print Assumptions C42_transparent.

(** C42: in particular when the default field never changes. *)
Theorem C42_transparent_one_default : forall dflt es, one_default dflt es ->
  map (option_map result) (snd (crun [] es)) = map plain es.
Proof. exact cache_transparent_one_default. Qed.
Print Assumptions C42_transparent_one_default.

(** C42 without the proviso is false: an underscore in the default field can be read as part of the expression ... *)
Theorem C42_transparent_refuted : exists es, map (option_map result) (snd (crun [] es)) <> map plain es.
Proof. exact cache_collision. Qed.
Print Assumptions C42_transparent_refuted.

(** ... and an absent default field is not told apart from an empty one. *)
Theorem C42_absent_default_refuted : exists x,
  map (option_map result) (snd (crun [] [Call x None; Call x (Some [])])) <> map plain [Call x None; Call x (Some [])].
Proof. exact cache_absent_vs_empty. Qed.
Print Assumptions C42_absent_default_refuted.

Definition history : list cevent :=
  [Call (J "a = 1") None; Call (J "(a = 1") None; Call (J "a = 1") None; Evict (J "a = 1_"); Call (J "a = 1") None].
Example C42_case : one_default None history /\
  map (option_map parsed) (snd (crun [] history)) = [Some true; Some true; Some false; None; Some true] /\
  exists n, plain (Call (J "a = 1") None) = Some (Ok n).
Proof.
  split; [|split; [vm_compute; auto|eexists; vm_compute; auto]].
  intros x d H. repeat (destruct H as [[= <- <-]|H] || destruct H as [[=]|H]); auto. destruct H.
Qed.

(** C43: a failing call leaves the cache as it was, and is parsed again (and fails again) when repeated. *)
Theorem C43_failure_not_cached : forall c x d c' e p, cstep c (Call x d) = (c', Some (Outcome (Err e) p)) ->
  c' = c /\ parse_expression x d = Err e /\ cstep c' (Call x d) = (c', Some (Outcome (Err e) true)).
Proof. exact failure_not_cached. Qed.
Print Assumptions C43_failure_not_cached.

(** C43: ... also after any collision-free history. *)
Theorem C43_failure_repeats : forall x d e es, collision_free (Call x d :: es) -> parse_expression x d = Err e ->
  forall c, c = fst (crun [] es) -> cstep c (Call x d) = (c, Some (Outcome (Err e) true)).
Proof. exact failure_repeats. Qed.
Print Assumptions C43_failure_repeats.

(** C43: a successful parse is not recomputed, whatever happens in between, until its entry is evicted. *)
Theorem C43_success_computed_once : forall c x d c1 n p es, cstep c (Call x d) = (c1, Some (Outcome (Ok n) p)) ->
  ~ In (Evict (x ++ J "_" ++ text_of d)) es ->
  let c2 := fst (crun c1 es) in cstep c2 (Call x d) = (c2, Some (Outcome (Ok n) false)).
Proof. exact success_kept. Qed.
Print Assumptions C43_success_computed_once.

Example C43_case : (exists n, cstep [] (Call (J "a = 1") None) = ([(J "a = 1_", n)], Some (Outcome (Ok n) true))) /\
  (exists e, cstep [] (Call (J "NOT a = 1 AND b") None) = ([], Some (Outcome (Err e) true))).
Proof. split; eexists; vm_compute; auto. Qed.
