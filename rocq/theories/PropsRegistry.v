(** C46: concurrent construction and lookup. *)
From Verif Require Import Base Values Ops Funcs Registry SpecRegistry RegistryFacts.

(** C46: any number of threads, each constructing an evaluator before it evaluates and a parser or an evaluator before it parses, in any
    interleaving: every lookup finds an implementation, and the right one. *)
Theorem C46_lookups_served : forall scripts schedule, (forall l, In l scripts -> proper l) ->
  forall t k o, In t (threads (rrun (initial scripts) schedule)) -> In (k, o) (seen t) ->
  exists c, o = Some c /\ serving_class k = Some c.
Proof. exact lookups_served. Qed.
Print Assumptions C46_lookups_served.

(** C46: the same for every execution the Java memory model allows, with whatever synchronisation there is or is not. *)
Theorem C46_lookups_served_racy : forall scripts X e k, (forall l, In l scripts -> proper l) -> programs X = map program scripts -> consistent X ->
  action_at X e = Some (Get k) -> exists c, found X e = Some c /\ serving_class k = Some c.
Proof. exact lookups_served_racy. Qed.
Print Assumptions C46_lookups_served_racy.

(** Without an evaluator of its own (a parser is not enough) a thread can find no type and no function. *)
Theorem C46_parser_only_refuted : forall k, serving_class k <> None -> ~ operator_key k -> exists schedule t,
  In t (threads (rrun (initial [[NewParser; LookUp k]]) schedule)) /\ In (k, None) (seen t).
Proof. exact parser_only_refuted. Qed.
Print Assumptions C46_parser_only_refuted.

(** Two threads, interleaved; the second looks up while the first, which only has a parser, is still constructing. *)
Definition two_scripts : list (list activity) :=
  [[NewParser; LookUp (KLogical EQUALS); NewBooleanEvaluator; LookUp (KType DATE)]; [NewArithmeticEvaluator; LookUp (KFunction F_MIN); LookUp (KType LONG)]].
Example C46_case : (forall l, In l two_scripts -> proper l) /\
  map seen (threads (rrun (initial two_scripts) (repeat 0 5 ++ repeat 1 35 ++ repeat 0 14 ++ [1] ++ repeat 1 5))) =
  [[(KLogical EQUALS, Some (J "EqualsOperator"))]; [(KFunction F_MIN, Some (J "MinFunction")); (KType LONG, Some (J "LongDataType"))]] /\
  serving_class (KType STRING) <> None /\ ~ operator_key (KType STRING).
Proof.
  split; [intros l [<-|[<-|[]]]; apply proper_check; reflexivity|]. split; [vm_compute; reflexivity|]. split; [discriminate|exact (fun x => x)].
Qed.

Example C46_racy_case : (forall l, In l racy_scripts -> proper l) /\ consistent racy /\ action_at racy (0, 34) = Some (Get (KFunction F_MIN)) /\
  action_at racy (1, 24) = Some (Put (KFunction F_MIN) (J "MinFunction")) /\ found racy (0, 34) = Some (J "MinFunction").
Proof. exact racy_case. Qed.

(** C47 (expected: a registered data type stays in effect; refuted for every type): whatever the registry holds - in
    particular a user's own implementation of the type - constructing an evaluator puts the built-in one back. *)
Theorem C47_registration_refuted : forall r log k, serving_class k <> None ->
  reg (rrun (RState r [RThread (program [NewBooleanEvaluator]) log]) (repeat 0 (length (program [NewBooleanEvaluator])))) k = serving_class k.
Proof. exact construction_resets. Qed.
Print Assumptions C47_registration_refuted.

Example C47_case :
  let r := put (KType STRING) (J "MyStringType") empty_registry in
  r (KType STRING) = Some (J "MyStringType") /\ serving_class (KType STRING) = Some (J "StringDataType").
Proof. vm_compute. auto. Qed.
