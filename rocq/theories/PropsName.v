(** C12 - C14 for field names of any form: with empty pieces, dots at the end, or nothing but dots. *)
From Verif Require Import Base JNum BigDec Dates Version Values Ops Funcs Ast Eval Lexer Grammar Recover Listener Api SpecBool SpecCompare SpecPath SpecName NameFacts CompareWitness.

(** C12: every name that is not made of dots alone leads along some keys. *)
Theorem C12_every_name : forall s, (exists n, s = dots (S n)) \/ exists ks, leads_to s ks.
Proof. exact every_name. Qed.
Print Assumptions C12_every_name.

(** C12: the field has the value that walking along these keys finds. *)
Theorem C12_name_found : forall E d s ks v, proper_data d -> leads_to s ks ->
  (arith_eval E d (NField (Some s)) = Ok v <-> found d ks v).
Proof. exact name_found. Qed.
Print Assumptions C12_name_found.

(** C12: and is absent if there is none. *)
Theorem C12_name_absent : forall E d s ks, proper_data d -> leads_to s ks ->
  (arith_eval E d (NField (Some s)) = Err DataNotFound <-> forall v, ~ found d ks v).
Proof. exact name_absent. Qed.
Print Assumptions C12_name_absent.

(** C12: a name made of dots alone is not reported as absent: looking it up fails with an index out of bounds. *)
Theorem C12_only_dots_refuted : forall E d n, arith_eval E d (NField (Some (dots (S n)))) = Err ArrayIndexOutOfBounds.
Proof. exact only_dots. Qed.
Print Assumptions C12_only_dots_refuted.

Example C12_name_case :
  let d := [(J "a", VMap [([], VMap [(J "b", VInt 7)])]); ([], VInt 3)] in
  leads_to (J "a..b..") [J "a"; []; J "b"] /\ found d [J "a"; []; J "b"] (VInt 7) /\ J "..." = dots 3 /\
  evaluate_boolean witness_env (J "a..b.. = 7") d None = Ok true /\
  evaluate_boolean witness_env (J ".. = 7") d None = Err ArrayIndexOutOfBounds.
Proof.
  cbv zeta. split; [|split; [|split; [reflexivity|split; vm_compute; reflexivity]]].
  - apply (names_keys [J "a"; []; J "b"] 2); [discriminate| |discriminate].
    intros k [<-|[<-|[<-|[]]]]; cbn; intuition discriminate.
  - eapply found_step; [left; reflexivity|]. eapply found_step; [left; reflexivity|]. apply found_last; [left; reflexivity|discriminate].
Qed.

(** C13: an arithmetic expression that uses a field which no walk finds fails, whatever the form of its name. *)
Theorem C13_missing_name : forall E d n s, proper_data d -> In s (arith_fields n) ->
  (forall ks v, leads_to s ks -> ~ found d ks v) -> exists e, arith_eval E d n = Err e.
Proof. exact missing_arith_any. Qed.
Print Assumptions C13_missing_name.

(** C13: so does a boolean combination if a condition that is consulted uses it. *)
Theorem C13_missing_name_condition : forall E d phi r consulted n fs s, proper_data d ->
  (forall ks v, leads_to s ks -> ~ found d ks v) -> means (bool_eval E d) phi r consulted -> In n consulted ->
  condition n fs -> In s fs -> exists e, bool_eval E d (tree_of phi) = Err e.
Proof. exact missing_fails_any. Qed.
Print Assumptions C13_missing_name_condition.

(** C14: maps that give the same values along the keys of a name agree on the field of that name. *)
Theorem C14_same_name : forall d1 d2 s, proper_data d1 -> proper_data d2 ->
  (forall ks v, leads_to s ks -> (found d1 ks v <-> found d2 ks v)) -> same_field d1 d2 s.
Proof. exact name_same_field. Qed.
Print Assumptions C14_same_name.

Example C13_name_case :
  let n := NArith (NField (Some (J ".a"))) (Some (lit (VInt 1))) ADD in
  In (J ".a") (arith_fields n) /\ leads_to (J ".a") [[]; J "a"] /\
  arith_eval witness_env [(J "a", VInt 1)] n = Err DataNotFound /\
  arith_eval witness_env [([], VMap [(J "a", VInt 1)])] n = Ok (VInt 2).
Proof.
  cbv zeta. split; [left; reflexivity|]. split; [|split; reflexivity].
  apply (names_keys [[]; J "a"] 0); [discriminate| |discriminate]. intros k [<-|[<-|[]]]; cbn; intuition discriminate.
Qed.
