(** C12 - C14: fields. *)
From Verif Require Import Base JNum BigDec Dates Version Values Ops Funcs Ast Eval SpecBool SpecCompare SpecPath ValuesFacts FieldFacts CompareWitness.

(** C12: a dotted name has the value reached by walking the nested maps. *)
Theorem C12_path_found : forall E d ks v, proper_data d -> ks <> [] -> Forall component ks ->
  (arith_eval E d (NField (Some (path_text ks))) = Ok v <-> found d ks v).
Proof. exact field_found. Qed.
Print Assumptions C12_path_found.

(** C12: and is absent if there is none. *)
Theorem C12_path_absent : forall E d ks, proper_data d -> ks <> [] -> Forall component ks ->
  (arith_eval E d (NField (Some (path_text ks))) = Err DataNotFound <-> forall v, ~ found d ks v).
Proof. exact field_absent. Qed.
Print Assumptions C12_path_absent.

(** C12: keys that themselves contain a dot are never found. *)
Theorem C12_flat_key_never_found : forall E d ks, (forall k v, In (k, v) d -> In (ch ".") k) -> ks <> [] -> Forall component ks ->
  arith_eval E d (NField (Some (path_text ks))) = Err DataNotFound.
Proof. exact flat_key. Qed.
Print Assumptions C12_flat_key_never_found.

Example C12_case :
  let d := [(J "a", VMap [(J "b", VMap [(J "c", VInt 7)])]); (J "a.b", VInt 1)] in
  proper_data d /\ Forall component [J "a"; J "b"; J "c"] /\ found d [J "a"; J "b"; J "c"] (VInt 7) /\
  arith_eval witness_env d (NField (Some (J "a.b.c"))) = Ok (VInt 7) /\
  arith_eval witness_env [(J "a.b", VInt 1)] (NField (Some (J "a.b"))) = Err DataNotFound.
Proof.
  cbv zeta. split; [|split; [|split; [|split; reflexivity]]].
  - constructor.
    + repeat constructor; cbn; intuition discriminate.
    + intros k v [H|[H|[]]]; injection H as <- <-; [|apply proper_other; discriminate].
      constructor; [repeat constructor; cbn; tauto|]. intros k v [H|[]]; injection H as <- <-.
      constructor; [repeat constructor; cbn; tauto|]. intros k v [H|[]]; injection H as <- <-. apply proper_other; discriminate.
  - repeat constructor; try discriminate; cbn; intros [H|[]]; discriminate H.
  - eapply found_step; [left; reflexivity|]. eapply found_step; [left; reflexivity|]. apply found_last; [left; reflexivity|discriminate].
Qed.

(** C13: an arithmetic expression that uses a missing field fails. *)
Theorem C13_missing_arithmetic : forall E d n ks, proper_data d -> ks <> [] -> Forall component ks ->
  In (path_text ks) (arith_fields n) -> (forall v, ~ found d ks v) -> exists e, arith_eval E d n = Err e.
Proof. exact missing_arith. Qed.
Print Assumptions C13_missing_arithmetic.

(** C13: a boolean combination fails if a condition that is consulted uses a missing field. *)
Theorem C13_missing_condition : forall E d phi r consulted n fs ks, proper_data d -> ks <> [] -> Forall component ks ->
  (forall v, ~ found d ks v) -> means (bool_eval E d) phi r consulted -> In n consulted -> condition n fs ->
  In (path_text ks) fs -> exists e, bool_eval E d (tree_of phi) = Err e.
Proof. exact missing_fails. Qed.
Print Assumptions C13_missing_condition.

Example C13_case :
  let d := [(J "a", VInt 1)] in
  let n := cond (NField (Some (J "a"))) LESS_THAN (NArith (NField (Some (J "x"))) (Some (lit (VInt 1))) ADD) in
  let m := cond (NField (Some (J "a"))) EQUALS (lit (VInt 1)) in
  means (bool_eval witness_env d) (And (Leaf m) (Leaf n)) (Err DataNotFound) [m; n] /\ condition n [J "a"; J "x"] /\
  bool_eval witness_env d (NBool (NBool m None NOT) (Some n) AND) = Ok false.
Proof.
  cbv zeta. split; [|split; [|reflexivity]].
  - eapply (m_and_true _ _ _ _ [_] [_]).
    + match goal with |- means ?o (Leaf ?n) _ _ => change (Ok true) with (o n) end. constructor.
    + match goal with |- means ?o (Leaf ?n) _ _ => change (Err DataNotFound) with (o n) end. constructor.
  - unfold cond. match goal with |- condition (NCmp ?l ?r _ _) _ => change [J "a"; J "x"] with (arith_fields l ++ arith_fields r) end.
    apply cond_cmp; auto. intros ([H|H] & _); discriminate H.
Qed.

(** C14: the result of a boolean evaluation, success or failure, depends only on the fields mentioned. *)
Theorem C14_boolean_depends_on_fields : forall E d1 d2 n, (forall f, In f (bool_fields n) -> same_field d1 d2 f) ->
  bool_eval E d1 n = bool_eval E d2 n.
Proof. exact bool_same. Qed.
Print Assumptions C14_boolean_depends_on_fields.

(** C14: the same for arithmetic evaluation. *)
Theorem C14_arithmetic_depends_on_fields : forall E d1 d2 n, (forall f, In f (arith_fields n) -> same_field d1 d2 f) ->
  arith_eval E d1 n = arith_eval E d2 n.
Proof. exact arith_same. Qed.
Print Assumptions C14_arithmetic_depends_on_fields.

(** C14: maps in which the same values are reached along a path agree on the field of that name. *)
Theorem C14_same_field : forall d1 d2 ks, proper_data d1 -> proper_data d2 -> ks <> [] -> Forall component ks ->
  (forall v, found d1 ks v <-> found d2 ks v) -> same_field d1 d2 (path_text ks).
Proof. exact found_same_field. Qed.
Print Assumptions C14_same_field.

Example C14_case :
  let n := NBool (cond (NField (Some (J "a.b"))) EQUALS (lit (VInt 1))) (Some (NIn (Some (J "c")) [NField (Some (J "d"))])) AND in
  bool_fields n = [J "a.b"; J "c"; J "d"] /\
  same_field [(J "a", VMap [(J "b", VInt 1)]); (J "z", VNull)] [(J "a", VMap [(J "q", VInt 3); (J "b", VInt 1)])] (J "a.b").
Proof. split; [reflexivity|]. intros E. reflexivity. Qed.
