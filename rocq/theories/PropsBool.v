(** C01, C02: boolean connectives. *)
From Verif Require Import Base JNum Values Ops Ast Eval SpecBool BoolFacts.

(** C01: the evaluator computes exactly the left-to-right short-circuit meaning. *)
Theorem C01_short_circuit_meaning : forall E d f r,
  (exists consulted, means (bool_eval E d) f r consulted) <-> bool_eval E d (tree_of f) = r.
Proof. exact means_iff_eval. Qed.
Print Assumptions C01_short_circuit_meaning.

(** C01: when every leaf succeeds the result is the classical truth value. *)
Theorem C01_classical_value : forall E d v f,
  (forall n, In n (leaves f) -> bool_eval E d n = Ok (v n)) -> bool_eval E d (tree_of f) = Ok (truth v f).
Proof. exact eval_truth. Qed.
Print Assumptions C01_classical_value.

(** C01: a failure is the failure of the last consulted leaf; all leaves consulted before it succeeded. *)
Theorem C01_failure_is_a_leafs : forall E d f e, bool_eval E d (tree_of f) = Err e ->
  exists n before, means (bool_eval E d) f (Err e) (before ++ [n]) /\ In n (leaves f) /\ bool_eval E d n = Err e /\
    forall m, In m before -> exists b, bool_eval E d m = Ok b.
Proof. exact eval_fail_leaf. Qed.
Print Assumptions C01_failure_is_a_leafs.

(** A false left operand hides a failing right operand; the order matters. *)
Definition missing : node := NCmp (NField (Some (J "zz"))) (NUnary INTEGER (VInt 1)) EQUALS INTEGER.
Definition a_is_1 : node := NCmp (NField (Some (J "a"))) (NUnary INTEGER (VInt 1)) EQUALS INTEGER.
Definition some_env : env := Env (Dates.Date 2024 1 1) (fun _ _ => DNaN) (fun _ _ => DNaN).
Example C01_case : let d := [(J "a", VInt 2)] in
  bool_eval some_env d (tree_of (And (Leaf a_is_1) (Leaf missing))) = Ok false /\
  bool_eval some_env d (tree_of (And (Leaf missing) (Leaf a_is_1))) = Err DataNotFound /\
  bool_eval some_env d (tree_of (Or (Not (Leaf a_is_1)) (Leaf missing))) = Ok true.
Proof. vm_compute. auto. Qed.

(** C02: laws between whole results, failures included. *)
Theorem C02_laws : forall E d, let ev f := bool_eval E d (tree_of f) in forall f g h,
  ev (Not (Not f)) = ev f /\
  ev (Not (And f g)) = ev (Or (Not f) (Not g)) /\
  ev (Not (Or f g)) = ev (And (Not f) (Not g)) /\
  ev (And (And f g) h) = ev (And f (And g h)) /\
  ev (Or (Or f g) h) = ev (Or f (Or g h)) /\
  ev (And f f) = ev f /\
  ev (Or f f) = ev f /\
  ev (And f (Or g h)) = ev (Or (And f g) (And f h)) /\
  ev (Or f (And g h)) = ev (And (Or f g) (Or f h)).
Proof. exact bool_laws. Qed.
Print Assumptions C02_laws.

(** C02: AND and OR commute when both operands succeed. *)
Theorem C02_commutative : forall E d, let ev f := bool_eval E d (tree_of f) in forall f g a b,
  ev f = Ok a -> ev g = Ok b -> ev (And f g) = ev (And g f) /\ ev (Or f g) = ev (Or g f).
Proof. exact bool_commutative. Qed.
Print Assumptions C02_commutative.

(** ... and not in general when one fails. *)
Theorem C02_commutative_failing_refuted : exists E d f g,
  bool_eval E d (tree_of (And f g)) <> bool_eval E d (tree_of (And g f)).
Proof. exact bool_not_commutative. Qed.
Print Assumptions C02_commutative_failing_refuted.

Example C02_case : let d := [(J "a", VInt 1)] in
  bool_eval some_env d (tree_of (Leaf a_is_1)) = Ok true /\ bool_eval some_env d (tree_of (Leaf missing)) = Err DataNotFound.
Proof. vm_compute. auto. Qed.
