(** Properties: the specifications of operators and functions leave one outcome, which is the one computed. *)
From Coq Require Import QArith.
From Verif Require Import Base JNum BigDec Dates Values Ops Funcs Ast Eval SpecNum SpecBool SpecCompare SpecArith SpecFunc SpecDate SpecMixed SpecCompute SpecCall SpecList SpecScale SpecExact CompareWitness ExactFacts.
Local Open Scope Z_scope.

(** C76: an operator on any two values gives the one result that the specification allows, and no other. *)
Theorem C76_operator : forall E d l r op v w, arithmetic op -> arith_eval E d l = Ok v -> arith_eval E d r = Ok w -> genuine v -> genuine w ->
  forall x, operation E op v w x <-> arith_eval E d (bin l op r) = x.
Proof. exact operator_determined. Qed.
Print Assumptions C76_operator.
(** C76: the same for a negation. *)
Theorem C76_negation : forall E d n v, arith_eval E d n = Ok v -> genuine v -> forall x, negation v x <-> arith_eval E d (neg n) = x.
Proof. exact negation_determined. Qed.
Print Assumptions C76_negation.
(** C76: the same for a call. *)
Theorem C76_call : forall E d f items ms, calendar (today E) -> arguments E d items ms -> Forall genuine ms ->
  forall x, call E f ms x <-> arith_eval E d (NFunc f items) = x.
Proof. exact call_determined. Qed.
Print Assumptions C76_call.

(** Case: a decimal and an integer, the negative of a decimal, a sum over a list of the data; other representations of the same number are not allowed. *)
Example C76_case : let d := [(J "p", VDec (BD 150 2)); (J "l", VColl true [VInt 4; VLong 5])] in let E := witness_env in
  let p := NField (Some (J "p")) in let l := NField (Some (J "l")) in
  arithmetic ADD /\ arith_eval E d p = Ok (VDec (BD 150 2)) /\ genuine (VDec (BD 150 2)) /\ genuine (VInt 4) /\ genuine VNull /\ calendar (today E) /\
  arguments E d [p; l] [VDec (BD 150 2); VInt 4; VLong 5] /\
  operation E ADD (VDec (BD 150 2)) (VInt 4) (Ok (VDec (BD 550 2))) /\ ~ operation E ADD (VDec (BD 150 2)) (VInt 4) (Ok (VDec (BD 55 1))) /\
  operation E ADD VNull (VInt 4) (Ok (VStr (J "null4"))) /\ operation E SUBTRACT VNull (VInt 4) (Err InvalidDataType) /\
  negation (VDec (BD 150 2)) (Ok (VDec (BD (-150) 2))) /\ ~ negation (VDec (BD 150 2)) (Ok (VDec (BD (-15) 1))) /\
  call E F_SUM [VDec (BD 150 2); VInt 4; VLong 5] (Ok (VDec (BD 1050 2))) /\ ~ call E F_SUM [VDec (BD 150 2); VInt 4; VLong 5] (Ok (VDec (BD 105 1))).
Proof.
  cbv zeta. set (E := witness_env). set (d := [(J "p", VDec (BD 150 2)); (J "l", VColl true [VInt 4; VLong 5])]).
  assert (P : arith_eval E d (NField (Some (J "p"))) = Ok (VDec (BD 150 2))) by reflexivity.
  assert (Gp : genuine (VDec (BD 150 2))) by (exists DECIMAL; left; constructor).
  assert (G4 : genuine (VInt 4)) by (exists INTEGER; left; apply stands_int; lia).
  assert (G5 : genuine (VLong 5)) by (exists LONG; left; apply stands_long; lia).
  assert (Gn : genuine VNull) by (exists STRING; right; left; auto).
  assert (A : arguments E d [NField (Some (J "p")); NField (Some (J "l"))] [VDec (BD 150 2); VInt 4; VLong 5]).
  { exists [VDec (BD 150 2); VColl true [VInt 4; VLong 5]]. split; [repeat constructor|reflexivity]. }
  assert (C : calendar (today E)) by (exists 31; split; [apply days31; cbn; tauto|cbn; lia]).
  assert (Four : arith_eval E d (NUnary INTEGER (VInt 4)) = Ok (VInt 4)) by reflexivity.
  assert (Null : arith_eval E d (NUnary DATE VNull) = Ok VNull) by reflexivity.
  pose proof (C76_operator E d _ _ ADD _ _ ltac:(cbn; tauto) P Four Gp G4) as Plus.
  pose proof (C76_operator E d _ _ ADD _ _ ltac:(cbn; tauto) Null Four Gn G4) as PlusNull.
  pose proof (C76_operator E d _ _ SUBTRACT _ _ ltac:(cbn; tauto) Null Four Gn G4) as MinusNull.
  pose proof (C76_negation E d _ _ P Gp) as Minus.
  pose proof (C76_call E d F_SUM _ _ C A ltac:(repeat (apply Forall_cons; [assumption|]); apply Forall_nil)) as Sum.
  split; [cbn; tauto|]. do 5 (split; [assumption|]). split; [exact A|].
  split; [apply Plus; vm_compute; reflexivity|]. split; [intros X; apply Plus in X; vm_compute in X; discriminate X|].
  split; [apply PlusNull; vm_compute; reflexivity|]. split; [apply MinusNull; vm_compute; reflexivity|].
  split; [apply Minus; vm_compute; reflexivity|]. split; [intros X; apply Minus in X; vm_compute in X; discriminate X|].
  split; [apply Sum; vm_compute; reflexivity|]. intros X; apply Sum in X; vm_compute in X; discriminate X.
Qed.
