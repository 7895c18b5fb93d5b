(** C67: the arithmetic operators on values of any two types. *)
From Coq Require Import QArith Lia.
From Verif Require Import Base JNum BigDec Dates Version Values Ops Funcs Ast Eval SpecNum SpecDate SpecArith SpecCompare CompareWitness SpecMixed SpecCompute ComputeFacts.

(** C67: the outcome of every operation on two values. If the operator does not support the type of one of them, the operation is
    refused; if one of them is textual (which only + supports), the texts are put together; otherwise both are numbers and the
    result is that of [computes]. *)
Theorem C67_arithmetic : forall E d l r op v w a b, arithmetic op -> arith_eval E d l = Ok v -> arith_eval E d r = Ok w -> stands v a -> stands w b ->
  (~ (supported op a /\ supported op b) -> arith_eval E d (bin l op r) = Err InvalidDataType) /\
  (supported op a -> supported op b -> wordy a \/ wordy b -> arith_eval E d (bin l op r) = Ok (VStr (show v ++ show w))) /\
  (supported op a -> supported op b -> ~ wordy a -> ~ wordy b ->
     exists p q, number v p /\ number w q /\ computes E op a b p q (arith_eval E d (bin l op r))).
Proof. exact any_arithmetic. Qed.
Print Assumptions C67_arithmetic.

(** C67: NaN and the infinities are refused on both sides by every operator. *)
Theorem C67_not_finite : forall E d l r op v w dbl t, arithmetic op -> arith_eval E d l = Ok v -> arith_eval E d r = Ok w -> not_finite t ->
  v = VFloat dbl t \/ w = VFloat dbl t -> arith_eval E d (bin l op r) = Err InvalidDataType.
Proof. exact not_finite_arithmetic. Qed.
Print Assumptions C67_not_finite.

(** C67: the negation of every value. *)
Theorem C67_negation : forall E d n v a, arith_eval E d n = Ok v -> stands v a -> negates v (arith_eval E d (neg n)).
Proof. exact any_negation. Qed.
Print Assumptions C67_negation.

Example C67_case : stands (VLong 7) LONG /\ stands (VFloat true (J "1.5")) DECIMAL /\ stands (VBool true) BOOLEAN /\
  supported ADD BOOLEAN /\ ~ supported SUBTRACT BOOLEAN /\ ~ supported MODULUS DECIMAL /\ not_finite (J "NaN") /\
  arith_eval witness_env [] (bin (lit (VLong 7)) SUBTRACT (lit (VInt 9))) = Ok (VLong (-2)) /\
  arith_eval witness_env [] (bin (lit (VLong 7)) ADD (lit (VInt 9))) = Ok (VInt 16) /\
  arith_eval witness_env [] (bin (lit (VLong 7)) MULTIPLY (lit (VFloat true (J "1.5")))) = Ok (VDec (BD 105 1)) /\
  arith_eval witness_env [] (bin (lit (VInt 2)) ADD (lit (VBool true))) = Ok (VStr (J "2true")) /\
  arith_eval witness_env [] (bin (lit (VInt 2)) DIVIDE (lit (VLong 3))) = Ok (VDec (BD 666 3)) /\
  arith_eval witness_env [] (bin (lit (VInt (-7))) MODULUS (lit (VLong 3))) = Ok (VLong (-1)) /\
  arith_eval witness_env [] (neg (lit (VInt (-2147483648)))) = Ok (VInt (-2147483648)) /\
  arith_eval witness_env [] (bin (lit (VInt 2)) EXPONENT (lit (VInt 3))) = Err NumberFormat.
Proof.
  split; [apply stands_long; lia|]. split; [apply stands_float with (q := (3 # 2)%Q); exists false, (J "1"), (J "5"), None; repeat split; try discriminate; cbn; lia|]. split; [apply stands_bool|].
  split; [cbn; tauto|]. split; [cbn; intuition discriminate|]. split; [cbn; intuition discriminate|]. split; [left; reflexivity|].
  repeat split; vm_compute; reflexivity.
Qed.
