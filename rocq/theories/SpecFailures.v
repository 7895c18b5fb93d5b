(** Specification: how evaluations can fail. *)
From Verif Require Import Base.

(** The exceptions with which evaluating a text as an arithmetic expression can fail ... *)
Definition arithmetic_failures : list exn :=
  [DataNotFound; InvalidContainerType; InvalidDataType; InvalidExpression; InvalidFunctionArgument; UnsupportedToken;
   NullPointer; ClassCast; NoSuchElement; NumberFormat; ArithmeticExc; EmptyStack; ArrayIndexOutOfBounds].
(** ... and as a condition. *)
Definition condition_failures : list exn := HeterogeneousArray :: InvalidUnaryOperand :: arithmetic_failures.
