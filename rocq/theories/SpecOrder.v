(** Specification: two outcomes of an arithmetic evaluation that a user cannot tell apart by value. *)
From Coq Require Import QArith.
From Verif Require Import Base BigDec Values SpecNum.

(** The same result, or two decimals that are the same number (1.5 and 1.50). *)
Definition same_outcome (r s : res jval) : Prop :=
  r = s \/ exists a b, r = Ok (VDec a) /\ s = Ok (VDec b) /\ dec_value a == dec_value b.
