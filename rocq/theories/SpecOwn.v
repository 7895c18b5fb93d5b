(** Specification: values and their own text. *)
From Coq Require Import QArith.
From Verif Require Import Base JNum BigDec Dates Values SpecNum.
Local Open Scope Z_scope.

(** A decimal has a 32-bit scale and at most 2147483647 digits, as every BigDecimal; nothing is asked of other values. *)
Definition jvm_decimal (v : jval) : Prop :=
  match v with
  | VDec b => -2147483648 <= scale b <= 2147483647 /\ exists k, k <= 2147483647 /\ Z.abs (unscaled b) < 10 ^ k
  | _ => True
  end.
