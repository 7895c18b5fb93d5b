(** Specification: the mathematical value of a number, as a rational. *)
From Coq Require Import QArith Qpower.
From Verif Require Import Base JNum BigDec Dates Values.
Local Open Scope Q_scope.

(** unscaled * 10^(-scale) *)
Definition dec_value (b : bigdec) : Q := inject_Z (unscaled b) * (10 # 1) ^ (- scale b).

(** [z] is [q] with its fractional part cut off (truncation toward zero). *)
Definition truncates (q : Q) (z : Z) : Prop :=
  (0 <= q -> inject_Z z <= q /\ q < inject_Z (z + 1)) /\ (q <= 0 -> inject_Z (z - 1) < q /\ q <= inject_Z z).

(** What Float.toString / Double.toString print for a finite number: [-]digits.digits[E[-]digits]; the number denoted. *)
Definition float_text (t : jstr) (q : Q) : Prop :=
  exists (neg : bool) (ip fp : jstr) (ex : option Z),
    ip <> [] /\ fp <> [] /\ all_digits ip = true /\ all_digits fp = true /\
    (length fp <= 20)%nat /\ (forall e, ex = Some e -> -1000 <= e <= 1000)%Z /\
    t = (if neg then J "-" else []) ++ ip ++ J "." ++ fp ++ match ex with Some e => J "E" ++ print_Z e | None => [] end /\
    q == (if neg then -1 # 1 else 1) *
         (inject_Z (digits_val ip) + inject_Z (digits_val fp) * (10 # 1) ^ (- Z.of_nat (length fp))) *
         (10 # 1) ^ (match ex with Some e => e | None => 0%Z end).

(** [number v q]: the object [v] is a number with value [q]. *)
Inductive number : jval -> Q -> Prop :=
| number_int z q : (-2147483648 <= z <= 2147483647)%Z -> q == inject_Z z -> number (VInt z) q
| number_long z q : (-9223372036854775808 <= z <= 9223372036854775807)%Z -> q == inject_Z z -> number (VLong z) q
| number_dec d q : q == dec_value d -> number (VDec d) q
| number_float dbl t q : float_text t q -> number (VFloat dbl t) q.
