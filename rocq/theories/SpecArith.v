(** Specification of arithmetic. *)
From Coq Require Import QArith.
From Verif Require Import Base JNum BigDec Dates Values Ops Funcs Ast Eval SpecNum.
Local Open Scope Z_scope.

Definition fits32 (z : Z) : Prop := -2147483648 <= z <= 2147483647.
Definition fits64 (z : Z) : Prop := -9223372036854775808 <= z <= 9223372036854775807.

(** l op r, and -n *)
Definition bin (l : node) (op : operator) (r : node) : node := NArith l (Some r) op.
Definition neg (n : node) : node := NArith n None UNARY.

(** [whole v z]: the value [v] is the whole number [z], as a 32-bit or a 64-bit integer. *)
Inductive whole : jval -> Z -> Prop :=
| whole_int z : fits32 z -> whole (VInt z) z
| whole_long z : fits64 z -> whole (VLong z) z.

(** Two's complement: [r] is the number that the low [k] bits of [z] stand for. *)
Definition wraps (k z r : Z) : Prop := (- 2 ^ (k - 1) <= r < 2 ^ (k - 1)) /\ exists m, r = z + m * 2 ^ k.

(** A whole number in the smallest type that holds it. *)
Definition smallest (z : Z) (v : jval) : Prop := (fits32 z /\ v = VInt z) \/ (~ fits32 z /\ fits64 z /\ v = VLong z).

(** A number with a fraction part: a BigDecimal, a Double or a Float. *)
Definition decimal (v : jval) : Prop := get_data_type v = DECIMAL.

(** The operand types each arithmetic operator and each function is meant for (their declared types). *)
Definition supported (op : operator) (t : dtype) : Prop :=
  match op with
  | ADD => t = INTEGER \/ t = LONG \/ t = DECIMAL \/ t = STRING \/ t = BOOLEAN \/ t = VERSION
  | SUBTRACT | MULTIPLY | DIVIDE | EXPONENT | UNARY => t = INTEGER \/ t = LONG \/ t = DECIMAL
  | MODULUS => t = INTEGER \/ t = LONG
  | _ => False
  end.
Definition arithmetic (op : operator) : Prop := In op [ADD; SUBTRACT; MULTIPLY; DIVIDE; MODULUS; EXPONENT].
Definition func_supported (f : func) (t : dtype) : Prop :=
  match f with
  | F_LEN => True
  | F_DAYS_ELAPSED => t = DATE
  | _ => t = INTEGER \/ t = LONG \/ t = DECIMAL
  end.

(** The documentation of Math.pow: "if both arguments are integers, then the result is exactly equal to the mathematical
    result ... if that result can in fact be represented exactly as a double value".  Longs up to 2^53 are converted to
    double without loss.  (A double is m * 2^e with |m| < 2^53 and e <= 971.) *)
Definition representable (z : Z) : Prop := exists m e, z = m * 2 ^ e /\ Z.abs m < 2 ^ 53 /\ 0 <= e <= 971.
Definition double_value (m e : Z) : Q := (inject_Z m * (2 # 1) ^ e)%Q.
Definition pow_documented (E : env) : Prop :=
  forall a b, Z.abs a <= 2 ^ 53 -> 0 <= b <= 2 ^ 53 -> representable (a ^ b) ->
  exists m e, pow_long E a b = DFin m e /\ (double_value m e == inject_Z (a ^ b))%Q.

(** Every value that can occur in Java: integers within their ranges. *)
Definition java_value (v : jval) : Prop :=
  match v with VInt z => fits32 z | VLong z => fits64 z | _ => True end.
Definition textual (v : jval) : Prop := In (get_data_type v) [STRING; VERSION; BOOLEAN].

(** The exact result of + - * on whole numbers and on rationals. *)
Definition exact_op (op : operator) (a b : Z) : Z := match op with ADD => a + b | SUBTRACT => a - b | _ => a * b end.
Definition rational_op (op : operator) (p q : Q) : Q := match op with ADD => p + q | SUBTRACT => p - q | _ => p * q end.
(** A numeric result: a 32-bit integer, a 64-bit integer or a decimal. *)
Definition number_result (x : jval) : Prop := (exists z, x = VInt z /\ fits32 z) \/ (exists z, x = VLong z /\ fits64 z) \/ exists b, x = VDec b.
