(** Specification of the arithmetic operators on values of any two types. *)
From Coq Require Import QArith.
From Verif Require Import Base JNum BigDec Dates Values Ops SpecNum SpecArith.
Local Open Scope Z_scope.

(** Types whose values + puts together as texts. *)
Definition wordy (t : dtype) : Prop := t = STRING \/ t = VERSION \/ t = BOOLEAN.

(** [x] is the exact decimal [q]. *)
Definition exactly (q : Q) (x : res jval) : Prop := exists y, x = Ok (VDec y) /\ (dec_value y == q)%Q.
(** What becomes of the double that Math.pow returns: an integer if it is one of 32 bits, else a decimal of the same value; NaN and the
    infinities are a failure. *)
Definition returned (u : dbl) (x : res jval) : Prop :=
  match u with
  | DFin m e => (forall z, (double_value m e == inject_Z z)%Q -> fits32 z -> x = Ok (VInt z)) /\
                ((forall z, (double_value m e == inject_Z z)%Q -> ~ fits32 z) -> exactly (double_value m e) x)
  | _ => x = Err NumberFormat
  end.

(** [computes E op a b p q x]: on numbers [p] and [q] held in the types [a] and [b] the operator gives [x]. *)
Definition computes (E : env) (op : operator) (a b : dtype) (p q : Q) (x : res jval) : Prop :=
  let fraction := a = DECIMAL \/ b = DECIMAL in
  let long := a = LONG \/ b = LONG in
  let wholes (P : Z -> Z -> Prop) := forall m n, (p == inject_Z m)%Q -> (q == inject_Z n)%Q -> P m n in
  match op with
  | ADD | MULTIPLY =>
      (fraction -> exactly (rational_op op p q) x) /\
      (~ fraction -> wholes (fun m n => exists y u, wraps 64 (exact_op op m n) y /\ smallest y u /\ x = Ok u))
  | SUBTRACT =>
      (fraction -> exactly (p - q)%Q x) /\
      (~ fraction -> long -> wholes (fun m n => exists y, wraps 64 (m - n) y /\ x = Ok (VLong y))) /\
      (~ fraction -> ~ long -> wholes (fun m n => exists y, wraps 32 (m - n) y /\ x = Ok (VInt y)))
  | DIVIDE =>
      ((q == 0)%Q -> x = Err ArithmeticExc) /\
      (~ (q == 0)%Q -> exists z, truncates (p / q * inject_Z 1000) z /\
         (forall n, z = 1000 * n -> (fits32 n -> x = Ok (VInt n)) /\ (~ fits32 n -> x = Err ArithmeticExc)) /\
         ((forall n, z <> 1000 * n) -> exactly (inject_Z z / inject_Z 1000)%Q x))
  | MODULUS => wholes (fun m n =>
      (n = 0 -> x = Err ArithmeticExc) /\
      (n <> 0 -> exists k y, m = n * k + y /\ Z.abs y < Z.abs n /\ 0 <= m * y /\ (long -> x = Ok (VLong y)) /\ (~ long -> x = Ok (VInt y))))
  | EXPONENT =>
      (fraction -> exists s t, (dec_value s == p)%Q /\ (dec_value t == q)%Q /\ returned (pow_dec E s t) x) /\
      (~ fraction -> wholes (fun m n => returned (pow_long E m n) x))
  | _ => False
  end.

(** Negation of a value of type [a]. *)
Definition negates (v : jval) (x : res jval) : Prop :=
  match v with
  | VInt z => exists y, wraps 32 (- z) y /\ x = Ok (VInt y)
  | VLong z => exists y, wraps 64 (- z) y /\ x = Ok (VLong y)
  | VDec b => exactly (- dec_value b)%Q x
  | VFloat _ _ => x = Err ClassCast
  | _ => x = Err InvalidDataType
  end.
