(** Specification of the number of decimals that a decimal result has, which is what its printed form shows. *)
From Coq Require Import QArith Qabs.
From Verif Require Import Base JNum BigDec Dates Values Funcs SpecNum SpecMixed.
Local Open Scope Z_scope.

(** [held v (BD u n)]: the number [v] is u / 10^n and has [n] decimals. A whole number has none; a decimal has those it was made with;
    a float has those of its text, counted from where the exponent moves the point to. *)
Inductive held : jval -> bigdec -> Prop :=
| held_int z : -2147483648 <= z <= 2147483647 -> held (VInt z) (BD z 0)
| held_long z : -9223372036854775808 <= z <= 9223372036854775807 -> held (VLong z) (BD z 0)
| held_dec b : held (VDec b) b
| held_float dbl (neg : bool) ip fp : ip <> [] -> fp <> [] -> all_digits ip = true -> all_digits fp = true -> (length fp <= 20)%nat ->
    held (VFloat dbl ((if neg then J "-" else []) ++ ip ++ J "." ++ fp))
      (BD ((if neg then -1 else 1) * digits_val (ip ++ fp)) (Z.of_nat (length fp)))
| held_float_exponent dbl (neg : bool) ip fp e : ip <> [] -> fp <> [] -> all_digits ip = true -> all_digits fp = true -> (length fp <= 20)%nat ->
    -1000 <= e <= 1000 ->
    held (VFloat dbl ((if neg then J "-" else []) ++ ip ++ J "." ++ fp ++ J "E" ++ print_Z e))
      (BD ((if neg then -1 else 1) * digits_val (ip ++ fp)) (Z.of_nat (length fp) - e)).

(** [y] is the first element of [bs] whose value is the one that the relation prefers to all others. *)
Definition first_best (better : Q -> Q -> Prop) (bs : list bigdec) (y : bigdec) : Prop :=
  exists before after, bs = before ++ y :: after /\
    (forall b, In b bs -> better (dec_value y) (dec_value b)) /\ forall b, In b before -> ~ (dec_value b == dec_value y)%Q.

(** The elements whose value is lower than, and equal to, that of [y]. *)
Definition lower (y : bigdec) (bs : list bigdec) : list bigdec := filter (fun b => negb (Qle_bool (dec_value y) (dec_value b))) bs.
Definition level (y : bigdec) (bs : list bigdec) : list bigdec := filter (fun b => Qeq_bool (dec_value b) (dec_value y)) bs.
(** [y] is in place [k] of the elements in ascending order, where elements of equal value keep their order. *)
Definition in_place (k : nat) (bs : list bigdec) (y : bigdec) : Prop :=
  exists before after, bs = before ++ y :: after /\ (length (lower y bs) + length (level y before))%nat = k.

(** The largest number of decimals in the list, at least none. *)
Definition most_decimals (bs : list bigdec) : Z := fold_right Z.max 0 (map scale bs).

(** Printed in full: the sign, the digits before the point without superfluous zeros, and exactly [n] digits behind it. *)
Definition without_zeros (ds : jstr) : Prop := ds = J "0" \/ forall c r, ds = c :: r -> c <> ch "0".
Definition in_full (s : jstr) (q : Q) (n : Z) : Prop :=
  exists (neg : bool) ip fp, ip <> [] /\ all_digits ip = true /\ all_digits fp = true /\ without_zeros ip /\ Z.of_nat (length fp) = n /\
    s = (if neg then J "-" else []) ++ ip ++ (if n =? 0 then [] else J "." ++ fp) /\
    (neg = true <-> (q < 0)%Q) /\
    (q == (if neg then -1 # 1 else 1) * inject_Z (digits_val (ip ++ fp)) * (10 # 1) ^ (- n))%Q.
(** Decimals that are printed in full: no more than six decimals, or a magnitude of at least a millionth. *)
Definition short (b : bigdec) : Prop := 0 <= scale b /\ (scale b <= 6 \/ ((1 # 1000000) <= Qabs (dec_value b))%Q).
