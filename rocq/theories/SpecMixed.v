(** Specification of comparisons between values of any two types. *)
From Coq Require Import QArith.
From Verif Require Import Base JNum BigDec Dates Version Values Ops SpecNum SpecDate.
Local Open Scope Z_scope.

(** Texts that denote numbers: a sign, digits with at most one point among, before or after them, an exponent. *)
Inductive sign_text : bool -> jstr -> Prop :=
| unsigned : sign_text false []
| plus_sign : sign_text false (J "+")
| minus_sign : sign_text true (J "-").
Inductive fraction_text : jstr -> jstr -> Prop :=
| no_point : fraction_text [] []
| pointed ds : all_digits ds = true -> fraction_text ds (J "." ++ ds).
(** The exponent has at most ten digits besides leading zeros, and the number of decimals it leads to fits in 32 bits. *)
Inductive exponent_text (decimals : Z) : Z -> jstr -> Prop :=
| no_exponent : exponent_text decimals 0 []
| exponent (neg : bool) letter sg ds e : letter = J "e" \/ letter = J "E" -> sign_text neg sg -> ds <> [] -> all_digits ds = true ->
    digits_val ds < 10000000000 -> e = (if neg then - digits_val ds else digits_val ds) ->
    -2147483648 <= decimals - e <= 2147483647 ->
    exponent_text decimals e (letter ++ sg ++ ds).
Definition written_number (s : jstr) (q : Q) : Prop :=
  exists (neg : bool) sg ip fp f e x, s = sg ++ ip ++ f ++ x /\ sign_text neg sg /\ all_digits ip = true /\ fraction_text fp f /\
    ip ++ fp <> [] /\ exponent_text (Z.of_nat (length fp)) e x /\
    (q == (if neg then -1 # 1 else 1) * inject_Z (digits_val (ip ++ fp)) * (10 # 1) ^ (e - Z.of_nat (length fp)))%Q.

(** The type of a value by itself. *)
Inductive stands : jval -> dtype -> Prop :=
| stands_bool b : stands (VBool b) BOOLEAN
| stands_int z : -2147483648 <= z <= 2147483647 -> stands (VInt z) INTEGER
| stands_long z : -9223372036854775808 <= z <= 9223372036854775807 -> stands (VLong z) LONG
| stands_dec b : stands (VDec b) DECIMAL
| stands_float dbl t q : float_text t q -> stands (VFloat dbl t) DECIMAL
| stands_version t : stands (VVer t) VERSION
| stands_date v a : denotes_date v a -> stands v DATE
| stands_datetime v x : denotes_datetime v x -> stands v DATETIME
| stands_text s : (forall a, ~ written_date s a) -> (forall x, ~ written_datetime s x) -> stands (VStr s) STRING
| stands_coll il l : stands (VColl il l) STRING
| stands_arr l t : stands (VArr l t) STRING
| stands_map es : stands (VMap es) STRING
| stands_object t : stands (VOther t) STRING.

(** What a value may be read as. *)
Inductive sense :=
| AText (s : jstr)
| ANumber (q : Q)
| AVersion (t : jstr)
| ABool (b : bool)
| ADate (a : date)
| ADateTime (x : datetime).

(** The number a value is, or the number its text denotes if it is none. *)
Definition valued (v : jval) (q : Q) : Prop :=
  match v with
  | VInt _ | VLong _ | VDec _ | VFloat _ _ => number v q
  | _ => written_number (show v) q
  end.

(** [read_as t v m]: read as a [t], the value [v] is [m]. *)
Inductive read_as (v : jval) : dtype -> sense -> Prop :=
| read_text : read_as v STRING (AText (show v))
| read_int z : valued v (inject_Z z) -> -2147483648 <= z <= 2147483647 -> read_as v INTEGER (ANumber (inject_Z z))
| read_long z : valued v (inject_Z z) -> -9223372036854775808 <= z <= 9223372036854775807 -> read_as v LONG (ANumber (inject_Z z))
| read_decimal q : valued v q -> read_as v DECIMAL (ANumber q)
| read_version : read_as v VERSION (AVersion (show v))
| read_bool b : v = VBool b -> read_as v BOOLEAN (ABool b)
| read_date a : v = VDate a /\ calendar a -> read_as v DATE (ADate a)
| read_date_text a : (forall b, v <> VDate b) -> written_date (show v) a -> read_as v DATE (ADate a)
| read_datetime x : v = VDateTime x /\ wall_time x -> read_as v DATETIME (ADateTime x)
| read_datetime_text x : (forall y, v <> VDateTime y) -> written_datetime (show v) x -> read_as v DATETIME (ADateTime x).

(** Texts are ordered by the first UTF-16 unit in which they differ; a proper prefix comes first. *)
Definition text_before (s t : jstr) : Prop :=
  (exists c r, t = s ++ c :: r) \/ exists p c s' d t', s = p ++ c :: s' /\ t = p ++ d :: t' /\ (c < d)%N.
Definition text_order (s t : jstr) (c : comparison) : Prop :=
  match c with Eq => s = t | Lt => text_before s t | Gt => text_before t s end.

Inductive compared : sense -> sense -> comparison -> Prop :=
| by_units s t c : text_order s t c -> compared (AText s) (AText t) c
| by_value p q : compared (ANumber p) (ANumber q) (p ?= q)%Q
| by_version s t : compared (AVersion s) (AVersion t) (version_compare s t)
| same_bool b : compared (ABool b) (ABool b) Eq
| false_true : compared (ABool false) (ABool true) Lt
| true_false : compared (ABool true) (ABool false) Gt
| by_days a b k : days_later k a b -> compared (ADate a) (ADate b) (0 ?= k)
| by_nanos x y k : nanos_later k x y -> compared (ADateTime x) (ADateTime y) (0 ?= k).

(** The type two values are compared as. For = and !=: the first of this list that one of them has. *)
Definition ranking : list dtype := [STRING; DATETIME; DATE; DECIMAL; LONG; INTEGER; VERSION; BOOLEAN].
Definition first_of (a b : dtype) : option dtype := find (fun t => dtype_eqb t a || dtype_eqb t b) ranking.
(** For <, <=, > and >=: no booleans; if only one of the two is a number or a version, its type. *)
Definition number_like (t : dtype) : bool := match t with INTEGER | LONG | DECIMAL | VERSION => true | _ => false end.
Definition boolean (t : dtype) : bool := match t with BOOLEAN => true | _ => false end.
Definition meeting (op : operator) (a b : dtype) : option dtype :=
  match op with
  | EQUALS | NOT_EQUAL => first_of a b
  | LESS_THAN | LESS_THAN_EQUAL | GREATER_THAN | GREATER_THAN_EQUAL =>
      if boolean a || boolean b then None
      else match number_like a, number_like b with true, false => Some a | false, true => Some b | _, _ => first_of a b end
  | _ => None
  end.

(** No common reading: the comparison is refused. *)
Definition incomparable (op : operator) (v w : jval) (a b : dtype) : Prop :=
  forall t m m', meeting op a b = Some t -> ~ (read_as v t m /\ read_as w t m').

(** Pairs of types that never have one. *)
Definition unrelated (a b : dtype) : Prop :=
  let num t := t = INTEGER \/ t = LONG \/ t = DECIMAL in
  (num a /\ (b = DATE \/ b = DATETIME \/ b = BOOLEAN)) \/ (a = BOOLEAN /\ (b = DATE \/ b = DATETIME)) \/ (a = DATE /\ b = DATETIME).

(** What Float.toString / Double.toString print for the values that are no numbers. *)
Definition not_finite (t : jstr) : Prop := t = J "NaN" \/ t = J "Infinity" \/ t = J "-Infinity".
