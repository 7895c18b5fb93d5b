(** Specification of function calls on arguments of any types. *)
From Coq Require Import QArith.
From Verif Require Import Base JNum BigDec Dates Values Ops Funcs Ast Eval SpecNum SpecCompare SpecArith SpecFunc SpecDate SpecMixed.
Local Open Scope Z_scope.

(** How many arguments a function takes. *)
Definition takes (f : func) (n : nat) : Prop :=
  match f with
  | F_LEN => (1 <= n)%nat
  | F_INT | F_DAYS_ELAPSED => n = 1%nat
  | _ => (2 <= n)%nat
  end.

(** The type of an argument; a null among the members of a list counts as text. *)
Definition argument_type (v : jval) (t : dtype) : Prop := stands v t \/ (v = VNull /\ t = STRING).

(** The exact quotient if it has at most two decimals, a failure otherwise. *)
Definition two_decimals (q : Q) (x : res jval) : Prop :=
  ((exists z, q * inject_Z 100 == inject_Z z)%Q -> decimal_result x q) /\
  ((forall z, ~ q * inject_Z 100 == inject_Z z)%Q -> x = Err ArithmeticExc).

(** The days from [a] to today. *)
Definition elapsed (E : env) (a : date) (x : res jval) : Prop := exists k, x = Ok (VLong k) /\ days_later k a (today E).

(** [gives E f ms x]: on arguments [ms] of the right number and types the function gives [x]. *)
Definition gives (E : env) (f : func) (ms : list jval) (x : res jval) : Prop :=
  let numbers (P : list Q -> Prop) := exists qs, Forall2 number ms qs /\ P qs in
  let fraction := Exists decimal ms in
  let wholes (P : list Z -> Prop) := exists zs, Forall2 whole ms zs /\ P zs in
  let n := length ms in
  match f with
  | F_MIN => (fraction -> numbers (fun qs => exists q, least qs q /\ decimal_result x q)) /\
             (~ fraction -> wholes (fun zs => exists z y, In z zs /\ (forall z', In z' zs -> z <= z') /\ nearest_double z y /\ whole_result x y))
  | F_MAX => (fraction -> numbers (fun qs => exists q, greatest qs q /\ decimal_result x q)) /\
             (~ fraction -> wholes (fun zs => exists z y, In z zs /\ (forall z', In z' zs -> z' <= z) /\ nearest_double z y /\ whole_result x y))
  | F_SUM => (fraction -> numbers (fun qs => decimal_result x (total qs))) /\
             (~ fraction -> wholes (fun zs => exists z y, wraps 64 (whole_total zs) z /\ nearest_double z y /\ whole_result x y))
  | F_AVG | F_MEAN =>
      (fraction -> numbers (fun qs => exists z, truncates (mean qs * inject_Z 1000) z /\ decimal_result x (inject_Z z / inject_Z 1000))) /\
      (~ fraction -> wholes (fun zs => exists z, wraps 64 (whole_total zs) z /\ two_decimals (inject_Z z / inject_Z (Z.of_nat n)) x))
  | F_MEDIAN => numbers (fun qs => exists s, ascending qs s /\
      (Nat.odd n = true -> decimal_result x (nth (n / 2) s 0%Q)) /\
      (Nat.even n = true -> exists z, truncates ((nth (n / 2 - 1) s 0 + nth (n / 2) s 0) / 2 * inject_Z 100)%Q z /\ decimal_result x (inject_Z z / inject_Z 100)%Q))
  | F_MODE => exists v, first_mode ms v /\ returned x v
  | F_INT => forall v, ms = [v] -> exists q z y, number v q /\ truncates q z /\ wraps 32 z y /\ x = Ok (VInt y)
  | F_LEN => (forall s, ms = [VStr s] -> x = Ok (VInt (Z.of_nat (length s)))) /\ ((forall s, ms <> [VStr s]) -> x = Ok (VInt (Z.of_nat n)))
  | F_DAYS_ELAPSED => calendar (today E) ->
      (forall a, ms = [VDate a] -> elapsed E a x) /\
      (forall s, ms = [VStr s] -> exists y m dd, ymd_text y m dd s /\
         (calendar (Date y m dd) /\ (length s <= 17)%nat -> elapsed E (Date y m dd) x) /\
         (~ (calendar (Date y m dd) /\ (length s <= 17)%nat) -> x = Err InvalidFunctionArgument))
  end.

(** The outcome of a call with arguments [ms] of types [ts]. *)
Definition call_outcome (E : env) (f : func) (ms : list jval) (ts : list dtype) (x : res jval) : Prop :=
  (ms = [] -> x = Err InvalidExpression) /\
  (ms <> [] -> ~ takes f (length ms) -> x = Err InvalidContainerType) /\
  (ms <> [] -> takes f (length ms) -> ~ Forall (func_supported f) ts -> x = Err InvalidDataType) /\
  (ms <> [] -> takes f (length ms) -> Forall (func_supported f) ts -> gives E f ms x).
