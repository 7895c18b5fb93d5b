(** Specification of the functions. *)
From Coq Require Import QArith Permutation Sorted.
From Verif Require Import Base JNum BigDec Dates Values Ops Funcs Ast Eval SpecNum SpecCompare SpecArith.
Local Open Scope Z_scope.

(** A call: the operands have values whose members are the arguments [ms]. *)
Definition arguments (E : env) (d : data) (items : list node) (ms : list jval) : Prop :=
  exists vs, Forall2 (fun i v => arith_eval E d i = Ok v) items vs /\ ms = flat_map members vs.

(** The number [q] returned as a 32-bit integer if it is whole (which fails if it does not fit) and as a decimal otherwise. *)
Inductive decimal_result : res jval -> Q -> Prop :=
| dr_whole z q : (q == inject_Z z)%Q -> fits32 z -> decimal_result (Ok (VInt z)) q
| dr_too_big z q : (q == inject_Z z)%Q -> ~ fits32 z -> decimal_result (Err ArithmeticExc) q
| dr_fraction x q : (forall z, ~ (q == inject_Z z)%Q) -> (dec_value x == q)%Q -> decimal_result (Ok (VDec x)) q.

(** The whole number [z] returned as a 32-bit integer if it fits and as a decimal otherwise. *)
Definition whole_result (r : res jval) (z : Z) : Prop :=
  (fits32 z -> r = Ok (VInt z)) /\ (~ fits32 z -> exists x, r = Ok (VDec x) /\ (dec_value x == inject_Z z)%Q).

Definition least (qs : list Q) (q : Q) : Prop := In q qs /\ forall q', In q' qs -> (q <= q')%Q.
Definition greatest (qs : list Q) (q : Q) : Prop := In q qs /\ forall q', In q' qs -> (q' <= q)%Q.
Definition total (qs : list Q) : Q := fold_right Qplus 0%Q qs.
Definition whole_total (zs : list Z) : Z := fold_right Z.add 0 zs.
Definition mean (qs : list Q) : Q := (total qs / inject_Z (Z.of_nat (length qs)))%Q.

(** [s] is the list [qs] in ascending order. *)
Definition ascending (qs s : list Q) : Prop := Permutation s qs /\ StronglySorted Qle s.

(** [times v l n]: the value [v] occurs [n] times in [l].  Values are the same if they have the same type and the same
    value (decimals also the same scale). *)
Inductive times (v : jval) : list jval -> nat -> Prop :=
| times_nil : times v [] 0
| times_same l n : times v l n -> times v (v :: l) (S n)
| times_other w l n : w <> v -> times v l n -> times v (w :: l) n.

(** The element of [l] that is the first to occur [n] times, where no element of [l] occurs more often than [n] times. *)
Definition first_mode (l : list jval) (v : jval) : Prop :=
  exists n before after, l = before ++ v :: after /\
    times v l n /\ (forall w k, times w l k -> (k <= n)%nat) /\
    times v (before ++ [v]) n /\ (forall w k, times w before k -> (k < n)%nat).

(** How a number is returned: whole numbers in the smallest type, decimals as an integer if whole, floats as they are. *)
Definition returned (r : res jval) (v : jval) : Prop :=
  match v with
  | VInt z => r = Ok (VInt z)
  | VLong z => exists x, r = Ok x /\ smallest z x
  | VDec b => decimal_result r (dec_value b)
  | _ => r = Ok v
  end.

(** Floats and doubles among the values are finite. *)
Definition finite (v : jval) : Prop := forall b t, v = VFloat b t -> exists q, float_text t q.
Definition text (v : jval) : Prop := exists s, v = VStr s.

(** The double nearest to a whole number; of two equally near ones, the one with the even significand. *)
Definition nearest_double (z y : Z) : Prop :=
  representable y /\
  forall w, representable w -> w <> y ->
    Z.abs (y - z) < Z.abs (w - z) \/
    (Z.abs (y - z) = Z.abs (w - z) /\ exists m n e, 0 <= e /\ y = m * 2 ^ e /\ w = n * 2 ^ e /\ Z.abs (m - n) = 1 /\ Z.Even m).
