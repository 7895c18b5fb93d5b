(** Specification of comparisons. *)
From Coq Require Import QArith.
From Verif Require Import Base JNum BigDec Dates Version Values Ops Ast Eval SpecNum.

(** The question an operator asks about two rationals. *)
Definition question (op : operator) (p q : Q) : option bool :=
  match op with
  | EQUALS => Some (Qeq_bool p q)
  | NOT_EQUAL => Some (negb (Qeq_bool p q))
  | LESS_THAN_EQUAL => Some (Qle_bool p q)
  | GREATER_THAN_EQUAL => Some (Qle_bool q p)
  | GREATER_THAN => Some (negb (Qle_bool p q))
  | LESS_THAN => Some (negb (Qle_bool q p))
  | _ => None
  end.

(** The word null (in any case) used as an operand makes = and != null checks. *)
Definition null_word (n : node) : Prop := exists f, n = NField (Some f) /\ to_lower f = J "null".

(** [yields E d n v]: the operand [n] has the (non-null) value [v] and is not the word null. *)
Definition yields (E : env) (d : data) (n : node) (v : jval) : Prop :=
  arith_eval E d n = Ok v /\ v <> VNull /\ ~ null_word n.

(** The condition l op r; the data type recorded in the tree is irrelevant to evaluation. *)
Definition cond (l : node) (op : operator) (r : node) : node := NCmp l r op STRING.

(** An operand holding the value [v] itself. *)
Definition lit (v : jval) : node := NUnary (get_data_type v) v.

(** [reads_as v q]: the value [v] is the number [q], or it is no number but its text denotes [q] for new BigDecimal. *)
Definition reads_as (v : jval) (q : Q) : Prop :=
  match v with
  | VInt z | VLong z => q == inject_Z z
  | VDec d => q == dec_value d
  | VNull => False
  | _ => exists d, parse_bigdec (show v) = Some d /\ q == dec_value d
  end.

(** A range bound: a number literal with its type. *)
Definition bound (v : jval) (t : dtype) (q : Q) : Prop := number v q /\ t = get_data_type v.

(** c1 OR c2 OR ... *)
Fixpoint or_chain (c : node) (cs : list node) : node :=
  match cs with [] => c | c' :: cs' => NBool c (Some (or_chain c' cs')) OR end.

(** The members an operand contributes to a list: those of a collection, or itself. *)
Definition members (v : jval) : list jval := match v with VColl _ items => items | _ => [v] end.

(** The operands of a list have the values [vs], so the list has the members [ms], none of them null. *)
Definition list_members (E : env) (d : data) (items : list node) (ms : list jval) : Prop :=
  exists vs, Forall2 (fun i v => arith_eval E d i = Ok v) items vs /\ ms = flat_map members vs /\ ~ In VNull ms.

(** Two values print to the same text. *)
Definition same_text (v w : jval) : bool := jstr_eqb (show v) (show w).

(** Dotted numeric versions: the component sequence, written in decimal and separated by dots. *)
Fixpoint dotted (cs : list N) : jstr :=
  match cs with
  | [] => []
  | [c] => print_N c
  | c :: cs' => print_N c ++ J "." ++ dotted cs'
  end.
(** Component-wise comparison, missing components counting as 0. *)
Definition padded (n : nat) (l : list N) : list N := l ++ repeat 0%N (n - length l).
Fixpoint lexicographic (a b : list N) : comparison :=
  match a, b with
  | x :: a', y :: b' => match (x ?= y)%N with Eq => lexicographic a' b' | c => c end
  | _, _ => Eq
  end.
Definition components_compare (a b : list N) : comparison :=
  let n := Nat.max (length a) (length b) in lexicographic (padded n a) (padded n b).

(** A version held as text or as a version object. *)
Definition version_like (v : jval) (cs : list N) : Prop := cs <> [] /\ (v = VStr (dotted cs) \/ v = VVer (dotted cs)).

(** What each ordering operator requires of a three-way comparison. *)
Definition accepts (op : operator) (c : comparison) : option bool :=
  match op, c with
  | EQUALS, Eq | GREATER_THAN_EQUAL, (Eq | Gt) | LESS_THAN_EQUAL, (Eq | Lt) | GREATER_THAN, Gt | LESS_THAN, Lt
  | NOT_EQUAL, (Lt | Gt) => Some true
  | (EQUALS | NOT_EQUAL | GREATER_THAN_EQUAL | LESS_THAN_EQUAL | GREATER_THAN | LESS_THAN), _ => Some false
  | _, _ => None
  end.

(** Values of one type. *)
Inductive vkind := Numbers | Texts | Dates | DateTimes | Versions.
Definition of_kind (k : vkind) (v : jval) : Prop :=
  match k with
  | Numbers => exists q, number v q
  | Texts => exists s, v = VStr s /\ parse_date s = None /\ parse_datetime s = None
  | Dates => exists d, v = VDate d
  | DateTimes => exists t, v = VDateTime t
  | Versions => exists cs, cs <> [] /\ v = VVer (dotted cs)
  end.
