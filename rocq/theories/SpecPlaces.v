(** How many decimals a result can have. *)
From Verif Require Import Base JNum BigDec Dates Values Ops Funcs Ast SpecCompare SpecScale SpecPath.
Local Open Scope Z_scope.

(** The decimals of a number are at most [k]; a negative count says that the number ends in that many zeros. *)
Definition places (k : Z) (v : jval) : Prop := forall b, held v b -> Z.abs (scale b) <= k.
(** The decimals in the data, alone or in lists, have at most [k] decimals. *)
Definition data_places (d : data) (k : Z) : Prop := forall ks v, found d ks v -> places k v /\ Forall (places k) (members v).
(** Math.pow returns doubles: m * 2^e with e at least -1074. *)
Definition true_doubles (E : env) : Prop :=
  (forall m n u e, pow_long E m n = DFin u e -> -1074 <= e) /\ forall s t u e, pow_dec E s t = DFin u e -> -1074 <= e.

(** [part m n]: [m] is [n] or an expression inside it. *)
Inductive part : node -> node -> Prop :=
| part_self n : part n n
| part_left m l r op : part m l -> part m (NArith l r op)
| part_right m l r op : part m r -> part m (NArith l (Some r) op)
| part_argument m i f items : In i items -> part m i -> part m (NFunc f items)
| part_compared_left m l r op t : part m l -> part m (NCmp l r op t)
| part_compared_right m l r op t : part m r -> part m (NCmp l r op t)
| part_listed m i f items : In i items -> part m i -> part m (NIn f items)
| part_contained m i f op items : In i items -> part m i -> part m (NArray f op items)
| part_condition_left m l r op : part m l -> part m (NBool l r op)
| part_condition_right m l r op : part m r -> part m (NBool l (Some r) op).
