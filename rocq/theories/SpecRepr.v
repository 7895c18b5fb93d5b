(** Specification: the same numbers held in other types. *)
From Coq Require Import QArith.
From Verif Require Import Base JNum BigDec Dates Values Ops Funcs Ast Eval SpecNum SpecCompare SpecArith SpecFunc SpecPath.

(** Two values stand for the same number, whatever their types: 5 as an Integer, as a Long, 5.0 as a BigDecimal or as a Double. *)
Definition same_number (v w : jval) : Prop := exists q, number v q /\ number w q.
(** With [d] and with [d'] the operand is the same number. *)
Definition same_measure (E : env) (d d' : data) (m : node) : Prop := exists v w, yields E d m v /\ yields E d' m w /\ same_number v w.

(** Conditions that look at nothing but the numbers: comparisons, ranges and lists of numbers that are the same with [d] and [d'];
    anything whose fields have the same values; and NOT, AND, OR of such. *)
Inductive measured (E : env) (d d' : data) : node -> Prop :=
| measured_words l r op t : In op [EQUALS; NOT_EQUAL; GREATER_THAN; GREATER_THAN_EQUAL; LESS_THAN; LESS_THAN_EQUAL] ->
    same_measure E d d' l -> same_measure E d d' r -> measured E d d' (NCmp l r op t)
| measured_range f lo hi t1 t2 p q : bound lo t1 p -> bound hi t2 q -> same_measure E d d' (NField (Some f)) -> measured E d d' (NRange (Some f) lo hi t1 t2)
| measured_in f items ms ms' : same_measure E d d' (NField (Some f)) -> list_members E d items ms -> list_members E d' items ms' -> Forall2 same_number ms ms' ->
    measured E d d' (NIn (Some f) items)
| measured_same n : (forall f, In f (bool_fields n) -> same_field d d' f) -> measured E d d' n
| measured_not n : measured E d d' n -> measured E d d' (NBool n None NOT)
| measured_join l r op : op = AND \/ op = OR -> measured E d d' l -> measured E d d' r -> measured E d d' (NBool l (Some r) op).

(** There is room for the exact result: one side is a decimal, or the result fits (a difference of two Integers must be an Integer). *)
Definition room (v : jval) (op : operator) (w : jval) : Prop :=
  decimal v \/ decimal w \/ exists a b, whole v a /\ whole w b /\
    match op with
    | SUBTRACT => if dtype_eqb (get_data_type v) INTEGER && dtype_eqb (get_data_type w) INTEGER then fits32 (a - b) else fits64 (a - b)
    | _ => fits64 (exact_op op a b)
    end.
