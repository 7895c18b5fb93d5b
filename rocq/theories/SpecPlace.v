(** Specification: equal values that may take each other's place. *)
From Coq Require Import QArith.
From Verif Require Import Base JNum BigDec Dates Version Values Ops SpecNum SpecCompare SpecDate SpecMixed.
Local Open Scope Z_scope.

(** The operator that asks the same with the operands exchanged. *)
Definition mirrored (op : operator) : operator :=
  match op with
  | GREATER_THAN => LESS_THAN | LESS_THAN => GREATER_THAN
  | GREATER_THAN_EQUAL => LESS_THAN_EQUAL | LESS_THAN_EQUAL => GREATER_THAN_EQUAL
  | _ => op
  end.

(** Values of which none is text or a version: numbers, booleans, dates and date-times, the last two as objects or as text. *)
Inductive ordinary : jval -> Prop :=
| ordinary_number v q : number v q -> ordinary v
| ordinary_bool b : ordinary (VBool b)
| ordinary_date v a : denotes_date v a -> ordinary v
| ordinary_moment v x : denotes_datetime v x -> ordinary v.

(** Values of one family: all of them ordinary, all of them text, or all of them versions made of numbers. *)
Definition one_family (vs : list jval) : Prop :=
  Forall ordinary vs \/ Forall (fun v => stands v STRING) vs \/ Forall (of_kind Versions) vs.
