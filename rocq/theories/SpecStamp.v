(** Specification: dates and date-times held as objects or as text. *)
From Coq Require Import QArith.
From Verif Require Import Base JNum BigDec Dates Values Ops Funcs Ast Eval SpecNum SpecCompare SpecArith SpecDate SpecForm SpecCourse.
Local Open Scope Z_scope.

(** Two values stand for the same day or for the same moment, as an object or as text. *)
Definition same_stamp (v w : jval) : Prop := (exists a, denotes_date v a /\ denotes_date w a) \/ (exists x, denotes_datetime v x /\ denotes_datetime w x).
Definition same_time (E : env) (d d' : data) (m : node) : Prop := exists v w, yields E d m v /\ yields E d' m w /\ same_stamp v w.

(** Conditions that look at nothing but the days and moments: comparisons and lists of them; what C90 and C94 cover; NOT, AND, OR. *)
Inductive stamped (E : env) (d d' : data) : node -> Prop :=
| stamped_words l r op t : In op [EQUALS; NOT_EQUAL; GREATER_THAN; GREATER_THAN_EQUAL; LESS_THAN; LESS_THAN_EQUAL] ->
    same_time E d d' l -> same_time E d d' r -> stamped E d d' (NCmp l r op t)
| stamped_in f items ms ms' : same_time E d d' (NField (Some f)) -> list_members E d items ms -> list_members E d' items ms' -> Forall2 same_stamp ms ms' ->
    stamped E d d' (NIn (Some f) items)
| stamped_received n : received E d d' n -> stamped E d d' n
| stamped_not n : stamped E d d' n -> stamped E d d' (NBool n None NOT)
| stamped_join l r op : op = AND \/ op = OR -> stamped E d d' l -> stamped E d d' r -> stamped E d d' (NBool l (Some r) op).
