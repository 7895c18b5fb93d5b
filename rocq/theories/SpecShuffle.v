(** Specification: collections that hand out their members in another order. *)
From Coq Require Import QArith Permutation.
From Verif Require Import Base JNum BigDec Dates Values Ops Funcs Ast Eval SpecNum SpecCompare SpecArith SpecDate SpecList SpecForm SpecCourse SpecStamp.
Local Open Scope Z_scope.

(** The same value, or two collections of the same kind with the same members in another order. *)
Definition reordered (v w : jval) : Prop := v = w \/ exists b l l', v = VColl b l /\ w = VColl b l' /\ Permutation l l'.
(** The same members, in any order and any number of times. *)
Definition same_members (l l' : list jval) : Prop := forall m, In m l <-> In m l'.

(** Conditions that only test membership in what is reordered; what C90, C94 and C95 cover; NOT, AND, OR. *)
Inductive shuffled (E : env) (d d' : data) : node -> Prop :=
| shuffled_in f items v ms ms' : arith_eval E d (NField (Some f)) = Ok v -> arith_eval E d' (NField (Some f)) = Ok v ->
    elements E d items ms -> elements E d' items ms' -> same_members ms ms' -> shuffled E d d' (NIn (Some f) items)
| shuffled_contains f op items have have' ms ms' : In op [CONTAINS_ALL; CONTAINS_ANY] ->
    arith_eval E d (NField (Some f)) = Ok (VColl true have) -> arith_eval E d' (NField (Some f)) = Ok (VColl true have') -> same_members have have' ->
    elements E d items ms -> elements E d' items ms' -> same_members ms ms' -> shuffled E d d' (NArray (Some f) op items)
| shuffled_stamped n : stamped E d d' n -> shuffled E d d' n
| shuffled_not n : shuffled E d d' n -> shuffled E d d' (NBool n None NOT)
| shuffled_join l r op : op = AND \/ op = OR -> shuffled E d d' l -> shuffled E d d' r -> shuffled E d d' (NBool l (Some r) op).
