(** Specification: numbers that reach the data as text, as from a form or a query string. *)
From Coq Require Import QArith.
From Verif Require Import Base JNum BigDec Dates Values Ops Funcs Ast Eval SpecNum SpecCompare SpecArith SpecMixed SpecRepr.
Local Open Scope Z_scope.

(** [good_text s q w]: the text [s] denotes [q], and it can be compared with the number [w]: against an Integer or a Long it has to denote
    a whole number of that size. *)
Definition good_text (s : jstr) (q : Q) (w : jval) : Prop :=
  written_number s q /\
  match get_data_type w with
  | INTEGER => exists z, (q == inject_Z z)%Q /\ -2147483648 <= z <= 2147483647
  | LONG => exists z, (q == inject_Z z)%Q /\ -9223372036854775808 <= z <= 9223372036854775807
  | _ => True
  end.
(** The operand is the number [q] with [d] and the text [s] with [d']. *)
Definition sent (E : env) (d d' : data) (m : node) (q : Q) (s : jstr) : Prop := (exists v, yields E d m v /\ number v q) /\ yields E d' m (VStr s).
(** The operand is the whole number [a] with [d] and its decimal digits with [d']. *)
Definition sent_whole (E : env) (d d' : data) (m : node) (a : Z) : Prop := (exists v, yields E d m v /\ whole v a) /\ yields E d' m (VStr (print_Z a)).
(** The operand has the value [w] with both. *)
Definition kept (E : env) (d d' : data) (m : node) (w : jval) : Prop := yields E d m w /\ yields E d' m w.

(** Conditions that compare texts only with numbers: by < <= > >= and ranges where the text is good for the other side; by = != and IN
    where all are whole numbers of integer types and the text is the plain numeral; what does not change (C90); NOT, AND, OR. *)
Inductive received (E : env) (d d' : data) : node -> Prop :=
| received_left l r op t q s w p : In op [GREATER_THAN; GREATER_THAN_EQUAL; LESS_THAN; LESS_THAN_EQUAL] ->
    sent E d d' l q s -> kept E d d' r w -> number w p -> good_text s q w -> received E d d' (NCmp l r op t)
| received_right l r op t q s w p : In op [GREATER_THAN; GREATER_THAN_EQUAL; LESS_THAN; LESS_THAN_EQUAL] ->
    sent E d d' r q s -> kept E d d' l w -> number w p -> good_text s q w -> received E d d' (NCmp l r op t)
| received_equal_left l r op t a w b : op = EQUALS \/ op = NOT_EQUAL -> sent_whole E d d' l a -> kept E d d' r w -> whole w b -> received E d d' (NCmp l r op t)
| received_equal_right l r op t a w b : op = EQUALS \/ op = NOT_EQUAL -> sent_whole E d d' r a -> kept E d d' l w -> whole w b -> received E d d' (NCmp l r op t)
| received_range f lo hi t1 t2 x y q s : bound lo t1 x -> bound hi t2 y -> sent E d d' (NField (Some f)) q s -> good_text s q lo -> good_text s q hi ->
    received E d d' (NRange (Some f) lo hi t1 t2)
| received_in f items a ms zs : sent_whole E d d' (NField (Some f)) a -> list_members E d items ms -> list_members E d' items ms -> Forall2 whole ms zs ->
    received E d d' (NIn (Some f) items)
| received_measured n : measured E d d' n -> received E d d' n
| received_not n : received E d d' n -> received E d d' (NBool n None NOT)
| received_join l r op : op = AND \/ op = OR -> received E d d' l -> received E d d' r -> received E d d' (NBool l (Some r) op).
