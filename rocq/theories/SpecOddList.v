(** Specification: the elements of the lists in an expression. *)
From Verif Require Import Base Lexer Grammar.

(** [list_of u items]: [u] is a call, an IN, a NOT IN, a CONTAINS_ALL or a CONTAINS_ANY, and [items] are the arguments or the elements. *)
Inductive list_of : ptree -> list ptree -> Prop :=
| list_of_call f items : list_of (PFunc f items) items
| list_of_in f no w items : list_of (PIn f no w items) items
| list_of_contains f o items : list_of (PArray f o items) items.
