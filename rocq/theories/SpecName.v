(** Which path a field name of any form denotes. *)
From Verif Require Import Base Values Ops Funcs Ast Eval SpecPath.

Definition dots (n : nat) : jstr := repeat (ch ".") n.

(** [leads_to s ks]: the field name [s] leads along the keys [ks].  The keys are the pieces between the dots, so that a
    key may be empty, except that dots at the end of the name count for nothing.  The empty name is the empty key. *)
Inductive leads_to : jstr -> list jstr -> Prop :=
| names_empty : leads_to [] [[]]
| names_keys ks n : ks <> [] -> (forall k, In k ks -> ~ In (ch ".") k) -> last ks [] <> [] -> leads_to (path_text ks ++ dots n) ks.
