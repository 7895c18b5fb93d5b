(** Specification: where any text stands among the dotted numeric versions. *)
From Coq Require Import QArith.
From Verif Require Import Base Values Ops SpecNum SpecCompare SpecLex SpecLabel.
Local Open Scope Z_scope.

Definition separator (c : jchar) : Prop := c = ch "." \/ c = ch "-".
Definition starts (P : jchar -> Prop) (s : jstr) : Prop := exists c r, s = c :: r /\ P c.

(** [begins s cs rest]: the text is the numbers [cs], separated by points, and then [rest]. *)
Inductive begins : jstr -> list N -> jstr -> Prop :=
| b_none rest : ~ starts (fun c => is_digit c = true \/ c = ch ".") rest -> begins rest [] rest
| b_last ds c rest : digits ds -> natural ds = Z.of_N c -> ~ starts (fun c => is_digit c = true \/ c = ch ".") rest -> begins (ds ++ rest) [c] rest
| b_point ds c rest : digits ds -> natural ds = Z.of_N c -> ~ starts (fun c => is_digit c = true \/ c = ch ".") rest -> begins (ds ++ J "." ++ rest) [c] (J "." ++ rest)
| b_more ds c s x cs rest : digits ds -> natural ds = Z.of_N c -> begins s (x :: cs) rest -> begins (ds ++ J "." ++ s) (c :: x :: cs) rest.

(** A label runs up to the next digit, point or dash. *)
Definition word (w more : jstr) : Prop :=
  w <> [] /\ Forall (fun c => is_digit c = false /\ ~ separator c) w /\ (more = [] \/ starts (fun c => is_digit c = true \/ separator c) more).
(** The names a label can have, given what follows it. *)
Definition known (more : jstr) (name : jstr) (p : Z) : Prop :=
  In (name, p) stages \/ In (name, p) shortcuts /\ starts (fun c => is_digit c = true) more.

(** On which side of the numbers before it the rest puts a version. *)
Inductive side : jstr -> comparison -> Prop :=
| s_none : side [] Eq
| s_label sep w more name p : In sep [[]; J "-"; J "."] -> word w more -> known more name p -> p <> 5 -> ignoring_case w name -> side (sep ++ w ++ more) (p ?= 5)
| s_other sep w more : In sep [[]; J "-"; J "."] -> word w more -> (forall name p, known more name p -> ~ ignoring_case w name) -> side (sep ++ w ++ more) Gt
| s_number ds more : digits ds -> 0 < natural ds -> ~ starts (fun c => is_digit c = true) more -> side (J "-" ++ ds ++ more) Gt.

(** The order of a version that stands at, just before or just after the numbers [cs] against the numbers [b]. *)
Definition placed (cs : list N) (p : comparison) (b : list N) : comparison := match components_compare cs b with Eq => p | c => c end.

(** Text, of any form, where it is ordered, or a version. *)
Definition version_text (op : operator) (v : jval) (s : jstr) : Prop := (v = VStr s /\ op <> EQUALS /\ op <> NOT_EQUAL) \/ v = VVer s.

(** [looser op b a]: whoever passes [op b] should pass [op a]. *)
Definition looser (op : operator) (b a : list N) : Prop :=
  match op with
  | GREATER_THAN | GREATER_THAN_EQUAL => components_compare a b <> Gt
  | LESS_THAN | LESS_THAN_EQUAL => components_compare b a <> Gt
  | _ => False
  end.
