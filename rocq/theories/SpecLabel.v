(** Specification: versions with a label such as -SNAPSHOT, -beta or -rc2. *)
From Coq Require Import QArith.
From Verif Require Import Base Values Ops SpecNum SpecCompare SpecLex.
Local Open Scope Z_scope.

(** The labels in their order; 5 is the release itself. *)
Definition stages : list (jstr * Z) :=
  [ (J "alpha", 0); (J "beta", 1); (J "milestone", 2); (J "rc", 3); (J "cr", 3); (J "snapshot", 4); (J "ga", 5); (J "final", 5); (J "sp", 6) ].
(** Allowed in front of a number only. *)
Definition shortcuts : list (jstr * Z) := [ (J "a", 0); (J "b", 1); (J "m", 2) ].

Definition ignoring_case (q name : jstr) : Prop := Forall2 (fun c d => c = d \/ (is_upper c = true /\ d = (c + 32)%N)) q name.

(** [label t p n]: the text [t] is the label [p] with the number [n], 0 if there is none. *)
Inductive label : jstr -> Z -> Z -> Prop :=
| l_name q name p : In (name, p) stages -> ignoring_case q name -> label q p 0
| l_numbered q name p ds : In (name, p) (stages ++ shortcuts) -> p <> 5 -> ignoring_case q name -> digits ds -> label (q ++ ds) p (natural ds).

(** Components, perhaps followed by a label; a dash may stand between them. *)
Inductive release : jstr -> list N -> Z -> Z -> Prop :=
| r_plain cs : cs <> [] -> release (dotted cs) cs 5 0
| r_label cs sep l p n : cs <> [] -> sep = J "-" \/ sep = [] -> label l p n -> release (dotted cs ++ sep ++ l) cs p n.

(** By components, then by label, then by number. *)
Definition release_order (a : list N) (p n : Z) (b : list N) (p' n' : Z) : comparison :=
  match components_compare a b with
  | Eq => match p ?= p' with Eq => n ?= n' | c => c end
  | c => c
  end.
