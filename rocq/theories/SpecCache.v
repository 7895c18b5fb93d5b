(** Specification of the caching parser's histories. *)
From Verif Require Import Base Ast Api Cache.

(** What the plain parser answers to each call of a history. *)
Definition plain (e : cevent) : option (res node) :=
  match e with Call expr dflt => Some (parse_expression expr dflt) | Evict _ => None end.

(** No two different (expression, default field) pairs of the history give the same text when written
    expression, underscore, default field (an absent default counting as the empty text). *)
Definition text_of (dflt : option jstr) : jstr := match dflt with Some d => d | None => [] end.
Definition collision_free (es : list cevent) : Prop :=
  forall x1 d1 x2 d2, In (Call x1 d1) es -> In (Call x2 d2) es ->
    x1 ++ J "_" ++ text_of d1 = x2 ++ J "_" ++ text_of d2 -> x1 = x2 /\ d1 = d2.

(** All calls of the history use the same default field. *)
Definition one_default (dflt : option jstr) (es : list cevent) : Prop := forall x d, In (Call x d) es -> d = dflt.
