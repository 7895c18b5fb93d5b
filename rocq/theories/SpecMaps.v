(** Specification of looking up a field in map objects of any kind. *)
From Verif Require Import Base Values Ops Funcs Ast Eval SpecPath Maps.

(** [reaches g ks x]: asking the maps for the keys [ks] one after the other ends with [x]: an exception, nothing, or a value.
    A nested map that throws a ClassCastException counts as not having the key. *)
Inductive reaches : map_object -> list jstr -> res (option jval) -> Prop :=
| it_throws (g : map_object) k ks e : g k = Err e -> reaches g (k :: ks) (Err e)
| it_has_none (g : map_object) k ks : g k = Ok None -> reaches g (k :: ks) (Ok None)
| it_has (g : map_object) k v : g k = Ok (Some (Plain v)) -> reaches g [k] (Ok (Some v))
| it_has_map (g : map_object) k self g' : g k = Ok (Some (Nested self g')) -> reaches g [k] (Ok (Some self))
| no_map (g : map_object) k k' ks v : g k = Ok (Some (Plain v)) -> (forall es, v <> VMap es) -> reaches g (k :: k' :: ks) (Ok None)
| through_plain (g : map_object) k k' ks es x : g k = Ok (Some (Plain (VMap es))) -> reaches (hash_map es) (k' :: ks) x -> reaches g (k :: k' :: ks) x
| through_map (g : map_object) k k' ks self g' x : g k = Ok (Some (Nested self g')) -> reaches g' (k' :: ks) x -> x <> Err ClassCast -> reaches g (k :: k' :: ks) x
| through_cast (g : map_object) k k' ks self g' : g k = Ok (Some (Nested self g')) -> reaches g' (k' :: ks) (Err ClassCast) -> reaches g (k :: k' :: ks) (Ok None).

(** Two calls of get answer alike. *)
Inductive alike : res (option entry) -> res (option entry) -> Prop :=
| alike_throw e : alike (Err e) (Err e)
| alike_none : alike (Ok None) (Ok None)
| alike_plain v : alike (Ok (Some (Plain v))) (Ok (Some (Plain v)))
| alike_map self g g' : (forall k, alike (g k) (g' k)) -> alike (Ok (Some (Nested self g))) (Ok (Some (Nested self g'))).

(** The histories of calls without those for null. *)
Definition not_for_null (e : nevent) : bool := match e with NCall None _ => false | _ => true end.
(** The answers to the other calls. *)
Fixpoint answers (es : list nevent) (os : list (option (res node))) : list (option (res node)) :=
  match es, os with
  | e :: es', o :: os' => if not_for_null e then o :: answers es' os' else answers es' os'
  | _, _ => []
  end.
