(** B/parser/antlr/CachedBoolParser.java: a Caffeine cache in front of the parser. *)
From Verif Require Import Base Ast Api.

(** The cache key, B/parser/antlr/CachedBoolParser.java:29: expression + "_" + (defaultField or ""). *)
Definition cache_key (expr : jstr) (dflt : option jstr) : jstr :=
  expr ++ J "_" ++ match dflt with Some d => d | None => [] end.

(** The entries currently held. *)
Definition cache := list (jstr * node).
Fixpoint cache_find (k : jstr) (c : cache) : option node :=
  match c with
  | [] => None
  | (k', n) :: c' => if jstr_eqb k' k then Some n else cache_find k c'
  end.

(** One event of a history: a call of parseExpression, or Caffeine dropping an entry.  maximumSize only makes Caffeine
    drop entries at moments of its own choosing, so a history with arbitrary [Evict] events covers every size and
    policy. *)
Inductive cevent := Call (expr : jstr) (dflt : option jstr) | Evict (key : jstr).

(** What a call does: its result, and whether the underlying parser ran. *)
Record coutcome := Outcome { result : res node; parsed : bool }.

(** CachedBoolParser.getNode, B/parser/antlr/CachedBoolParser.java:28-31: Cache.get(key, mapping) returns the entry if
    present; otherwise runs the mapping and stores its value, or propagates its exception and stores nothing.  The
    call is atomic per key (Caffeine's contract). *)
Definition cstep (c : cache) (e : cevent) : cache * option coutcome :=
  match e with
  | Call expr dflt =>
      let k := cache_key expr dflt in
      match cache_find k c with
      | Some n => (c, Some (Outcome (Ok n) false))
      | None =>
          match parse_expression expr dflt with
          | Ok n => ((k, n) :: c, Some (Outcome (Ok n) true))
          | Err x => (c, Some (Outcome (Err x) true))
          end
      end
  | Evict k => (filter (fun e => negb (jstr_eqb (fst e) k)) c, None)
  end.

Fixpoint crun (c : cache) (es : list cevent) : cache * list (option coutcome) :=
  match es with
  | [] => (c, [])
  | e :: es' => let (c1, o) := cstep c e in let (c2, os) := crun c1 es' in (c2, o :: os)
  end.
