(** Specification: ways to rewrite a condition that keep its result, failures included. *)
From Coq Require Import QArith.
From Verif Require Import Base JNum BigDec Dates Version Values Ops Ast Eval SpecNum SpecCompare.

Definition both (x y : node) : node := NBool x (Some y) AND.
Definition any (x y : node) : node := NBool x (Some y) OR.
Definition no (x : node) : node := NBool x None NOT.
Definition truth_literal (b : bool) : node := NUnary BOOLEAN (VBool b).

(** c1 AND c2 AND ..., c1 OR c2 OR ... *)
Fixpoint chain (join : node -> node -> node) (c : node) (cs : list node) : node :=
  match cs with [] => c | c' :: cs' => join c (chain join c' cs') end.

(** Comparison operators that ask the opposite question. *)
Definition opposites : list (operator * operator) :=
  [(EQUALS, NOT_EQUAL); (NOT_EQUAL, EQUALS); (LESS_THAN, GREATER_THAN_EQUAL); (GREATER_THAN_EQUAL, LESS_THAN);
   (GREATER_THAN, LESS_THAN_EQUAL); (LESS_THAN_EQUAL, GREATER_THAN)].

(** A literal: neither null nor a collection. *)
Definition single (v : jval) : Prop := v <> VNull /\ forall l items, v <> VColl l items.

(** A condition, as opposed to an operand of arithmetic. *)
Definition conditional (n : node) : Prop :=
  match n with NCmp _ _ _ _ | NRange _ _ _ _ _ | NIn _ _ | NArray _ _ _ | NBool _ _ _ => True | _ => False end.

Inductive rewrites : node -> node -> Prop :=
(* an equivalence, usable inside AND, OR, NOT and in a condition that is compared with something *)
| r_refl x : rewrites x x
| r_sym x y : rewrites x y -> rewrites y x
| r_trans x y z : rewrites x y -> rewrites y z -> rewrites x z
| r_and x x' y y' : rewrites x x' -> rewrites y y' -> rewrites (both x y) (both x' y')
| r_or x x' y y' : rewrites x x' -> rewrites y y' -> rewrites (any x y) (any x' y')
| r_not x x' : rewrites x x' -> rewrites (no x) (no x')
| r_left x x' op y dt dt' : conditional x -> conditional x' -> rewrites x x' -> rewrites (NCmp x y op dt) (NCmp x' y op dt')
| r_right x op y y' dt dt' : conditional y -> conditional y' -> rewrites y y' -> rewrites (NCmp x y op dt) (NCmp x y' op dt')
(* negation *)
| r_double x : rewrites (no (no x)) x
| r_de_morgan_and x y : rewrites (no (both x y)) (any (no x) (no y))
| r_de_morgan_or x y : rewrites (no (any x y)) (both (no x) (no y))
| r_opposite l r op op' dt dt' : In (op, op') opposites -> rewrites (no (NCmp l r op dt)) (NCmp l r op' dt')
(* grouping, repetition *)
| r_assoc_and x y z : rewrites (both (both x y) z) (both x (both y z))
| r_assoc_or x y z : rewrites (any (any x y) z) (any x (any y z))
| r_again_and x : rewrites (both x x) x
| r_again_or x : rewrites (any x x) x
| r_absorb_and x y : rewrites (both x (any x y)) x
| r_absorb_or x y : rewrites (any x (both x y)) x
| r_distribute_and x y z : rewrites (both x (any y z)) (any (both x y) (both x z))
| r_distribute_or x y z : rewrites (any x (both y z)) (both (any x y) (any x z))
(* the literals true and false *)
| r_true_and x : rewrites (both (truth_literal true) x) x
| r_and_true x : rewrites (both x (truth_literal true)) x
| r_false_and x : rewrites (both (truth_literal false) x) (truth_literal false)
| r_false_or x : rewrites (any (truth_literal false) x) x
| r_or_false x : rewrites (any x (truth_literal false)) x
| r_true_or x : rewrites (any (truth_literal true) x) (truth_literal true)
| r_not_true b : rewrites (no (truth_literal b)) (truth_literal (negb b))
(* ranges whose bounds have the same type; lists of literals *)
| r_range f lo hi t p q dt dt' : bound lo t p -> bound hi t q ->
    rewrites (NRange (Some f) lo hi t t)
             (both (NCmp (NField (Some f)) (lit lo) GREATER_THAN_EQUAL dt) (NCmp (NField (Some f)) (lit hi) LESS_THAN_EQUAL dt'))
| r_in f x xs : to_lower f <> J "null" -> Forall single (x :: xs) ->
    rewrites (NIn (Some f) (map lit (x :: xs))) (chain any (cond (NField (Some f)) EQUALS (lit x)) (map (fun y => cond (NField (Some f)) EQUALS (lit y)) xs))
| r_contains_any f x xs : Forall single (x :: xs) -> Forall (fun y => get_data_type y = get_data_type x) xs ->
    rewrites (NArray (Some f) CONTAINS_ANY (map lit (x :: xs)))
             (chain any (NArray (Some f) CONTAINS_ANY [lit x]) (map (fun y => NArray (Some f) CONTAINS_ANY [lit y]) xs))
| r_contains_all f x xs : Forall single (x :: xs) -> Forall (fun y => get_data_type y = get_data_type x) xs ->
    rewrites (NArray (Some f) CONTAINS_ALL (map lit (x :: xs)))
             (chain both (NArray (Some f) CONTAINS_ALL [lit x]) (map (fun y => NArray (Some f) CONTAINS_ALL [lit y]) xs))
(* the data type recorded in a comparison is irrelevant *)
| r_recorded l r op dt dt' : rewrites (NCmp l r op dt) (NCmp l r op dt').
