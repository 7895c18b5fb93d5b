(** Specification: boolean combinations of arbitrary conditions, their classical value, and their left-to-right
    short-circuit meaning, independent of the evaluator. *)
From Verif Require Import Base Ast.

(** A boolean combination; the leaves are arbitrary expression trees. *)
Inductive formula :=
| Leaf (n : node)
| And (f g : formula)
| Or (f g : formula)
| Not (f : formula).

(** The expression tree that a formula denotes. *)
Fixpoint tree_of (f : formula) : node :=
  match f with
  | Leaf n => n
  | And f g => NBool (tree_of f) (Some (tree_of g)) AND
  | Or f g => NBool (tree_of f) (Some (tree_of g)) OR
  | Not f => NBool (tree_of f) None NOT
  end.

Fixpoint leaves (f : formula) : list node :=
  match f with
  | Leaf n => [n]
  | And f g | Or f g => leaves f ++ leaves g
  | Not f => leaves f
  end.

(** Classical truth value under a valuation of the leaves. *)
Fixpoint truth (v : node -> bool) (f : formula) : bool :=
  match f with
  | Leaf n => v n
  | And f g => truth v f && truth v g
  | Or f g => truth v f || truth v g
  | Not f => negb (truth v f)
  end.

(** [means out f r ls]: with [out] giving the result of each leaf, evaluating [f] left to right with short circuit gives
    [r] after having consulted exactly the leaves [ls], in that order. *)
Inductive means (out : node -> res bool) : formula -> res bool -> list node -> Prop :=
| m_leaf n : means out (Leaf n) (out n) [n]
| m_and_false f g ls : means out f (Ok false) ls -> means out (And f g) (Ok false) ls
| m_and_fail f g e ls : means out f (Err e) ls -> means out (And f g) (Err e) ls
| m_and_true f g r ls ms : means out f (Ok true) ls -> means out g r ms -> means out (And f g) r (ls ++ ms)
| m_or_true f g ls : means out f (Ok true) ls -> means out (Or f g) (Ok true) ls
| m_or_fail f g e ls : means out f (Err e) ls -> means out (Or f g) (Err e) ls
| m_or_false f g r ls ms : means out f (Ok false) ls -> means out g r ms -> means out (Or f g) r (ls ++ ms)
| m_not_ok f b ls : means out f (Ok b) ls -> means out (Not f) (Ok (negb b)) ls
| m_not_fail f e ls : means out f (Err e) ls -> means out (Not f) (Err e) ls.

