(** Specification: what the default locale of the Java virtual machine may change. *)
From Verif Require Import Base Values Ops Ast Lexer SpecLex.

(** The lower-case keywords with an i in them that name functions and containment operators. *)
Definition small_functions : list jstr := [J "min"; J "median"; J "int"].
Definition small_containments : list jstr := [J "contains_all"; J "contains_any"].
Definition capital_containments : list jstr := [J "CONTAINS_ALL"; J "CONTAINS_ANY"].

(** One of the words [ws] is a token of the text [s]. *)
Definition uses (ws : list jstr) (s : jstr) : Prop := exists ps t, splits s ps /\ In t (tokens_of ps) /\ In (text t) ws.

(** Every containment test in the tree turned into an equality test on a list. *)
Fixpoint lost (n : node) : node :=
  match n with
  | NField f => NField f
  | NUnary dt v => NUnary dt v
  | NArith l r op => NArith (lost l) (option_map lost r) op
  | NFunc f items => NFunc f (map lost items)
  | NCmp l r op dt => NCmp (lost l) (lost r) op dt
  | NRange f a b x y => NRange f a b x y
  | NIn f items => NIn f (map lost items)
  | NArray f _ items => NArray f EQUALS (map lost items)
  | NBool l r op => NBool (lost l) (option_map lost r) op
  end.

(** A letter of a word in either case, and a text that spells a word so. *)
Definition spelled (c d : jchar) : Prop := c = d \/ is_upper c = true /\ d = (c + 32)%N.
Definition spells (w v : jstr) : Prop := Forall2 spelled w v.
