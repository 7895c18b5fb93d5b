(** How large and how deep the tree of an expression is. *)
From Verif Require Import Base Values Ops Funcs Ast Lexer.

(** The number of objects in a tree. *)
Fixpoint objects (n : node) : nat :=
  let all := fix all (l : list node) : nat := match l with [] => 0 | i :: l' => objects i + all l' end in
  match n with
  | NField _ | NUnary _ _ | NRange _ _ _ _ _ => 1
  | NArith a b _ | NBool a b _ => S (objects a + match b with Some b' => objects b' | None => 0 end)
  | NCmp a b _ _ => S (objects a + objects b)
  | NFunc _ items | NIn _ items | NArray _ _ items => S (all items)
  end.

(** The number of objects on the longest path down from the root: how deep a recursion over the tree goes. *)
Fixpoint depth (n : node) : nat :=
  let deepest := fix deepest (l : list node) : nat := match l with [] => 0 | i :: l' => Nat.max (depth i) (deepest l') end in
  match n with
  | NField _ | NUnary _ _ | NRange _ _ _ _ _ => 1
  | NArith a b _ | NBool a b _ => S (Nat.max (depth a) (match b with Some b' => depth b' | None => 0 end))
  | NCmp a b _ _ => S (Nat.max (depth a) (depth b))
  | NFunc _ items | NIn _ items | NArray _ _ items => S (deepest items)
  end.

(** A text has [k] words: the tokens in it, white space and characters that begin no token aside. *)
Definition words_in (s : jstr) (k : nat) : Prop := exists ts, lex s = Ok ts /\ length ts = k.

(** The words of x = (y + 1) = 1 = 1 ... = 1, with [k] times "= 1" at the end. *)
Definition chained (k : nat) : list jstr :=
  [J "x"; J "="; J "("; J "y"; J "+"; J "1"; J ")"] ++ concat (repeat [J "="; J "1"] k).
