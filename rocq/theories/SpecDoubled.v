(** Specification: conditions on a list whose first element has two operators, e.g. [b = 2 AND l CONTAINS_ANY ( a + 1 + 1 , 4 )]. *)
From Verif Require Import Base Values Ops Funcs Ast SpecArith SpecLex SpecSyntax SpecText.
Local Open Scope nat_scope.

(** What becomes of the element x op1 y op2 z: its outer operator is applied twice. *)
Definition twice (x : node) (op1 : operator) (y : node) (op2 : operator) (z : node) : node :=
  if tightness op1 <? tightness op2 then bin x op1 (bin x op1 (bin y op2 z)) else bin (bin (bin x op1 y) op2 z) op2 z.

(** [long_element ws n]: the words of such an element followed by a list of fields and literals, and the nodes they become. *)
Inductive long_element : list jstr -> list node -> Prop :=
| long x o1 op1 y o2 op2 z ws m n p ns : operand x m -> operand y n -> operand z p -> In (o1, op1) arithmetic_symbols -> In (o2, op2) arithmetic_symbols -> listed ws ns ->
    long_element ([x; o1; y; o2; z; J ","] ++ commas ws) (twice m op1 n op2 p :: ns).

Inductive doubled : list jstr -> node -> Prop :=
| doubled_in f i ws ns : field_name f -> In i in_words -> long_element ws ns -> doubled (f :: i :: bracketed ws) (NIn (Some f) ns)
| doubled_not_in f no i ws ns : field_name f -> In no not_words -> In i in_words -> long_element ws ns -> doubled (f :: no :: i :: bracketed ws) (NBool (NIn (Some f) ns) None NOT)
| doubled_contains f c op ws ns : field_name f -> In (c, op) array_operators -> long_element ws ns -> doubled (f :: c :: bracketed ws) (NArray (Some f) op ns).
