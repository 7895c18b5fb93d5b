(** Specification: conditions whose lists and arguments are computed, e.g. [INT ( a / b ) = 3] and [b IN ( a - 5 , 1 )]. *)
From Verif Require Import Base Values Ops Funcs Ast SpecLex SpecSyntax SpecText.

(** Elements separated by commas. *)
Fixpoint listing (wss : list (list jstr)) : list jstr :=
  match wss with [] => [] | [ws] => ws | ws :: wss' => ws ++ J "," :: listing wss' end.

(** [element ws n]: an element of a list or an argument: a field or a literal, two of them with an arithmetic operator between
    them, or a call with such arguments. *)
Inductive element : list jstr -> node -> Prop :=
| element_operand w n : operand w n -> element [w] n
| element_computed x o y m op n : operand x m -> In (o, op) arithmetic_symbols -> operand y n -> element [x; o; y] (NArith m (Some n) op)
| element_call f fn wss ns : In (f, fn) function_names -> wss <> [] -> element_list wss ns -> element (f :: bracketed (listing wss)) (NFunc fn ns)
with element_list : list (list jstr) -> list node -> Prop :=
| elements_none : element_list [] []
| elements_more ws n wss ns : element ws n -> element_list wss ns -> element_list (ws :: wss) (n :: ns).

(** One of the elements is more than a field or a literal. *)
Definition compound (wss : list (list jstr)) : Prop := Exists (fun ws => length ws <> 1%nat) wss.

(** [laden s wss ws n]: a condition [ws] on a list or on a call with the elements [wss], and its expression tree. *)
Inductive laden : sort -> list (list jstr) -> list jstr -> node -> Prop :=
| laden_left f fn wss ns o op y n dt : In (f, fn) function_names -> wss <> [] -> element_list wss ns -> In (o, op) comparators -> operand y n ->
    laden Logic wss ((f :: bracketed (listing wss)) ++ [o; y]) (NCmp (NFunc fn ns) n op dt)
| laden_right f fn wss ns o op y n dt : operand y n -> In (o, op) comparators -> In (f, fn) function_names -> wss <> [] -> element_list wss ns ->
    laden Logic wss (y :: o :: f :: bracketed (listing wss)) (NCmp n (NFunc fn ns) op dt)
| laden_in f i wss ns : field_name f -> In i in_words -> wss <> [] -> element_list wss ns ->
    laden Member wss (f :: i :: bracketed (listing wss)) (NIn (Some f) ns)
| laden_not_in f no i wss ns : field_name f -> In no not_words -> In i in_words -> wss <> [] -> element_list wss ns ->
    laden Logic wss (f :: no :: i :: bracketed (listing wss)) (NBool (NIn (Some f) ns) None NOT)
| laden_contains f c op wss ns : field_name f -> In (c, op) array_operators -> wss <> [] -> element_list wss ns ->
    laden Member wss (f :: c :: bracketed (listing wss)) (NArray (Some f) op ns)
| laden_brackets s wss ws n : laden s wss ws n -> laden s wss (bracketed ws) n
| laden_not s wss no ws n : In no not_words -> laden s wss ws n -> laden Logic wss (no :: bracketed ws) (NBool n None NOT).
