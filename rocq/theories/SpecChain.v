(** Specification: long expressions with parentheses only where they are wanted, and their meaning as expression trees. *)
From Verif Require Import Base Values Ops Funcs Ast SpecLex SpecSyntax SpecText.

(** [grouped m rest n]: the operands m, n1, n2, ... with the operators op1, op2, ... between them are put together to the tree [n]:
    the last of the loosest operators is applied last, to what stands before it and what stands after it. *)
Inductive grouped : node -> list (operator * node) -> node -> Prop :=
| grouped_alone m : grouped m [] m
| grouped_split m before op n after l r : grouped m before l -> grouped n after r ->
    Forall (fun p => tightness op <= tightness (fst p))%nat before -> Forall (fun p => tightness op < tightness (fst p))%nat after ->
    grouped m (before ++ (op, n) :: after) (NArith l (Some r) op).

(** [terms ws m rest]: the words of an arithmetic expression of any length, with its operands and operators from left to right.  An
    operand is a field or a literal, a call with fields and literals as arguments, or such an expression in parentheses, perhaps
    with a minus sign in front of it. *)
Inductive term : list jstr -> node -> Prop :=
| term_operand w n : operand w n -> term [w] n
| term_call f fn ws ns : In (f, fn) function_names -> listed ws ns -> term (f :: bracketed (commas ws)) (NFunc fn ns)
| term_brackets ws m rest n : terms ws m rest -> rest <> [] -> grouped m rest n -> term (bracketed ws) n
| term_minus ws m rest n : terms ws m rest -> rest <> [] -> grouped m rest n -> term (J "-" :: bracketed ws) (NArith n None UNARY)
with terms : list jstr -> node -> list (operator * node) -> Prop :=
| terms_first ws m : term ws m -> terms ws m []
| terms_next ws m rest o op ws' n : terms ws m rest -> In (o, op) arithmetic_symbols -> term ws' n -> terms (ws ++ o :: ws') m (rest ++ [(op, n)]).

(** [clause b s ws n]: one of the conditions that are joined by AND and OR, as in [written] (SpecText.v), but what stands in
    parentheses ([passage]) is again a text of any length: conditions joined from the left, or an arithmetic expression. *)
Inductive clause : sort -> sort -> list jstr -> node -> Prop :=
| clause_brackets b s ws n : passage b s ws n -> clause b s (bracketed ws) n
| clause_words b x o y m op n dt : b = Nothing \/ b = Logic -> operand x m -> In (o, op) comparators -> operand y n ->
    clause b Logic [x; o; y] (NCmp m n op dt)
| clause_right b s x o ws m op n dt : operand x m -> In (o, op) comparators -> passage b s ws n ->
    clause b Logic (x :: o :: bracketed ws) (NCmp m n op dt)
| clause_left b s ws o y m op n dt : passage b s ws m -> In (o, op) comparators -> operand y n ->
    clause b Logic (bracketed ws ++ [o; y]) (NCmp m n op dt)
| clause_call_left b f fn ws ms o y op n dt : In (f, fn) function_names -> listed ws ms -> In (o, op) comparators -> operand y n ->
    clause b Logic ((f :: bracketed (commas ws)) ++ [o; y]) (NCmp (NFunc fn ms) n op dt)
| clause_call_right b f fn ws ms o y op n dt : operand y n -> In (o, op) comparators -> In (f, fn) function_names -> listed ws ms ->
    clause b Logic (y :: o :: f :: bracketed (commas ws)) (NCmp n (NFunc fn ms) op dt)
| clause_range b f lo to hi x y tx ty : field_name f -> operand lo (NUnary tx x) -> operand hi (NUnary ty y) ->
    In tx [INTEGER; LONG; DECIMAL] -> In ty [INTEGER; LONG; DECIMAL] -> In to to_words -> clause b Member [f; lo; to; hi] (NRange (Some f) x y tx ty)
| clause_in b f i ws ns : field_name f -> In i in_words -> listed ws ns -> clause b Member (f :: i :: bracketed (commas ws)) (NIn (Some f) ns)
| clause_not_in b f no i ws ns : field_name f -> In no not_words -> In i in_words -> listed ws ns ->
    clause b Logic (f :: no :: i :: bracketed (commas ws)) (NBool (NIn (Some f) ns) None NOT)
| clause_contains b f c op ws ns : field_name f -> In (c, op) array_operators -> listed ws ns ->
    clause b Member (f :: c :: bracketed (commas ws)) (NArray (Some f) op ns)
| clause_not b s no ws n : In no not_words -> passage b s ws n -> clause b Logic (no :: bracketed ws) (NBool n None NOT)
| clause_not_member b no ws n : In no not_words -> clause b Member ws n -> clause b Logic (no :: ws) (NBool n None NOT)
with passage : sort -> sort -> list jstr -> node -> Prop :=
| passage_clause b s ws n : clause b s ws n -> passage b s ws n
| passage_join b s1 s2 ws1 o ws2 m op n : passage b s1 ws1 m -> In (o, op) connectives -> clause s1 s2 ws2 n ->
    passage b Logic (ws1 ++ o :: ws2) (NBool m (Some n) op)
| passage_formula b ws m rest n : terms ws m rest -> rest <> [] -> grouped m rest n -> passage b Arithmetic ws n.

(** What may stand first in a row of conditions, and what may stand after other conditions.  An IN, a range or a CONTAINS is
    left out in the first place only: a comparison directly after it is mishandled (C38). *)
Definition opening (ws : list jstr) : Prop := exists n, clause Nothing Logic ws n.
Definition following (ws : list jstr) : Prop := exists s n, clause Logic s ws n.
(** The later members of a row: a connective and a condition each. *)
Definition followers (rest : list (jstr * logop * list jstr)) : Prop := Forall (fun p => In (fst p) connectives /\ following (snd p)) rest.

(** Going on after the answer so far: AND asks the next condition if the answer is true, OR if it is false; a failure stays. *)
Definition go_on (asked : list jstr -> res bool) (sofar : res bool) (next : jstr * logop * list jstr) : res bool :=
  let '(_, op, ws) := next in
  match sofar with
  | Ok b => match op, b with AND, true | OR, false => asked ws | _, _ => Ok b end
  | Err e => Err e
  end.
(** The words of conditions joined by connectives. *)
Definition chained (ws : list jstr) (rest : list (jstr * logop * list jstr)) : list jstr := ws ++ concat (map (fun p => fst (fst p) :: snd p) rest).
