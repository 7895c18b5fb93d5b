(** Specification: expressions as texts, with their meaning as expression trees. *)
From Verif Require Import Base Values Ops Funcs Ast SpecLex SpecSyntax.

Definition not_words : list jstr := [J "NOT"; J "not"].
Definition in_words : list jstr := [J "IN"; J "in"].
Definition to_words : list jstr := [J "TO"; J "to"].

(** Operands separated by commas, in parentheses. *)
Fixpoint commas (ws : list jstr) : list jstr :=
  match ws with [] => [] | [w] => [w] | w :: ws' => w :: J "," :: commas ws' end.
Definition bracketed (ws : list jstr) : list jstr := J "(" :: ws ++ [J ")"].
Definition listed (ws : list jstr) (ns : list node) : Prop := ws <> [] /\ Forall2 operand ws ns.

(** [written b s ws n]: the words [ws] are an expression of sort [s] that means the tree [n]; it may stand directly after
    an expression of sort [b], or (Nothing) at the beginning.  Compound parts are put in parentheses.  Not covered are
    the expressions the library is known to mishandle: a comparison of plain operands directly after an IN, a range, a CONTAINS,
    a function call or an arithmetic expression; the negation of a plain operand directly after an arithmetic expression;
    comparisons of two compound operands; compound list elements; AND, OR, NOT on plain operands. *)
Inductive written : sort -> sort -> list jstr -> node -> Prop :=
| w_paren b s ws n : written b s ws n -> written b s (bracketed ws) n
| w_compare b x o y m op n dt : b = Nothing \/ b = Logic -> operand x m -> In (o, op) comparators -> operand y n ->
    written b Logic [x; o; y] (NCmp m n op dt)
| w_compare_right b s x o ws m op n dt : operand x m -> In (o, op) comparators -> written b s ws n ->
    written b Logic (x :: o :: bracketed ws) (NCmp m n op dt)
| w_compare_left b s ws o y m op n dt : written b s ws m -> In (o, op) comparators -> operand y n ->
    written b Logic (bracketed ws ++ [o; y]) (NCmp m n op dt)
| w_compare_call b f fn ws ms o y op n dt : In (f, fn) function_names -> listed ws ms -> In (o, op) comparators -> operand y n ->
    written b Logic (f :: bracketed (commas ws) ++ [o; y]) (NCmp (NFunc fn ms) n op dt)
| w_range b f lo to hi x y tx ty : field_name f -> operand lo (NUnary tx x) -> operand hi (NUnary ty y) ->
    In tx [INTEGER; LONG; DECIMAL] -> In ty [INTEGER; LONG; DECIMAL] -> In to to_words -> written b Member [f; lo; to; hi] (NRange (Some f) x y tx ty)
| w_in b f i ws ns : field_name f -> In i in_words -> listed ws ns -> written b Member (f :: i :: bracketed (commas ws)) (NIn (Some f) ns)
| w_not_in b f no i ws ns : field_name f -> In no not_words -> In i in_words -> listed ws ns ->
    written b Logic (f :: no :: i :: bracketed (commas ws)) (NBool (NIn (Some f) ns) None NOT)
| w_contains b f c op ws ns : field_name f -> In (c, op) array_operators -> listed ws ns ->
    written b Member (f :: c :: bracketed (commas ws)) (NArray (Some f) op ns)
| w_not b s no ws n : In no not_words -> written b s ws n -> written b Logic (no :: bracketed ws) (NBool n None NOT)
| w_connect b s1 s2 ws1 o ws2 m op n : written b s1 ws1 m -> In (o, op) connectives -> written s1 s2 ws2 n ->
    written b Logic (bracketed ws1 ++ o :: bracketed ws2) (NBool m (Some n) op)
| w_arith b x o y m op n : operand x m -> In (o, op) arithmetic_symbols -> operand y n -> written b Arithmetic [x; o; y] (NArith m (Some n) op)
| w_arith_right b s x o ws m op n : operand x m -> In (o, op) arithmetic_symbols -> written b s ws n ->
    written b Arithmetic (x :: o :: bracketed ws) (NArith m (Some n) op)
| w_arith_left b s ws o y m op n : written b s ws m -> In (o, op) arithmetic_symbols -> operand y n ->
    written b Arithmetic (bracketed ws ++ [o; y]) (NArith m (Some n) op)
| w_arith_both b s1 s2 ws1 o ws2 m op n : written b s1 ws1 m -> In (o, op) arithmetic_symbols -> written s1 s2 ws2 n ->
    written b Arithmetic (bracketed ws1 ++ o :: bracketed ws2) (NArith m (Some n) op)
| w_negation b x m : b <> Arithmetic -> operand x m -> written b Arithmetic [J "-"; x] (NArith m None UNARY)
| w_negation_compound b ws m : written b Arithmetic ws m -> written b Arithmetic (J "-" :: bracketed ws) (NArith m None UNARY)
| w_call b f fn ws ns : In (f, fn) function_names -> listed ws ns -> written b Function (f :: bracketed (commas ws)) (NFunc fn ns).

(** How tight the arithmetic operators bind: each on a level of its own. *)
Definition tightness (op : operator) : nat :=
  match op with SUBTRACT => 2 | ADD => 3 | MODULUS => 4 | MULTIPLY => 5 | DIVIDE => 6 | EXPONENT => 7 | _ => 0 end.

(** A value used as a condition. *)
Definition boolean (r : res jval) : res bool :=
  match r with Ok (VBool b) => Ok b | Ok _ => Err InvalidUnaryOperand | Err e => Err e end.
