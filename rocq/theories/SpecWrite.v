(** Specification: conditions and arithmetic expressions for which there is a text. *)
From Verif Require Import Base Values Ops Funcs Ast SpecCompare SpecLex SpecSyntax SpecText.

(** A field or a literal that can be written as one word. *)
Definition word_for (n : node) : Prop := exists w, operand w n.
(** The arithmetic operators, the comparison operators, and the operators on lists. *)
Definition arithmetic_operator (op : operator) : Prop := In op [ADD; SUBTRACT; MULTIPLY; DIVIDE; MODULUS; EXPONENT].
Definition comparison_operator (op : operator) : Prop := In op [EQUALS; NOT_EQUAL; GREATER_THAN; GREATER_THAN_EQUAL; LESS_THAN; LESS_THAN_EQUAL].

(** [formula first n]: an arithmetic expression of any depth.  A call has fields and literals as arguments; a minus sign before a
    field or a literal is only allowed in the leftmost place ([first]). *)
Inductive formula : bool -> node -> Prop :=
| formula_minus x : word_for x -> formula true (NArith x None UNARY)
| formula_words p x y op : word_for x -> word_for y -> arithmetic_operator op -> formula p (NArith x (Some y) op)
| formula_right p x n op : word_for x -> formula p n -> arithmetic_operator op -> formula p (NArith x (Some n) op)
| formula_left p m y op : formula p m -> word_for y -> arithmetic_operator op -> formula p (NArith m (Some y) op)
| formula_both p m n op : formula p m -> formula false n -> arithmetic_operator op -> formula p (NArith m (Some n) op)
| formula_minus_formula p l r op : formula p (NArith l r op) -> formula p (NArith (NArith l r op) None UNARY)
| formula_call p f xs : xs <> [] -> Forall word_for xs -> formula p (NFunc f xs).

(** [query n]: a condition of any depth.  At least one side of a comparison is a field or a literal. *)
Inductive query : node -> Prop :=
| query_words x y op t : word_for x -> word_for y -> comparison_operator op -> query (NCmp x y op t)
| query_formula_left m y op t : formula true m -> word_for y -> comparison_operator op -> query (NCmp m y op t)
| query_formula_right x n op t : word_for x -> formula true n -> comparison_operator op -> query (NCmp x n op t)
| query_answer_left m y op t : query m -> word_for y -> comparison_operator op -> query (NCmp m y op t)
| query_answer_right x n op t : word_for x -> query n -> comparison_operator op -> query (NCmp x n op t)
| query_range f lo hi t u : field_name f -> word_for (NUnary t lo) -> word_for (NUnary u hi) -> In t [INTEGER; LONG; DECIMAL] -> In u [INTEGER; LONG; DECIMAL] ->
    query (NRange (Some f) lo hi t u)
| query_in f xs : field_name f -> xs <> [] -> Forall word_for xs -> query (NIn (Some f) xs)
| query_contains f op xs : field_name f -> xs <> [] -> Forall word_for xs -> op = CONTAINS_ALL \/ op = CONTAINS_ANY -> query (NArray (Some f) op xs)
| query_not m : query m -> query (NBool m None NOT)
| query_and m n : query m -> query n -> query (NBool m (Some n) AND)
| query_or m n : query m -> query n -> query (NBool m (Some n) OR).

(** The words of a comparison of two calls, as in  min ( a , b ) < max ( c , d ). *)
Definition calls_compared (f : jstr) (ws : list jstr) (c g : jstr) (vs : list jstr) : list jstr := (f :: bracketed (commas ws)) ++ c :: g :: bracketed (commas vs).
