(** Specification: values written into the text of an expression. *)
From Coq Require Import QArith.
From Verif Require Import Base JNum BigDec Dates Values Ops Lexer SpecNum SpecLex SpecDate SpecRecover.

(** The comparison that a program puts together from an operand, an operator and the text of a value. *)
Definition comparison_text (x sym t : jstr) : jstr := x ++ J " " ++ sym ++ J " " ++ t.

(** Numbers whose text (toString) has no exponent, and has a point or fits a long without regard to the sign. *)
Definition plain_number (u : jval) (q : Q) : Prop :=
  number u q /\ ~ In (ch "E") (show u) /\
  (In (ch ".") (show u) \/ (- inject_Z 9223372036854775808 < q /\ q < inject_Z 9223372036854775808)%Q).

(** Values that can be written as a single word: plain numbers that are not negative, booleans, dates of the years 1 to 9999, texts
    without the quote they are put in. *)
Inductive insertable : jval -> jstr -> Prop :=
| i_number u q : plain_number u q -> (0 <= q)%Q -> (forall r, show u <> J "-" ++ r) -> insertable u (show u)
| i_bool b : insertable (VBool b) (show (VBool b))
| i_date a : calendar a -> (1 <= year a <= 9999)%Z -> insertable (VDate a) (show (VDate a))
| i_text q s : q = ch "'" \/ q = 34%N -> ~ In q s -> insertable (VStr s) (q :: s ++ [q]).
(** The value read is the one that was written: the same number, or the same object. *)
Definition same_value (u w : jval) : Prop := u = w \/ exists q, number u q /\ number w q.

(** What Java prints for a decimal, a double or a float in scientific notation: the letter E occurs. *)
Definition scientific (t : jstr) : Prop := In (ch "E") t.

(** The text begins no token that is an operator. *)
Definition no_operator_text (s : jstr) : Prop := forall ps, splits s ps -> no_operator_first (tokens_of ps).
