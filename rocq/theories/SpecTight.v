(** Where white space may be left out between two tokens. *)
From Verif Require Import Base Lexer SpecLex.

(** [touching a b]: text [b] directly after the token text [a] does not prolong it.  Two characters that can both be part of
    a word do not meet; "=" does not follow ">" or "<"; "-" does not follow four digits (they could begin a date). *)
Definition touching (a b : jstr) : Prop :=
  forall c b', b = c :: b' ->
    (word_char (last a c) = true -> word_char c = false) /\
    (a = J ">" \/ a = J "<" -> c <> ch "=") /\
    (Forall (fun d => is_digit d = true) a -> length a = 4%nat -> c <> ch "-").

(** Words one after the other, with white space where there has to be some and wherever else one likes. *)
Inductive laid : list jstr -> jstr -> Prop :=
| laid_last a w : blanks w -> laid [a] (a ++ w)
| laid_more a b ws w s : blanks w -> w <> [] \/ touching a b -> laid (b :: ws) s -> laid (a :: b :: ws) (a ++ w ++ s).
Definition laid_out (ws : list jstr) (s : jstr) : Prop :=
  (ws = [] /\ blanks s) \/ exists w s', blanks w /\ laid ws s' /\ s = w ++ s'.
