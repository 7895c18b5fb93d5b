(** Specification of the field name a literal is taken for. *)
From Coq Require Import QArith.
From Verif Require Import Base JNum BigDec Dates Values Lexer SpecNum SpecDate SpecMixed SpecAlphabet SpecShown.

(** [spells t f]: the word [t], used as a condition, is looked up as the field [f]: as it stands, without its quotation marks, or printed anew
    as a number, a truth value, a date or a date-time; a day or time that does not exist is looked up as null. *)
Inductive spells (t : token) : jstr -> Prop :=
| as_it_stands : spells t (text t)
| unquoted q f : q = ch "'" \/ q = 34%N -> text t = q :: f ++ [q] -> spells t f
| as_number v x f : kind t = T_INTEGER \/ kind t = T_DECIMAL -> written_number (text t) x -> number v x -> shown v f -> spells t f
| as_truth b f : kind t = T_TRUE \/ kind t = T_FALSE -> (b = true <-> Forall2 lowers (text t) (J "true")) -> shown (VBool b) f -> spells t f
| as_date a f : kind t = T_DATE -> written_date (text t) a -> shown (VDate a) f -> spells t f
| as_datetime x f : kind t = T_DATETIME -> written_datetime (text t) x -> shown (VDateTime x) f -> spells t f
| as_no_date : kind t = T_DATE -> (forall a, ~ written_date (text t) a) -> spells t (J "null")
| as_no_datetime : kind t = T_DATETIME -> (forall x, ~ written_datetime (text t) x) -> spells t (J "null").
