(** Specification: which part of a rejected text the message quotes. *)
From Verif Require Import Base Values Ops Ast Lexer Grammar SpecGrammar.
Local Open Scope list_scope.

(** [inside u t]: the expression [u] is a part of the expression [t]. *)
Inductive inside (u : ptree) : ptree -> Prop :=
| inside_whole : inside u u
| inside_paren t : inside u t -> inside u (PParen t)
| inside_not no t : inside u t -> inside u (PNot no t)
| inside_minus t : inside u t -> inside u (PNeg t)
| inside_call f i items : In i items -> inside u i -> inside u (PFunc f items)
| inside_in f no w i items : In i items -> inside u i -> inside u (PIn f no w items)
| inside_contains f o i items : In i items -> inside u i -> inside u (PArray f o items)
| inside_compare_left l o r : inside u l -> inside u (PCmp l o r)
| inside_compare_right l o r : inside u r -> inside u (PCmp l o r)
| inside_compute_left l o r : inside u l -> inside u (PArith l o r)
| inside_compute_right l o r : inside u r -> inside u (PArith l o r)
| inside_connect_left l o r : inside u l -> inside u (PBin l o r)
| inside_connect_right l o r : inside u r -> inside u (PBin l o r).

(** The words of an expression put together without white space. *)
Definition words_of (t : ptree) : jstr := concat (map text (yield t)).
(** Not a field, a literal or nothing. *)
Definition compound (t : ptree) : Prop := match t with PTypes _ | PEps _ => False | _ => True end.
(** In parentheses, or made with NOT, a minus sign, CONTAINS_ALL, CONTAINS_ANY, AND or OR. *)
Definition odd_element (t : ptree) : Prop := match t with PParen _ | PNot _ _ | PNeg _ | PArray _ _ _ | PBin _ _ _ => True | _ => False end.

(** The message about a part: AND or OR without two conditions; an arithmetic operator without two values on compound sides; what may not be
    a side of a comparison or an element of a list. *)
Inductive complaint : ptree -> jstr -> Prop :=
| complaint_connective l o r : complaint (PBin l o r) (J "Error parsing binary expression for the string " ++ words_of (PBin l o r))
| complaint_operator l o r : compound l -> compound r -> complaint (PArith l o r) (J "Error parsing expression for the string " ++ words_of (PArith l o r))
| complaint_element t : odd_element t -> complaint t (J "Array does not support this expression " ++ words_of t).
