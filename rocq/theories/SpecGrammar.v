(** Specification of the grammar's expression trees: src/main/java/resources/BooleanExpression.g4:3-76. *)
From Verif Require Import Base Lexer Grammar.

(** The tokens of a tree, in order. *)
Fixpoint yield (t : ptree) : list token :=
  let separated := fix go (l : list ptree) : list token :=
    match l with [] => [] | [i] => yield i | i :: l' => yield i ++ comma :: go l' end in
  match t with
  | PParen t => lparen :: yield t ++ [rparen]
  | PNot nt t => nt :: yield t
  | PNeg t => minus :: yield t
  | PFunc fn items => fn :: lparen :: separated items ++ [rparen]
  | PTypes tok => [tok]
  | PEps _ => []
  | PTo f lo to hi => [f; lo; to; hi]
  | PIn f neg it items => f :: match neg with Some n => [n] | None => [] end ++ it :: lparen :: separated items ++ [rparen]
  | PArray f op items => f :: op :: lparen :: separated items ++ [rparen]
  | PCmp l op r | PArith l op r | PBin l op r => yield l ++ op :: yield r
  | PBad _ | PFuncErr _ _ | PToErr _ _ | PToOdd _ _ _ _ | PInErr _ _ | PArrayErr _ _ => []  (* never in a tree that [reads] *)
  end.

(** The operators from the loosest to the tightest; negation stands between ^ and the comparators, NOT above all.  All are
    left-associative.  (The order of the alternatives, g4:7-28.) *)
Definition level (k : tkind) : option nat :=
  match k with
  | T_AND | T_OR => Some 1
  | T_SUBTRACT => Some 2
  | T_ADD => Some 3
  | T_MODULUS => Some 4
  | T_MULTIPLY => Some 5
  | T_DIVIDE => Some 6
  | T_EXPONENT => Some 7
  | T_EQ | T_NE | T_GT | T_GE | T_LT | T_LE => Some 9
  | _ => None
  end.
Definition negation_level : nat := 8.
Definition not_level : nat := 10.

Definition comparator (k : tkind) : Prop := In k [T_EQ; T_NE; T_GT; T_GE; T_LT; T_LE].
Definition arithmetic_op (k : tkind) : Prop := In k [T_SUBTRACT; T_ADD; T_MODULUS; T_MULTIPLY; T_DIVIDE; T_EXPONENT].
Definition connective (k : tkind) : Prop := In k [T_AND; T_OR].
Definition number_kind (k : tkind) : Prop := In k [T_INTEGER; T_DECIMAL].
Definition operand_kind (k : tkind) : Prop :=
  In k [T_INTEGER; T_DECIMAL; T_APP_VERSION; T_TRUE; T_FALSE; T_WORD; T_FIELD; T_DATE; T_DATETIME].
Definition function_kind (k : tkind) : Prop :=
  In k [T_MIN; T_MAX; T_SUM; T_AVG; T_MEAN; T_MODE; T_LEN; T_MEDIAN; T_INT; T_DAYS_ELAPSED].
(** The tokens an operand can start with. *)
Definition starter (k : tkind) : Prop := In k [T_LPAREN; T_NOT; T_SUBTRACT] \/ operand_kind k \/ function_kind k.

(** [reads n t next]: [t], followed by the token [next], can stand where only operators of level [n] or tighter may be
    used.  An operand may be missing (PEps) only before a token that cannot start one; a negation extends over a comparator
    that follows. *)
Inductive reads : nat -> ptree -> token -> Prop :=
| r_paren n t next : reads 0 t rparen -> reads n (PParen t) next
| r_not n nt t next : kind nt = T_NOT -> reads not_level t next -> reads n (PNot nt t) next
| r_neg n t next : reads negation_level t next -> ~ comparator (kind next) -> reads n (PNeg t) next
| r_operand n tok next : operand_kind (kind tok) -> reads n (PTypes tok) next
| r_missing n next : ~ starter (kind next) -> reads n (PEps next) next
| r_range n f lo to hi next : kind f = T_FIELD -> number_kind (kind lo) -> kind to = T_TO -> number_kind (kind hi) -> reads n (PTo f lo to hi) next
| r_func n fn items next : function_kind (kind fn) -> reads_items items -> reads n (PFunc fn items) next
| r_in n f it items next : kind f = T_FIELD -> kind it = T_IN -> reads_items items -> reads n (PIn f None it items) next
| r_not_in n f nt it items next : kind f = T_FIELD -> kind nt = T_NOT -> kind it = T_IN -> reads_items items -> reads n (PIn f (Some nt) it items) next
| r_array n f op items next : kind f = T_FIELD -> kind op = T_CONTAINS_ALL \/ kind op = T_CONTAINS_ANY -> reads_items items -> reads n (PArray f op items) next
| r_cmp n m l op r next : comparator (kind op) -> level (kind op) = Some m -> n <= m -> reads m l op -> reads (S m) r next -> reads n (PCmp l op r) next
| r_arith n m l op r next : arithmetic_op (kind op) -> level (kind op) = Some m -> n <= m -> reads m l op -> reads (S m) r next -> reads n (PArith l op r) next
| r_bin n m l op r next : connective (kind op) -> level (kind op) = Some m -> n <= m -> reads m l op -> reads (S m) r next -> reads n (PBin l op r) next
with reads_items : list ptree -> Prop :=
| r_last t : reads 0 t rparen -> reads_items [t]
| r_more t ts : reads 0 t comma -> reads_items ts -> reads_items (t :: ts).

(** The tokens without a choice of text have their text. *)
Definition canonical (t : token) : Prop :=
  (kind t = T_LPAREN -> t = lparen) /\ (kind t = T_RPAREN -> t = rparen) /\ (kind t = T_COMMA -> t = comma) /\
  (kind t = T_SUBTRACT -> t = minus) /\ kind t <> T_EOF.

(** Two trees put together by an operator. *)
Definition join (l : ptree) (op : token) (r : ptree) : ptree :=
  match level (kind op) with
  | Some 9 => PCmp l op r
  | Some 1 => PBin l op r
  | _ => PArith l op r
  end.
(** A chain x o1 y1 o2 y2 ..., grouped from the left. *)
Definition left_chain (x : ptree) (rest : list (token * token)) : ptree := fold_left (fun t oy => join t (fst oy) (PTypes (snd oy))) rest x.
(** The tokens of the chain after x. *)
Definition chain_tokens (rest : list (token * token)) : list token := concat (map (fun oy => [fst oy; snd oy]) rest).
