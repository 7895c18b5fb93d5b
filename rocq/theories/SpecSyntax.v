(** Specification of the surface syntax: operands, and the meaning of a syntax tree by its parts. *)
From Verif Require Import Base JNum BigDec Dates Values Ops Funcs Ast Lexer Grammar SpecArith SpecLex SpecDate.
Local Open Scope Z_scope.

(** [operand w n]: the word [w] is a plain operand, and [n] is the field or the literal it stands for. *)
Inductive operand : jstr -> node -> Prop :=
| o_field f : field_name f -> operand f (NField (Some f))
| o_integer ds : digits ds -> fits32 (natural ds) -> operand ds (NUnary INTEGER (VInt (natural ds)))
| o_long ds : digits ds -> ~ fits32 (natural ds) -> fits64 (natural ds) -> operand ds (NUnary LONG (VLong (natural ds)))
| o_decimal a b : digits a -> digits b -> operand (a ++ J "." ++ b) (NUnary DECIMAL (VDec (BD (natural (a ++ b)) (Z.of_nat (length b)))))
| o_string q s : q = ch "'" \/ q = 34%N -> ~ In q s -> operand (q :: s ++ [q]) (NUnary STRING (VStr s))
| o_true w : In w [J "true"; J "TRUE"] -> operand w (NUnary BOOLEAN (VBool true))
| o_false w : In w [J "false"; J "FALSE"] -> operand w (NUnary BOOLEAN (VBool false))
| o_version c ps : is_digit c = true -> (2 <= length ps)%nat -> Forall digits ps ->
    let w := c :: concat (map (fun p => J "." ++ p) ps) in operand w (NUnary VERSION (VVer w))
| o_date s a : length s = 10%nat -> written_date s a -> operand s (NUnary DATE (VDate a))
| o_datetime s x : length s = 19%nat -> written_datetime s x -> operand s (NUnary DATETIME (VDateTime x)).

(** The operators and the functions as written. *)
Definition arithmetic_symbols : list (jstr * operator) :=
  [ (J "+", ADD); (J "-", SUBTRACT); (J "*", MULTIPLY); (J "/", DIVIDE); (J "%", MODULUS); (J "^", EXPONENT) ].
Definition connectives : list (jstr * logop) :=
  [ (J "AND", AND); (J "and", AND); (J "&&", AND); (J "OR", OR); (J "or", OR); (J "||", OR) ].
Definition function_names : list (jstr * func) :=
  [ (J "MIN", F_MIN); (J "min", F_MIN); (J "MAX", F_MAX); (J "max", F_MAX); (J "AVG", F_AVG); (J "avg", F_AVG);
    (J "SUM", F_SUM); (J "sum", F_SUM); (J "MEAN", F_MEAN); (J "mean", F_MEAN); (J "MODE", F_MODE); (J "mode", F_MODE);
    (J "MEDIAN", F_MEDIAN); (J "median", F_MEDIAN); (J "LEN", F_LEN); (J "len", F_LEN); (J "INT", F_INT); (J "int", F_INT);
    (J "DAYS_ELAPSED", F_DAYS_ELAPSED); (J "days_elapsed", F_DAYS_ELAPSED) ].
Definition array_operators : list (jstr * operator) :=
  [ (J "CONTAINS_ALL", CONTAINS_ALL); (J "contains_all", CONTAINS_ALL);
    (J "CONTAINS_ANY", CONTAINS_ANY); (J "contains_any", CONTAINS_ANY) ].

(** Words put together with single spaces. *)
Fixpoint unwords (ws : list jstr) : jstr :=
  match ws with [] => [] | [w] => w | w :: ws' => w ++ J " " ++ unwords ws' end.

(** [denotes dflt t n]: the tree [n] is put together from the parts of the syntax tree [t] in the obvious way; an omitted
    operand is the default field.  (The data type recorded in a comparison is arbitrary: evaluation does not use it.) *)
Inductive denotes (dflt : option jstr) : ptree -> node -> Prop :=
| d_paren t n : denotes dflt t n -> denotes dflt (PParen t) n
| d_not nt t n : denotes dflt t n -> denotes dflt (PNot nt t) (NBool n None NOT)
| d_neg t n : denotes dflt t n -> denotes dflt (PNeg t) (NArith n None UNARY)
| d_operand k w n : operand w n -> denotes dflt (PTypes (Tok k w)) n
| d_missing next : denotes dflt (PEps next) (NField dflt)
| d_range f to lo hi kl kh a b ta tb : field_name (text f) -> operand lo (NUnary ta a) -> operand hi (NUnary tb b) ->
    denotes dflt (PTo f (Tok kl lo) to (Tok kh hi)) (NRange (Some (text f)) a b ta tb)
| d_func k w fn items ns : In (w, fn) function_names -> denotes_list dflt items ns -> denotes dflt (PFunc (Tok k w) items) (NFunc fn ns)
| d_in f it items ns : field_name (text f) -> denotes_list dflt items ns -> denotes dflt (PIn f None it items) (NIn (Some (text f)) ns)
| d_not_in f nt it items ns : field_name (text f) -> denotes_list dflt items ns ->
    denotes dflt (PIn f (Some nt) it items) (NBool (NIn (Some (text f)) ns) None NOT)
| d_array f k w op items ns : field_name (text f) -> In (w, op) array_operators -> denotes_list dflt items ns ->
    denotes dflt (PArray f (Tok k w) items) (NArray (Some (text f)) op ns)
| d_cmp l k w op r a b dt : In (w, op) comparators -> denotes dflt l a -> denotes dflt r b -> denotes dflt (PCmp l (Tok k w) r) (NCmp a b op dt)
| d_arith l k w op r a b : In (w, op) arithmetic_symbols -> denotes dflt l a -> denotes dflt r b ->
    denotes dflt (PArith l (Tok k w) r) (NArith a (Some b) op)
| d_bin l k w op r a b : In (w, op) connectives -> denotes dflt l a -> denotes dflt r b -> denotes dflt (PBin l (Tok k w) r) (NBool a (Some b) op)
with denotes_list (dflt : option jstr) : list ptree -> list node -> Prop :=
| d_nil : denotes_list dflt [] []
| d_cons t ts n ns : denotes dflt t n -> denotes_list dflt ts ns -> denotes_list dflt (t :: ts) (n :: ns).

(** The syntax trees that the listener handles by their parts.  A plain operand leaves nothing behind; every other tree
    leaves one tree, of one of these sorts: *)
Inductive sort := Nothing | Logic | Member | Arithmetic | Function.
Definition plain (t : ptree) : bool := match t with PTypes _ | PEps _ => true | _ => false end.
Fixpoint sort_of (t : ptree) : sort :=
  match t with
  | PParen t => sort_of t
  | PNot _ _ | PCmp _ _ _ | PBin _ _ _ | PIn _ (Some _) _ _ => Logic
  | PTo _ _ _ _ | PIn _ None _ _ | PArray _ _ _ => Member
  | PNeg _ | PArith _ _ _ => Arithmetic
  | PFunc _ _ => Function
  | PTypes _ | PEps _ => Nothing
  | PBad _ | PFuncErr _ _ | PToErr _ _ | PToOdd _ _ _ _ | PInErr _ _ | PArrayErr _ _ => Nothing  (* no sentence *)
  end.
Definition parenthesised (t : ptree) : Prop := exists t', t = PParen t'.
(** A compound operand of a comparison: parenthesised, or no comparison and no connective *)
Definition fit (t : ptree) : Prop := parenthesised t \/ sort_of t <> Logic.

(** [regular b t]: after a tree of sort [b] (Nothing: at the beginning) the tree [t] is handled by its parts.  The
    elements of lists must be plain operands; a comparison of two plain operands must not come directly after an IN, a
    range, a CONTAINS, a function call or an arithmetic operand; the negation of a plain operand must not come directly
    after an arithmetic operand; only one side of a comparison may be compound. *)
Inductive regular : sort -> ptree -> Prop :=
| g_paren b t : regular b t -> regular b (PParen t)
| g_not b nt t : regular b t -> regular b (PNot nt t)
| g_neg b t : regular b t -> sort_of t = Arithmetic -> regular b (PNeg t)
| g_neg_plain b t : plain t = true -> b <> Arithmetic -> regular b (PNeg t)
| g_range b f lo to hi : regular b (PTo f lo to hi)
| g_func b fn items : forallb plain items = true -> regular b (PFunc fn items)
| g_in b f neg it items : forallb plain items = true -> regular b (PIn f neg it items)
| g_array b f op items : forallb plain items = true -> regular b (PArray f op items)
| g_cmp_plain b l op r : plain l = true -> plain r = true -> b = Nothing \/ b = Logic -> regular b (PCmp l op r)
| g_cmp_right b l op r : plain l = true -> regular b r -> fit r -> regular b (PCmp l op r)
| g_cmp_left b l op r : regular b l -> plain r = true -> fit l -> regular b (PCmp l op r)
| g_arith_plain b l op r : plain l = true -> plain r = true -> regular b (PArith l op r)
| g_arith_right b l op r : plain l = true -> regular b r -> regular b (PArith l op r)
| g_arith_left b l op r : regular b l -> plain r = true -> regular b (PArith l op r)
| g_arith b l op r : regular b l -> regular (sort_of l) r -> regular b (PArith l op r)
| g_bin b l op r : regular b l -> regular (sort_of l) r -> regular b (PBin l op r).

(** List elements that are handled by their parts: plain operands, one arithmetic operator between plain operands, and
    functions of such elements. *)
Inductive simple : ptree -> Prop :=
| s_plain t : plain t = true -> simple t
| s_arith l op r : plain l = true -> plain r = true -> simple (PArith l op r)
| s_func fn items : simples items -> simple (PFunc fn items)
with simples : list ptree -> Prop :=
| s_nil : simples []
| s_cons t ts : simple t -> simples ts -> simples (t :: ts).

(** [loose b t]: like [regular], but lists may have such elements, except in the right part of a connective and of an
    arithmetic operator with two compound parts. *)
Inductive loose : sort -> ptree -> Prop :=
| l_regular b t : regular b t -> loose b t
| l_func b fn items : simples items -> loose b (PFunc fn items)
| l_in b f neg it items : simples items -> loose b (PIn f neg it items)
| l_array b f op items : simples items -> loose b (PArray f op items)
| l_paren b t : loose b t -> loose b (PParen t)
| l_not b nt t : loose b t -> loose b (PNot nt t)
| l_neg b t : loose b t -> sort_of t = Arithmetic -> loose b (PNeg t)
| l_cmp_right b l op r : plain l = true -> loose b r -> fit r -> loose b (PCmp l op r)
| l_cmp_left b l op r : loose b l -> plain r = true -> fit l -> loose b (PCmp l op r)
| l_arith_right b l op r : plain l = true -> loose b r -> loose b (PArith l op r)
| l_arith_left b l op r : loose b l -> plain r = true -> loose b (PArith l op r)
| l_arith b l op r : loose b l -> regular (sort_of l) r -> loose b (PArith l op r)
| l_bin b l op r : loose b l -> regular (sort_of l) r -> loose b (PBin l op r).
