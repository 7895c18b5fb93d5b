(** Specification of field lookup and of the fields an expression mentions. *)
From Verif Require Import Base Values Ops Funcs Ast Eval.

(** A name component: not empty, no dot. *)
Definition component (s : jstr) : Prop := s <> [] /\ ~ In (ch ".") s.

(** The written form of a path. *)
Definition path_text (ks : list jstr) : jstr := join (J ".") ks.

(** A Java map has at most one entry for each key, at every nesting level. *)
Inductive proper_value : jval -> Prop :=
| proper_map es : NoDup (map fst es) -> (forall k v, In (k, v) es -> proper_value v) -> proper_value (VMap es)
| proper_other v : (forall es, v <> VMap es) -> proper_value v.
Definition proper_data (d : data) : Prop := proper_value (VMap d).

(** [found d ks v]: walking the nested maps along [ks] ends at the (non-null) value [v]. *)
Inductive found : data -> list jstr -> jval -> Prop :=
| found_last d k v : In (k, v) d -> v <> VNull -> found d [k] v
| found_step d k es ks v : In (k, VMap es) d -> found es ks v -> found d (k :: ks) v.

(** The fields whose values an arithmetic expression uses.  (A negation has only a left operand.) *)
Definition opt_field (f : option jstr) : list jstr := match f with Some s => [s] | None => [] end.
Fixpoint arith_fields (n : node) : list jstr :=
  match n with
  | NField f => opt_field f
  | NArith l r op => arith_fields l ++ match op, r with UNARY, _ => [] | _, Some r' => arith_fields r' | _, None => [] end
  | NFunc _ items => flat_map arith_fields items
  | _ => []
  end.

(** The fields a boolean expression mentions.  A bare literal used as a condition names a field, unless it is a boolean;
    a bare arithmetic expression is the constant false. *)
Fixpoint bool_fields (n : node) : list jstr :=
  let operand := fun m : node => if is_arith_base m then arith_fields m else bool_fields m in
  match n with
  | NField _ | NArith _ _ _ | NFunc _ _ => []
  | NUnary dt v => if dtype_eqb dt BOOLEAN then [] else [show v]
  | NCmp l r _ _ => operand l ++ operand r
  | NRange f _ _ _ _ => opt_field f
  | NIn f items | NArray f _ items => opt_field f ++ flat_map operand items
  | NBool l r op => bool_fields l ++ match op, r with NOT, _ => [] | _, Some r' => bool_fields r' | _, None => [] end
  end.

(** Conditions whose operands are arithmetic expressions, with the fields they use.  Null checks are excepted. *)
Definition null_check (l r : node) (op : operator) : Prop :=
  (op = EQUALS \/ op = NOT_EQUAL) /\ exists f, to_lower f = J "null" /\ (l = NField (Some f) \/ r = NField (Some f)).
Inductive condition : node -> list jstr -> Prop :=
| cond_cmp l r op dt : is_arith_base l = true -> is_arith_base r = true -> ~ null_check l r op ->
    condition (NCmp l r op dt) (arith_fields l ++ arith_fields r)
| cond_range f lo hi t1 t2 : condition (NRange (Some f) lo hi t1 t2) [f]
| cond_in f items : forallb is_arith_base items = true -> condition (NIn (Some f) items) (f :: flat_map arith_fields items)
| cond_array f op items : forallb is_arith_base items = true ->
    condition (NArray (Some f) op items) (f :: flat_map arith_fields items).

(** Two data maps give a field the same value (or both lack it, or both fail). *)
Definition same_field (d1 d2 : data) (f : jstr) : Prop :=
  forall E, arith_eval E d1 (NField (Some f)) = arith_eval E d2 (NField (Some f)).
