(** Trees as objects: B/domain/** are mutable classes (Lombok @Setter on their non-final fields, and lists that getItems hands
    out), and B/parser/antlr/CachedBoolParser.java:28-31 returns the cached object itself. *)
From Verif Require Import Base Values Ops Funcs Ast Api Cache.

(** A reference to a node object. *)
Definition loc := nat.
(** A node object; its children are references.  Fields declared final and of immutable type cannot change. *)
Inductive cell :=
| OField (field : option jstr)                                        (* B/domain/FieldNode.java *)
| OUnary (dt : dtype) (value : jval)                                  (* B/domain/arithmetic/UnaryNode.java *)
| OArith (left : loc) (right : option loc) (op : operator)            (* B/domain/arithmetic/ArithmeticNode.java *)
| OFunc (f : func) (items : list loc)                                 (* B/domain/arithmetic/ArithmeticFunctionNode.java *)
| OCmp (left right : loc) (op : operator) (dt : dtype)                (* B/domain/logical/ComparisonNode.java *)
| ORange (field : option jstr) (from to : jval) (fdt tdt : dtype)     (* B/domain/logical/NumericRangeNode.java *)
| OIn (field : option jstr) (items : list loc)                        (* B/domain/logical/InNode.java *)
| OArray (field : option jstr) (op : operator) (items : list loc)     (* B/domain/logical/ArrayNode.java *)
| OBool (left : loc) (right : option loc) (op : logop).               (* B/domain/logical/BooleanNode.java *)

(** The objects created so far; a reference is a position. *)
Definition heap := list cell.

(** The listener creates every node with new (B/parser/antlr/BooleanFilterListener.java, the constructors and builders), so a parse
    puts a tree of new objects on the heap.  (Simplification: all at once, when the parse is over.) *)
Definition create (c : cell) (h : heap) : loc * heap := (length h, h ++ [c]).
Fixpoint alloc (n : node) (h : heap) {struct n} : loc * heap :=
  let alloc_opt o h := match o with None => (None, h) | Some m => let (a, h1) := alloc m h in (Some a, h1) end in
  let alloc_list := fix go (l : list node) (h : heap) : list loc * heap :=
    match l with
    | [] => ([], h)
    | m :: l' => let (a, h1) := alloc m h in let (b, h2) := go l' h1 in (a :: b, h2)
    end in
  match n with
  | NField f => create (OField f) h
  | NUnary dt v => create (OUnary dt v) h
  | NArith l r op => let (a, h1) := alloc l h in let (b, h2) := alloc_opt r h1 in create (OArith a b op) h2
  | NFunc f l => let (a, h1) := alloc_list l h in create (OFunc f a) h1
  | NCmp l r op dt => let (a, h1) := alloc l h in let (b, h2) := alloc r h1 in create (OCmp a b op dt) h2
  | NRange f v w dv dw => create (ORange f v w dv dw) h
  | NIn f l => let (a, h1) := alloc_list l h in create (OIn f a) h1
  | NArray f op l => let (a, h1) := alloc_list l h in create (OArray f op a) h1
  | NBool l r op => let (a, h1) := alloc l h in let (b, h2) := alloc_opt r h1 in create (OBool a b op) h2
  end.

(** What an evaluator sees when it follows the references from [l], at most [depth] deep. *)
Fixpoint read (depth : nat) (h : heap) (l : loc) : option node :=
  match depth with
  | O => None
  | S depth' =>
      let read_opt o := match o with None => Some None | Some m => option_map Some (read depth' h m) end in
      let read_list := fix go (ls : list loc) : option (list node) :=
        match ls with
        | [] => Some []
        | m :: ls' => match read depth' h m, go ls' with Some a, Some b => Some (a :: b) | _, _ => None end
        end in
      match nth_error h l with
      | None => None
      | Some (OField f) => Some (NField f)
      | Some (OUnary dt v) => Some (NUnary dt v)
      | Some (OArith a b op) => match read depth' h a, read_opt b with Some x, Some y => Some (NArith x y op) | _, _ => None end
      | Some (OFunc f ls) => option_map (NFunc f) (read_list ls)
      | Some (OCmp a b op dt) => match read depth' h a, read depth' h b with Some x, Some y => Some (NCmp x y op dt) | _, _ => None end
      | Some (ORange f v w dv dw) => Some (NRange f v w dv dw)
      | Some (OIn f ls) => option_map (NIn f) (read_list ls)
      | Some (OArray f op ls) => option_map (NArray f op) (read_list ls)
      | Some (OBool a b op) => match read depth' h a, read_opt b with Some x, Some y => Some (NBool x y op) | _, _ => None end
      end
  end.

(** What a client can do to an object: the setters Lombok generates (BooleanNode.java:16-23, ArithmeticNode.java:17-22,
    ArithmeticFunctionNode.java:18-21) and changes to the list behind getItems (ArithmeticFunctionNode.java:24, InNode.java:17,
    ArrayNode.java:20).  [None] is a call the class does not have. *)
Inductive mutation := SetLeft (l : loc) | SetRight (r : option loc) | SetConnective (op : logop) | SetFunction (f : func) | SetItems (ls : list loc).
Definition mutate (m : mutation) (c : cell) : option cell :=
  match m, c with
  | SetLeft l, OBool _ r op => Some (OBool l r op)
  | SetRight r, OBool l _ op => Some (OBool l r op)
  | SetConnective op, OBool l r _ => Some (OBool l r op)
  | SetLeft l, OArith _ r op => Some (OArith l r op)
  | SetRight r, OArith l _ op => Some (OArith l r op)
  | SetFunction f, OFunc _ ls => Some (OFunc f ls)
  | SetItems ls, OFunc f _ => Some (OFunc f ls)
  | SetItems ls, OIn f _ => Some (OIn f ls)
  | SetItems ls, OArray f op _ => Some (OArray f op ls)
  | _, _ => None
  end.
Fixpoint overwrite (l : loc) (c : cell) (h : heap) : heap :=
  match h, l with
  | [], _ => []
  | _ :: h', O => c :: h'
  | x :: h', S l' => x :: overwrite l' c h'
  end.
Definition write (l : loc) (m : mutation) (h : heap) : heap :=
  match nth_error h l with
  | Some c => match mutate m c with Some c' => overwrite l c' h | None => h end
  | None => h
  end.

(** A history: calls of parseExpression, changes to objects by their users, and Caffeine dropping entries. *)
Inductive hevent := HCall (expr : jstr) (dflt : option jstr) | HWrite (l : loc) (m : mutation) | HEvict (key : jstr).

(** BoolParser.parseExpression, B/parser/antlr/BoolParser.java:19-43 *)
Definition plain_step (h : heap) (e : hevent) : heap * option (res loc) :=
  match e with
  | HCall x d => match parse_expression x d with Ok n => let (l, h1) := alloc n h in (h1, Some (Ok l)) | Err y => (h, Some (Err y)) end
  | HWrite l m => (write l m h, None)
  | HEvict _ => (h, None)
  end.
Definition plain_run (h : heap) (es : list hevent) : heap := fold_left (fun h e => fst (plain_step h e)) es h.

(** CachedBoolParser.parseExpression, B/parser/antlr/CachedBoolParser.java:18-31: the entries hold references. *)
Record hstate := HState { objects : heap; entries : list (jstr * loc) }.
Fixpoint find_entry (k : jstr) (c : list (jstr * loc)) : option loc :=
  match c with
  | [] => None
  | (k', l) :: c' => if jstr_eqb k' k then Some l else find_entry k c'
  end.
Definition cached_step (s : hstate) (e : hevent) : hstate * option (res loc) :=
  match e with
  | HCall x d =>
      let k := cache_key x d in
      match find_entry k (entries s) with
      | Some l => (s, Some (Ok l))
      | None =>
          match parse_expression x d with
          | Ok n => let (l, h1) := alloc n (objects s) in (HState h1 ((k, l) :: entries s), Some (Ok l))
          | Err y => (s, Some (Err y))
          end
      end
  | HWrite l m => (HState (write l m (objects s)) (entries s), None)
  | HEvict k => (HState (objects s) (filter (fun e => negb (jstr_eqb (fst e) k)) (entries s)), None)
  end.
Definition cached_run (s : hstate) (es : list hevent) : hstate := fold_left (fun s e => fst (cached_step s e)) es s.
