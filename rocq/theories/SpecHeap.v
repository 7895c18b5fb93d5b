(** Specification of shared and private trees. *)
From Verif Require Import Base Ast Api Cache SpecCache Heap.

(** The objects reachable from [l] form the tree [n]. *)
Definition holds (h : heap) (l : loc) (n : node) : Prop := exists depth, read depth h l = Some n.

(** The call returned what the parser makes of the text: its tree, or its failure. *)
Definition returns_tree (h : heap) (o : option (res loc)) (expected : res node) : Prop :=
  match expected with
  | Ok n => exists l, o = Some (Ok l) /\ holds h l n
  | Err e => o = Some (Err e)
  end.

(** The calls of a history, and whether its clients only read. *)
Definition calls (es : list hevent) : list cevent :=
  concat (map (fun e => match e with HCall x d => [Call x d] | HEvict k => [Evict k] | HWrite _ _ => [] end) es).
Definition read_only (es : list hevent) : Prop := forall l m, ~ In (HWrite l m) es.

(** Changes made to some objects, one after the other. *)
Definition writes (ws : list (loc * mutation)) (h : heap) : heap := fold_left (fun h w => write (fst w) (snd w) h) ws h.

(** [changed h n m n']: applied to the top of the tree [n], the setter call [m] gives the tree [n'], when new children are trees of the heap [h]. *)
Inductive changed (h : heap) : node -> mutation -> node -> Prop :=
| changed_left l r op k m : holds h k m -> changed h (NBool l r op) (SetLeft k) (NBool m r op)
| changed_right l r op k m : holds h k m -> changed h (NBool l r op) (SetRight (Some k)) (NBool l (Some m) op)
| changed_no_right l r op : changed h (NBool l r op) (SetRight None) (NBool l None op)
| changed_connective l r op op' : changed h (NBool l r op) (SetConnective op') (NBool l r op')
| changed_arith_left l r op k m : holds h k m -> changed h (NArith l r op) (SetLeft k) (NArith m r op)
| changed_arith_right l r op k m : holds h k m -> changed h (NArith l r op) (SetRight (Some k)) (NArith l (Some m) op)
| changed_arith_no_right l r op : changed h (NArith l r op) (SetRight None) (NArith l None op)
| changed_function f f' ns : changed h (NFunc f ns) (SetFunction f') (NFunc f' ns)
| changed_arguments f ns ks ms : Forall2 (holds h) ks ms -> changed h (NFunc f ns) (SetItems ks) (NFunc f ms)
| changed_members f ns ks ms : Forall2 (holds h) ks ms -> changed h (NIn f ns) (SetItems ks) (NIn f ms)
| changed_contents f op ns ks ms : Forall2 (holds h) ks ms -> changed h (NArray f op ns) (SetItems ks) (NArray f op ms).
