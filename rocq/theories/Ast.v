(** The trees produced by the parser: B/domain/**. *)
From Verif Require Import Base Values Ops Funcs.

(** B/constant/LogicalOperationType.java:7-11 *)
Inductive logop := AND | OR | NOT.

(** [NField None] is a FieldNode with a null name (an omitted operand without a default field);
    [NArith l None UNARY] has a null right child, [NBool l None NOT] likewise. *)
Inductive node :=
| NField (field : option jstr)                                         (* B/domain/FieldNode.java *)
| NUnary (dt : dtype) (value : jval)                                   (* B/domain/arithmetic/UnaryNode.java *)
| NArith (left : node) (right : option node) (op : operator)           (* B/domain/arithmetic/ArithmeticNode.java *)
| NFunc (f : func) (items : list node)                                 (* B/domain/arithmetic/ArithmeticFunctionNode.java *)
| NCmp (left right : node) (op : operator) (dt : dtype)                (* B/domain/logical/ComparisonNode.java *)
| NRange (field : option jstr) (from to : jval) (fdt tdt : dtype)      (* B/domain/logical/NumericRangeNode.java *)
| NIn (field : option jstr) (items : list node)                        (* B/domain/logical/InNode.java *)
| NArray (field : option jstr) (op : operator) (items : list node)     (* B/domain/logical/ArrayNode.java *)
| NBool (left : node) (right : option node) (op : logop).              (* B/domain/logical/BooleanNode.java *)

(** instanceof ArithmeticBaseNode: FieldNode, UnaryNode, ArithmeticNode, ArithmeticFunctionNode *)
Definition is_arith_base (n : node) : bool :=
  match n with NField _ | NUnary _ _ | NArith _ _ _ | NFunc _ _ => true | _ => false end.
