(** Specification of list and range tests on values of any types. *)
From Coq Require Import QArith.
From Verif Require Import Base JNum BigDec Dates Values Ops Ast Eval SpecNum SpecCompare SpecMixed.

(** An element of a list: the value of an arithmetic expression, or the truth value of a condition. *)
Inductive element (E : env) (d : data) : node -> res jval -> Prop :=
| computed i : is_arith_base i = true -> element E d i (arith_eval E d i)
| answered i b : is_arith_base i = false -> bool_eval E d i = Ok b -> element E d i (Ok (VBool b))
| unanswered i e : is_arith_base i = false -> bool_eval E d i = Err e -> element E d i (Err e).
(** The elements have values with the members [ms] (nulls may be among them). *)
Definition elements (E : env) (d : data) (items : list node) (ms : list jval) : Prop :=
  exists vs, Forall2 (fun i v => element E d i (Ok v)) items vs /\ ms = flat_map members vs.

(** Asking a question of one after the other until it is answered with yes (or with no), or fails. *)
Inductive some_of {A} (ask : A -> res bool -> Prop) : list A -> res bool -> Prop :=
| some_end : some_of ask [] (Ok false)
| some_yes a l : ask a (Ok true) -> some_of ask (a :: l) (Ok true)
| some_no a l r : ask a (Ok false) -> some_of ask l r -> some_of ask (a :: l) r
| some_fail a l e : ask a (Err e) -> some_of ask (a :: l) (Err e).
Inductive every_of {A} (ask : A -> res bool -> Prop) : list A -> res bool -> Prop :=
| every_end : every_of ask [] (Ok true)
| every_no a l : ask a (Ok false) -> every_of ask (a :: l) (Ok false)
| every_yes a l r : ask a (Ok true) -> every_of ask l r -> every_of ask (a :: l) r
| every_fail a l e : ask a (Err e) -> every_of ask (a :: l) (Err e).

(** Is the value [v] equal to the member [m]?  As in C63; asking for a null is an error. *)
Definition same (c : comparison) : bool := match c with Eq => true | _ => false end.
Inductive equal_to (v : jval) : jval -> res bool -> Prop :=
| equal_read m a b t x y c : stands v a -> stands m b -> meeting EQUALS a b = Some t -> read_as v t x -> read_as m t y -> compared x y c ->
    equal_to v m (Ok (same c))
| equal_refused m a b : stands v a -> stands m b -> incomparable EQUALS v m a b -> equal_to v m (Err InvalidDataType)
| equal_nan_text dbl t : stands v STRING -> not_finite t -> equal_to v (VFloat dbl t) (Ok (jstr_eqb (show v) t))
| equal_nan dbl t a : stands v a -> a <> STRING -> not_finite t -> equal_to v (VFloat dbl t) (Err InvalidDataType)
| equal_null : equal_to v VNull (Err NullPointer).

(** Do two members print to the same text? *)
Inductive prints_as (m : jval) : jval -> res bool -> Prop :=
| prints_same h : m <> VNull -> h <> VNull -> prints_as m h (Ok (same_text m h))
| prints_null h : m = VNull \/ h = VNull -> prints_as m h (Err NullPointer).

(** Every member a Java collection may have, with its type; a null counts as text. *)
Definition member_type (m : jval) (t : dtype) : Prop :=
  stands m t \/ (m = VNull /\ t = STRING) \/ (exists dbl s, m = VFloat dbl s /\ not_finite s /\ t = DECIMAL).
Definition of_one_type (ts : list dtype) : Prop := exists t, forall t', In t' ts -> t' = t.

(** Both tests of a range are made; the first to fail decides. *)
Definition both (x y : res bool) : res bool :=
  match x, y with
  | Err e, _ | _, Err e => Err e
  | Ok a, Ok b => Ok (andb a b)
  end.
