(** Specification: how conditions react to numbers that rise or fall and to collections that grow or shrink. *)
From Coq Require Import QArith.
From Verif Require Import Base JNum BigDec Dates Values Ops Funcs Ast Eval SpecNum SpecCompare SpecArith SpecFunc SpecPath.

(** [rises E d d' m]: with [d] and with [d'] the operand [m] is a number, with [d'] no smaller one. *)
Definition rises (E : env) (d d' : data) (m : node) : Prop :=
  exists v p v' p', yields E d m v /\ number v p /\ yields E d' m v' /\ number v' p' /\ p <= p'.

(** From [x] to [y] nothing is lost ([up]), or nothing is added. *)
Definition grows (up : bool) (x y : list jval) : Prop := if up then incl x y else incl y x.

(** [trend E d d' up n]: from [d] to [d'] the condition [n] can only turn from false to true ([up]), or only from true to false.
    More-than comparisons follow their left side and go against their right side, less-than comparisons the other way round; NOT
    turns the trend; a condition whose fields do not change has either trend.  CONTAINS_ANY follows the collection and the request,
    CONTAINS_ALL follows the collection and goes against the request, IN follows its list. *)
Inductive trend (E : env) (d d' : data) : bool -> node -> Prop :=
| trend_more_up l r op t : op = GREATER_THAN \/ op = GREATER_THAN_EQUAL -> rises E d d' l -> rises E d' d r -> trend E d d' true (NCmp l r op t)
| trend_more_down l r op t : op = GREATER_THAN \/ op = GREATER_THAN_EQUAL -> rises E d' d l -> rises E d d' r -> trend E d d' false (NCmp l r op t)
| trend_less_up l r op t : op = LESS_THAN \/ op = LESS_THAN_EQUAL -> rises E d' d l -> rises E d d' r -> trend E d d' true (NCmp l r op t)
| trend_less_down l r op t : op = LESS_THAN \/ op = LESS_THAN_EQUAL -> rises E d d' l -> rises E d' d r -> trend E d d' false (NCmp l r op t)
| trend_same up n : (forall f, In f (bool_fields n) -> same_field d d' f) -> trend E d d' up n
| trend_any up f items have have' ms ms' : arith_eval E d (NField (Some f)) = Ok (VColl true have) -> arith_eval E d' (NField (Some f)) = Ok (VColl true have') ->
    ~ In VNull have -> ~ In VNull have' -> list_members E d items ms -> list_members E d' items ms' -> grows up have have' -> grows up ms ms' ->
    trend E d d' up (NArray (Some f) CONTAINS_ANY items)
| trend_all up f items have have' ms ms' : arith_eval E d (NField (Some f)) = Ok (VColl true have) -> arith_eval E d' (NField (Some f)) = Ok (VColl true have') ->
    ~ In VNull have -> ~ In VNull have' -> list_members E d items ms -> list_members E d' items ms' -> grows up have have' -> grows (negb up) ms ms' ->
    trend E d d' up (NArray (Some f) CONTAINS_ALL items)
| trend_in up f items v ms ms' : yields E d (NField (Some f)) v -> yields E d' (NField (Some f)) v ->
    list_members E d items ms -> list_members E d' items ms' -> grows up ms ms' -> trend E d d' up (NIn (Some f) items)
| trend_not up n : trend E d d' (negb up) n -> trend E d d' up (NBool n None NOT)
| trend_join up l r op : op = AND \/ op = OR -> trend E d d' up l -> trend E d d' up r -> trend E d d' up (NBool l (Some r) op).

(** A condition made of such comparisons only, with numbers on both sides of each. *)
Inductive numeric (E : env) (d : data) : node -> Prop :=
| numeric_words l r op t v w p q : In op [GREATER_THAN; GREATER_THAN_EQUAL; LESS_THAN; LESS_THAN_EQUAL] ->
    yields E d l v -> number v p -> yields E d r w -> number w q -> numeric E d (NCmp l r op t)
| numeric_not n : numeric E d n -> numeric E d (NBool n None NOT)
| numeric_join l r op : op = AND \/ op = OR -> numeric E d l -> numeric E d r -> numeric E d (NBool l (Some r) op).

(** Of two numbers the second is no smaller. *)
Definition no_smaller (m m' : jval) : Prop := exists q q', number m q /\ number m' q' /\ q <= q'.
(** Numbers that MIN, MAX and SUM treat exactly: with a decimal among them, or whole numbers that are not too large, with a sum
    that is not too large (C21, C22). *)
Definition precise (ms : list jval) : Prop :=
  Exists decimal ms \/ exists zs, Forall2 whole ms zs /\ Forall (fun z => (Z.abs z <= 2 ^ 53)%Z) zs /\ (Z.abs (whole_total zs) <= 2 ^ 53)%Z.
