(** Specification: lists with words that do not belong there, e.g. [f IN (1 2, 3)]. *)
From Verif Require Import Base Values Lexer Grammar SpecGrammar SpecRecover.

(** The beginning of a condition on a list: f IN, f CONTAINS_ALL, f CONTAINS_ANY, f NOT IN. *)
Inductive list_opening : list token -> Prop :=
| opening f i : kind f = T_FIELD -> In (kind i) [T_IN; T_CONTAINS_ALL; T_CONTAINS_ANY] -> list_opening [f; i]
| opening_not f n i : kind f = T_FIELD -> kind n = T_NOT -> kind i = T_IN -> list_opening [f; n; i].

Definition literal_token (x : token) : Prop := In (kind x) [T_INTEGER; T_DECIMAL; T_APP_VERSION; T_TRUE; T_FALSE; T_WORD; T_DATE; T_DATETIME].
Definition element_token (x : token) : Prop := kind x = T_FIELD \/ literal_token x.
(** A token that can neither go on with an expression nor end it. *)
Definition stray (u : token) : Prop := level (kind u) = None /\ ~ In (kind u) [T_COMMA; T_RPAREN; T_EOF].
(** A stray token behind an element; behind a field it may not begin a range or a test of the field. *)
Definition stray_after (x u : token) : Prop :=
  stray u /\ (literal_token x \/ kind x = T_FIELD /\ ~ In (kind u) [T_INTEGER; T_DECIMAL; T_NOT; T_IN; T_CONTAINS_ALL; T_CONTAINS_ANY]).

(** [untidy b ds cs]: the rest [ds] of a list is the rest [cs] with stray tokens behind some elements, one behind each ([b]: there is one). *)
Inductive untidy : bool -> list token -> list token -> Prop :=
| untidy_last x : element_token x -> untidy false [x; rparen] [x; rparen]
| untidy_last_stray x u : stray_after x u -> untidy true [x; u; rparen] [x; rparen]
| untidy_more b x ds cs : element_token x -> untidy b ds cs -> untidy b (x :: comma :: ds) (x :: comma :: cs)
| untidy_more_stray b x u ds cs : stray_after x u -> untidy b ds cs -> untidy true (x :: u :: comma :: ds) (x :: comma :: cs).

(** [broken ds cs]: in [ds] more than one stray token follows an element, or one that is the last token, and [cs] is the list that ends there. *)
Inductive broken : list token -> list token -> Prop :=
| broken_here x u junk : stray_after x u -> Forall (fun v => level (kind v) = None /\ kind v <> T_EOF) junk ->
    (forall v rest, junk = v :: rest -> ~ In (kind v) [T_COMMA; T_RPAREN]) -> broken (x :: u :: junk) [x; rparen]
| broken_more x ds cs : element_token x -> broken ds cs -> broken (x :: comma :: ds) (x :: comma :: cs).
