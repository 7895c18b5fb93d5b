(** Specification of threads sharing a caching parser. *)
From Verif Require Import Base Ast Api Cache SpecCache CacheThreads.

(** The scripts never use two calls that give the same text when written expression, underscore, default field. *)
Definition ask (r : request) : cevent := Call (fst r) (snd r).
Definition scripts_collision_free (scripts : list (list request)) : Prop := collision_free (map ask (concat scripts)).

(** Every thread made its calls in order, and the plain parser's answer is what each of them returned. *)
Definition answered_like_plain (script : list request) (w : cthread) : Prop :=
  exists n, map fst (answers w) = firstn n script /\
    forall r o, In (r, o) (answers w) -> result o = parse_expression (fst r) (snd r).

(** How often the parser was run successfully for the key [k], over all threads. *)
Definition ran_for (k : jstr) (a : request * coutcome) : bool :=
  jstr_eqb (fst (fst a) ++ J "_" ++ text_of (snd (fst a))) k && parsed (snd a) && match result (snd a) with Ok _ => true | Err _ => false end.
Definition runs_for (k : jstr) (s : cshared) : nat := length (filter (ran_for k) (concat (map answers (workers s)))).

(** A schedule that consists of [n] stretches in each of which every thread moves at least once, in any order and with
    anything in between. *)
Inductive rounds (threads : nat) : nat -> list tevent -> Prop :=
| rounds_none : rounds threads 0 []
| rounds_more : forall n block es, (forall t, t < threads -> In (Tick t) block) -> rounds threads n es ->
    rounds threads (S n) (block ++ es).
Definition finished (w : cthread) : Prop := waiting w = [] /\ parsing w = None.
