(** C59 - C61: shared parsers, shared trees, and the ways evaluation can fail. *)
From Verif Require Import Base JNum BigDec Dates Values Ops Funcs Ast Eval Api Cache SpecCache CacheThreads SpecThreads ThreadFacts Heap SpecHeap HeapFacts
  CompareWitness SpecFailures FailureFacts ShareCases.

(** C59: whatever the number of threads, the schedule, the moments at which entries are dropped and the keys that share a
    lock, every call returns what the plain parser returns, and each thread's calls are answered in order. *)
Theorem C59_answers : forall bin scripts schedule, scripts_collision_free scripts ->
  Forall2 answered_like_plain scripts (workers (trun bin (start scripts) schedule)).
Proof. exact threads_answers. Qed.
Print Assumptions C59_answers.

(** C59: no two threads parse for the same key at the same time ... *)
Theorem C59_exclusive : forall bin scripts schedule i j wi wj ri rj,
  nth_error (workers (trun bin (start scripts) schedule)) i = Some wi -> nth_error (workers (trun bin (start scripts) schedule)) j = Some wj ->
  parsing wi = Some ri -> parsing wj = Some rj -> request_key ri = request_key rj -> i = j.
Proof. exact threads_exclusive. Qed.
Print Assumptions C59_exclusive.

(** ... and a key whose entry is never dropped is parsed successfully at most once, over all threads. *)
Theorem C59_parsed_once : forall bin scripts schedule k, ~ In (Drop k) schedule -> runs_for k (trun bin (start scripts) schedule) <= 1.
Proof. exact threads_parse_once. Qed.
Print Assumptions C59_parsed_once.

(** C59: no deadlock and no starvation: once every thread has moved twice per call of the scripts (in any order, with anything
    in between), all calls have been answered. *)
Theorem C59_finishes : forall bin scripts schedule, rounds (length scripts) (2 * length (concat scripts)) schedule ->
  Forall finished (workers (trun bin (start scripts) schedule)).
Proof. exact threads_finish. Qed.
Print Assumptions C59_finishes.

Example C59_case : scripts_collision_free two_scripts /\
  map (fun w => map (fun a => (parsed (snd a), match result (snd a) with Ok _ => true | Err _ => false end)) (answers w))
    (workers (trun (fun _ => 0) (start two_scripts) two_schedule)) = [[(true, true); (true, false)]; [(false, true)]].
Proof. exact two_threads. Qed.
Example C59_rounds_case : rounds 2 6 (concat (repeat [Tick 1; Tick 0] 6)).
Proof. exact two_rounds. Qed.

(** C60: whatever clients did to the trees they got, the plain parser returns the tree of the text it is given ... *)
Theorem C60_plain_private : forall history x d, let h := plain_run [] history in
  let (h', o) := plain_step h (HCall x d) in returns_tree h' o (parse_expression x d).
Proof. exact plain_private. Qed.
Print Assumptions C60_plain_private.

(** ... and leaves every tree handed out before as it is. *)
Theorem C60_plain_undisturbed : forall h l n x d, holds h l n -> holds (fst (plain_step h (HCall x d))) l n.
Proof. exact plain_undisturbed. Qed.
Print Assumptions C60_plain_undisturbed.

(** C60: the trees of different plain calls have no object in common: whatever is done to objects that existed before the call leaves the tree of the call as it is, and
    whatever is done to objects that the call created leaves the trees handed out before as they are. *)
Theorem C60_plain_new_kept : forall h x d n ws, parse_expression x d = Ok n -> Forall (fun w => nth_error h (fst w) <> None) ws ->
  exists l, snd (plain_step h (HCall x d)) = Some (Ok l) /\ holds (writes ws (fst (plain_step h (HCall x d)))) l n.
Proof. exact new_tree_kept. Qed.
Print Assumptions C60_plain_new_kept.
Theorem C60_plain_old_kept : forall h l n x d ws, holds h l n -> Forall (fun w => nth_error h (fst w) = None) ws ->
  holds (writes ws (fst (plain_step h (HCall x d)))) l n.
Proof. exact old_tree_kept. Qed.
Print Assumptions C60_plain_old_kept.

(** C60: the caching parser does so as long as clients only read ... *)
Theorem C60_cached_readers : forall history x d, read_only history -> collision_free (calls (history ++ [HCall x d])) ->
  let (s', o) := cached_step (cached_run (HState [] []) history) (HCall x d) in returns_tree (objects s') o (parse_expression x d).
Proof. exact cached_shared. Qed.
Print Assumptions C60_cached_readers.

(** ... but not otherwise: it hands out its own object, so a change made by one client (here: of the connective of any
    condition that has one) is what every later client gets for the same text. *)
Theorem C60_cached_refuted : forall x d l r op op', parse_expression x d = Ok (NBool l r op) ->
  exists root, let (s1, o1) := cached_step (HState [] []) (HCall x d) in
    o1 = Some (Ok root) /\ holds (objects s1) root (NBool l r op) /\
    let (s2, o2) := cached_step (fst (cached_step s1 (HWrite root (SetConnective op')))) (HCall x d) in
    o2 = Some (Ok root) /\ holds (objects s2) root (NBool l r op').
Proof. exact cached_changed. Qed.
Print Assumptions C60_cached_refuted.

(** ... and so is every other change the setters and the lists of the top object allow, with any heap of other trees around. *)
Theorem C60_cached_setters_refuted : forall s x d n m n', find_entry (cache_key x d) (entries s) = None -> parse_expression x d = Ok n -> changed (objects s) n m n' ->
  exists root, let (s1, o1) := cached_step s (HCall x d) in
    o1 = Some (Ok root) /\ holds (objects s1) root n /\
    let (s2, o2) := cached_step (fst (cached_step s1 (HWrite root m))) (HCall x d) in
    o2 = Some (Ok root) /\ holds (objects s2) root n'.
Proof. exact cached_setter. Qed.
Print Assumptions C60_cached_setters_refuted.

Example C60_case :
  let d := [(J "a", VInt 5); (J "b", VInt 7)] in
  let s := cached_run (HState [] []) (firstn 2 shared_history) in
  let h := plain_run [] (firstn 2 shared_history) in
  evaluate_boolean witness_env (J "a = 5 AND b = 6") d None = Ok false /\
  seen_by_evaluator (objects (fst (cached_step s (HCall (J "a = 5 AND b = 6") None)))) (snd (cached_step s (HCall (J "a = 5 AND b = 6") None))) d = Some (Ok true) /\
  seen_by_evaluator (fst (plain_step h (HCall (J "a = 5 AND b = 6") None))) (snd (plain_step h (HCall (J "a = 5 AND b = 6") None))) d = Some (Ok false).
Proof. exact shared_case. Qed.

Example C60_kept_case : let h := plain_run [] [HCall (J "a = 5 AND b = 6") None] in let ws := [(6, SetConnective OR); (2, SetLeft 0)] in
  length h = 7 /\ Forall (fun w => nth_error h (fst w) <> None) ws /\ writes ws h <> h /\ exists n, parse_expression (J "a = 5 AND b = 6") None = Ok n /\
  read 9 (writes ws (fst (plain_step h (HCall (J "a = 5 AND b = 6") None)))) 13 = Some n /\ read 9 (writes ws h) 6 <> Some n.
Proof. exact kept_case. Qed.

Example C60_setters_case : exists n, parse_expression (J "f IN (1, 2)") None = Ok n /\ changed [] n (SetItems []) (NIn (Some (J "f")) []) /\
  changed [OField (Some (J "g"))] n (SetItems [0; 0]) (NIn (Some (J "f")) [NField (Some (J "g")); NField (Some (J "g"))]).
Proof. exact setters_case. Qed.

(** C61: evaluating any text on any data ends with a value or with one of the listed exceptions. *)
Theorem C61_condition : forall E s d dflt, (exists b, evaluate_boolean E s d dflt = Ok b) \/
  exists e, evaluate_boolean E s d dflt = Err e /\ In e
    [HeterogeneousArray; InvalidUnaryOperand; DataNotFound; InvalidContainerType; InvalidDataType; InvalidExpression; InvalidFunctionArgument;
     UnsupportedToken; NullPointer; ClassCast; NoSuchElement; NumberFormat; ArithmeticExc; EmptyStack; ArrayIndexOutOfBounds].
Proof. exact condition_ends. Qed.
Print Assumptions C61_condition.

Theorem C61_arithmetic : forall E s d, (exists v, evaluate_arith E s d = Ok v) \/
  exists e, evaluate_arith E s d = Err e /\ In e
    [DataNotFound; InvalidContainerType; InvalidDataType; InvalidExpression; InvalidFunctionArgument;
     UnsupportedToken; NullPointer; ClassCast; NoSuchElement; NumberFormat; ArithmeticExc; EmptyStack; ArrayIndexOutOfBounds].
Proof. exact arithmetic_ends. Qed.
Print Assumptions C61_arithmetic.

(** Every exception of the first list does occur. *)
Example C61_condition_case :
  map (fun s => evaluate_boolean witness_env s failing_data None)
    [J "l CONTAINS_ANY (1,'a')"; J "'t'"; J "zz = 1"; J "a > min(1)"; J "a > true"; J "a AND b"; J "a = days_elapsed(t)"; J "a > (1 + (a = 5))";
     J "a = 2020-99-99"; J "a > -f"; J "a = zz"; J "a = 99999999999999999999"; J "a = (1 / 0)"; J "5 + (a)"; J ". = 5"] =
  map Err condition_failures.
Proof. exact condition_failing. Qed.
Example C61_arithmetic_case :
  map (fun s => evaluate_arith witness_env s failing_data)
    [J "zz + 1"; J "min(5)"; J "a - 'x'"; J "len(l)"; J "days_elapsed(t)"; J "a = 5"; J "a 5 b"; J "-f"; J "99999999999999999999 + 1";
     J "1 / 0"; J "5 + (a)"; J "."] =
  map Err [DataNotFound; InvalidContainerType; InvalidDataType; InvalidExpression; InvalidFunctionArgument; UnsupportedToken; NullPointer;
    ClassCast; NumberFormat; ArithmeticExc; EmptyStack; ArrayIndexOutOfBounds].
Proof. exact arithmetic_failing. Qed.
