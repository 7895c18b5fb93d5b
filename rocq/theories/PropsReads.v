(** C68: evaluation while another thread changes the map and the clock runs. *)
From Verif Require Import Base Dates Values Ops Funcs Ast Eval Lexer Grammar Listener Api SpecPath CompareWitness Reads SpecReads ReadsFacts.

(** C68: the result is that of an evaluation, undisturbed, on any data and day that have what was read at the moments it was read. *)
Theorem C68_seen : forall E w s dflt k D t, as_seen w k (snd (evaluate_boolean_act E w s dflt k)) D t ->
  fst (evaluate_boolean_act E w s dflt k) = evaluate_boolean (on_date E t) s D dflt.
Proof. exact bool_seen. Qed.
Print Assumptions C68_seen.
Theorem C68_seen_arithmetic : forall E w s k D t, as_seen w k (snd (evaluate_arith_act E w s k)) D t ->
  fst (evaluate_arith_act E w s k) = evaluate_arith (on_date E t) s D.
Proof. exact arith_seen. Qed.
Print Assumptions C68_seen_arithmetic.

(** C68: in particular nothing else matters if the map and the day do not change from the first access to the last. *)
Theorem C68_still : forall E w s dflt k, (forall i, k <= i < k + length (snd (evaluate_boolean_act E w s dflt k)) -> w i = w k) ->
  fst (evaluate_boolean_act E w s dflt k) = evaluate_boolean (on_date E (fst (w k))) s (snd (w k)) dflt.
Proof. exact bool_still. Qed.
Print Assumptions C68_still.
Theorem C68_still_arithmetic : forall E w s k, (forall i, k <= i < k + length (snd (evaluate_arith_act E w s k)) -> w i = w k) ->
  fst (evaluate_arith_act E w s k) = evaluate_arith (on_date E (fst (w k))) s (snd (w k)).
Proof. exact arith_still. Qed.
Print Assumptions C68_still_arithmetic.

(** C68: an evaluation looks up fields the expression mentions only, in their order and each mention at most once, and reads the clock at most
    once for each call of DAYS_ELAPSED. *)
Theorem C68_accesses : forall E w s dflt n k, parse_expression s dflt = Ok n ->
  let tr := snd (evaluate_boolean_act E w s dflt k) in
  within (looked_up tr) (bool_fields n) /\ length tr <= length (looked_up tr) + bool_dates n.
Proof. exact bool_accesses. Qed.
Print Assumptions C68_accesses.
Theorem C68_accesses_arithmetic : forall E w s n k, parse_expression s None = Ok n ->
  let tr := snd (evaluate_arith_act E w s k) in
  within (looked_up tr) (arith_fields n) /\ length tr <= length (looked_up tr) + arith_dates n.
Proof. exact arith_accesses. Qed.
Print Assumptions C68_accesses_arithmetic.

(** C68: AND and OR do not access what their right side mentions when the left side decides. *)
Theorem C68_short_circuit : forall E w l r k b tr, bool_act E w l k = (Ok b, tr) ->
  (b = false -> bool_act E w (NBool l (Some r) AND) k = (Ok false, tr)) /\ (b = true -> bool_act E w (NBool l (Some r) OR) k = (Ok true, tr)).
Proof. exact short_circuit. Qed.
Print Assumptions C68_short_circuit.

(** C68: an expression that mentions one field once (for instance a range or an IN list of literals), or calls DAYS_ELAPSED once on a literal,
    is evaluated at one moment. *)
Theorem C68_single : forall E w s dflt n k, parse_expression s dflt = Ok n -> length (bool_fields n) + bool_dates n <= 1 ->
  fst (evaluate_boolean_act E w s dflt k) = evaluate_boolean (on_date E (fst (w k))) s (snd (w k)) dflt.
Proof. exact bool_single. Qed.
Print Assumptions C68_single.
Theorem C68_single_arithmetic : forall E w s n k, parse_expression s None = Ok n -> length (arith_fields n) + arith_dates n <= 1 ->
  fst (evaluate_arith_act E w s k) = evaluate_arith (on_date E (fst (w k))) s (snd (w k)).
Proof. exact arith_single. Qed.
Print Assumptions C68_single_arithmetic.

(** C68: if the names mentioned begin with different keys and DAYS_ELAPSED is called at most once, the result is that on one map and one day, in
    which each field has the value it had at some moment of the evaluation. *)
Theorem C68_mixture : forall E w s dflt n k, parse_expression s dflt = Ok n -> NoDup (map before_dot (bool_fields n)) -> bool_dates n <= 1 ->
  let tr := snd (evaluate_boolean_act E w s dflt k) in
  exists D t, (forall f, In f (bool_fields n) -> exists i, during k tr i /\ same_field (snd (w i)) D f) /\ (exists i, during k tr i /\ t = fst (w i)) /\
    fst (evaluate_boolean_act E w s dflt k) = evaluate_boolean (on_date E t) s D dflt.
Proof. exact bool_mixture. Qed.
Print Assumptions C68_mixture.
Theorem C68_mixture_arithmetic : forall E w s n k, parse_expression s None = Ok n -> NoDup (map before_dot (arith_fields n)) -> arith_dates n <= 1 ->
  let tr := snd (evaluate_arith_act E w s k) in
  exists D t, (forall f, In f (arith_fields n) -> exists i, during k tr i /\ same_field (snd (w i)) D f) /\ (exists i, during k tr i /\ t = fst (w i)) /\
    fst (evaluate_arith_act E w s k) = evaluate_arith (on_date E t) s D.
Proof. exact arith_mixture. Qed.
Print Assumptions C68_mixture_arithmetic.

(** C68, refuted in general: a condition that mentions a field twice may hold although it holds at no moment; it may fail to hold across
    midnight although it holds on every day. *)
Theorem C68_twice_refuted : exists E w s, fst (evaluate_boolean_act E w s None 0) = Ok true /\
  forall i, evaluate_boolean (on_date E (fst (w i))) s (snd (w i)) None = Ok false.
Proof. exact twice_refuted. Qed.
Print Assumptions C68_twice_refuted.
Theorem C68_midnight_refuted : exists E w s, fst (evaluate_boolean_act E w s None 0) = Ok false /\
  (forall i j, snd (w i) = snd (w j)) /\ forall i, evaluate_boolean (on_date E (fst (w i))) s (snd (w i)) None = Ok true.
Proof. exact midnight_refuted. Qed.
Print Assumptions C68_midnight_refuted.

Example C68_case :
  let s := J "(c = 2) AND (a.b 1 TO 5)" in
  let w := fun i => (Date 2024 1 1, if i =? 0 then [(J "c", VInt 2)] else [(J "a", VMap [(J "b", VInt 3)]); (J "c", VInt 7)]) in
  (exists n, parse_expression s None = Ok n /\ bool_fields n = [J "c"; J "a.b"] /\ map before_dot (bool_fields n) = [J "c"; J "a"] /\ bool_dates n = 0) /\
  evaluate_boolean_act witness_env w s None 0 = (Ok true, [Field (J "c"); Field (J "a.b")]) /\
  evaluate_boolean_act witness_env w s None 1 = (Ok false, [Field (J "c")]) /\
  evaluate_boolean witness_env s (snd (w 0)) None = Err DataNotFound /\ evaluate_boolean witness_env s (snd (w 1)) None = Ok false.
Proof. split; [eexists; split; [vm_compute; reflexivity|vm_compute; auto]|]. vm_compute. auto. Qed.
