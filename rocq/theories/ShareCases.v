(** Examples for C59 - C61. *)
From Verif Require Import Base JNum BigDec Dates Values Ops Funcs Ast Eval Api Cache SpecCache CacheFacts CacheThreads SpecThreads Heap SpecHeap
  CompareWitness SpecFailures.

(** Two threads ask for the same text, one of them also for an invalid one. *)
Definition two_scripts : list (list request) :=
  [ [(J "a = 5 AND b = 6", None); (J "x AND y", None)]; [(J "a = 5 AND b = 6", None)] ].
(** Thread 0 begins to parse, thread 1 has to wait, an entry is dropped in between. *)
Definition two_schedule : list tevent :=
  [Tick 0; Tick 1; Drop (J "a"); Tick 1; Tick 0; Tick 1; Tick 0; Tick 1; Tick 0; Tick 0].
Lemma two_threads : scripts_collision_free two_scripts /\
  map (fun w => map (fun a => (parsed (snd a), match result (snd a) with Ok _ => true | Err _ => false end)) (answers w))
    (workers (trun (fun _ => 0) (start two_scripts) two_schedule)) = [[(true, true); (true, false)]; [(false, true)]].
Proof.
  split; [|vm_compute; reflexivity]. apply (one_default_collision_free None). intros x d I. cbn in I.
  repeat destruct I as [I|I]; try (injection I as <- <-; reflexivity). destruct I.
Qed.
Lemma two_rounds : rounds 2 6 (concat (repeat [Tick 1; Tick 0] 6)).
Proof.
  cbn. repeat match goal with |- rounds 2 (S ?n) (Tick 1 :: Tick 0 :: ?es) =>
    apply (rounds_more 2 n [Tick 1; Tick 0] es); [intros [|[|t]] L; [right; left; reflexivity | left; reflexivity | lia]|] end.
  constructor.
Qed.

(** A client turns the AND of its tree into an OR: the next client's condition is true of data that do not meet it. *)
Definition shared_history : list hevent :=
  [HCall (J "a = 5 AND b = 6") None; HWrite 6 (SetConnective OR); HCall (J "a = 5 AND b = 6") None].
Definition seen_by_evaluator (h : heap) (o : option (res loc)) (d : data) : option (res bool) :=
  match o with Some (Ok l) => match read 9 h l with Some n => Some (bool_eval witness_env d n) | None => None end | _ => None end.
Lemma shared_case :
  let d := [(J "a", VInt 5); (J "b", VInt 7)] in
  let s := cached_run (HState [] []) (firstn 2 shared_history) in
  let h := plain_run [] (firstn 2 shared_history) in
  evaluate_boolean witness_env (J "a = 5 AND b = 6") d None = Ok false /\
  seen_by_evaluator (objects (fst (cached_step s (HCall (J "a = 5 AND b = 6") None)))) (snd (cached_step s (HCall (J "a = 5 AND b = 6") None))) d = Some (Ok true) /\
  seen_by_evaluator (fst (plain_step h (HCall (J "a = 5 AND b = 6") None))) (snd (plain_step h (HCall (J "a = 5 AND b = 6") None))) d = Some (Ok false).
Proof. vm_compute. auto. Qed.

Lemma kept_case : let h := plain_run [] [HCall (J "a = 5 AND b = 6") None] in let ws := [(6, SetConnective OR); (2, SetLeft 0)] in
  length h = 7 /\ Forall (fun w => nth_error h (fst w) <> None) ws /\ writes ws h <> h /\ exists n, parse_expression (J "a = 5 AND b = 6") None = Ok n /\
  read 9 (writes ws (fst (plain_step h (HCall (J "a = 5 AND b = 6") None)))) 13 = Some n /\ read 9 (writes ws h) 6 <> Some n.
Proof.
  split; [vm_compute; reflexivity|]. split; [repeat constructor; vm_compute; discriminate|]. split; [vm_compute; discriminate|].
  eexists. split; [vm_compute; reflexivity|]. split; [vm_compute; reflexivity|vm_compute; discriminate].
Qed.

Lemma setters_case : exists n, parse_expression (J "f IN (1, 2)") None = Ok n /\ changed [] n (SetItems []) (NIn (Some (J "f")) []) /\
  changed [OField (Some (J "g"))] n (SetItems [0; 0]) (NIn (Some (J "f")) [NField (Some (J "g")); NField (Some (J "g"))]).
Proof.
  exists (NIn (Some (J "f")) [NUnary INTEGER (VInt 1); NUnary INTEGER (VInt 2)]). split; [vm_compute; reflexivity|]. split; constructor; repeat constructor; exists 1; reflexivity.
Qed.

Definition failing_data : data :=
  [(J "a", VInt 5); (J "l", VColl true []); (J "f", VFloat true (J "1.5")); (J "t", VStr (J "2021-02-31"))].
Lemma arithmetic_failing :
  map (fun s => evaluate_arith witness_env s failing_data)
    [J "zz + 1"; J "min(5)"; J "a - 'x'"; J "len(l)"; J "days_elapsed(t)"; J "a = 5"; J "a 5 b"; J "-f"; J "99999999999999999999 + 1";
     J "1 / 0"; J "5 + (a)"; J "."] =
  map Err [DataNotFound; InvalidContainerType; InvalidDataType; InvalidExpression; InvalidFunctionArgument; UnsupportedToken; NullPointer;
    ClassCast; NumberFormat; ArithmeticExc; EmptyStack; ArrayIndexOutOfBounds].
Proof. vm_compute. reflexivity. Qed.
Lemma condition_failing :
  map (fun s => evaluate_boolean witness_env s failing_data None)
    [J "l CONTAINS_ANY (1,'a')"; J "'t'"; J "zz = 1"; J "a > min(1)"; J "a > true"; J "a AND b"; J "a = days_elapsed(t)"; J "a > (1 + (a = 5))";
     J "a = 2020-99-99"; J "a > -f"; J "a = zz"; J "a = 99999999999999999999"; J "a = (1 / 0)"; J "5 + (a)"; J ". = 5"] =
  map Err condition_failures.
Proof. vm_compute. reflexivity. Qed.
