(** C65: the order of the arguments of a function. *)
From Coq Require Import QArith Permutation.
From Verif Require Import Base JNum BigDec Values Ops Funcs Ast Eval Lexer Grammar Listener Api SpecNum SpecCompare SpecFunc SpecTight SpecSyntax SpecText SpecOrder CompareWitness ArgOrder OddCases TextCases.

(** C65: except for MODE, a function gives the same result for the same arguments in any order, for arguments of all types
    and all values, whether it succeeds or fails (members of collections count as arguments). *)
Theorem C65_order : forall E d f items items' ms ms', f <> F_MODE -> arguments E d items ms -> arguments E d items' ms' ->
  Permutation ms ms' -> ~ In VNull ms ->
  same_outcome (arith_eval E d (NFunc f items)) (arith_eval E d (NFunc f items')).
Proof. exact call_order. Qed.
Print Assumptions C65_order.

(** C65: the same for calls written as texts, in any layout. *)
Theorem C65_texts : forall E d f fn ws ws' ns ms t t', In (f, fn) function_names -> fn <> F_MODE -> listed ws ns -> Permutation ws ws' ->
  arguments E d ns ms -> ~ In VNull ms ->
  laid_out (f :: bracketed (commas ws)) t -> laid_out (f :: bracketed (commas ws')) t' ->
  same_outcome (evaluate_arith E t d) (evaluate_arith E t' d).
Proof. exact text_order. Qed.
Print Assumptions C65_texts.

(** C65, refuted for MODE: with several most frequent values the first to be repeated, or the first of all, is returned. *)
Theorem C65_mode_refuted : exists E d ns ns' ms ms', arguments E d ns ms /\ arguments E d ns' ms' /\ Permutation ms ms' /\ ~ In VNull ms /\
  ~ same_outcome (arith_eval E d (NFunc F_MODE ns)) (arith_eval E d (NFunc F_MODE ns')).
Proof. exact mode_order_matters. Qed.
Print Assumptions C65_mode_refuted.

Example C65_case : let d := [(J "a", VColl true [VDec (BD 15 1); VInt 7]); (J "b", VDec (BD 150 2))] in
  arguments witness_env d [NField (Some (J "a")); NField (Some (J "b"))] [VDec (BD 15 1); VInt 7; VDec (BD 150 2)] /\
  laid_out (J "min" :: bracketed (commas [J "a"; J "b"])) (J "min(a, b)") /\ laid_out (J "min" :: bracketed (commas [J "b"; J "a"])) (J "min (b,a)") /\
  evaluate_arith witness_env (J "min(a, b)") d = Ok (VDec (BD 15 1)) /\ evaluate_arith witness_env (J "min (b,a)") d = Ok (VDec (BD 150 2)) /\
  evaluate_arith witness_env (J "sum(a, 'x')") d = Err InvalidDataType /\ evaluate_arith witness_env (J "sum('x', a)") d = Err InvalidDataType.
Proof.
  split; [exists [VColl true [VDec (BD 15 1); VInt 7]; VDec (BD 150 2)]; split; [repeat constructor|reflexivity]|].
  split; [laidout [(J "min", []); (J "(", []); (J "a", []); (J ",", J " "); (J "b", []); (J ")", [])]|].
  split; [laidout [(J "min", J " "); (J "(", []); (J "b", []); (J ",", []); (J "a", []); (J ")", [])]|]. vm_compute. auto.
Qed.
