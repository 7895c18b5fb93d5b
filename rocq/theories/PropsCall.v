(** Properties: function calls on arguments of any types. *)
From Coq Require Import QArith.
From Verif Require Import SpecRecover AnyText.
From Verif Require Import Base JNum BigDec Dates Values Ops Funcs Ast Eval Lexer Api SpecLex SpecTight SpecSyntax SpecText SpecOdd OddText OddCases SpecNum SpecBool SpecCompare SpecArith SpecFunc SpecDate
  SpecMixed SpecCall CompareWitness CallFacts LexCases TextCases.
Local Open Scope Z_scope.

(** C71: the outcome of every call whose operands have values. *)
Theorem C71_call : forall E d f items ms ts, arguments E d items ms -> Forall2 argument_type ms ts -> call_outcome E f ms ts (arith_eval E d (NFunc f items)).
Proof. exact any_call. Qed.
Print Assumptions C71_call.
(** C71: the same for a call written as a text, in any layout. *)
Theorem C71_text : forall E d f fn ws ns ms ts t, In (f, fn) function_names -> listed ws ns -> arguments E d ns ms -> Forall2 argument_type ms ts ->
  laid_out (f :: bracketed (commas ws)) t -> call_outcome E fn ms ts (evaluate_arith E t d).
Proof. exact any_call_text. Qed.
Print Assumptions C71_text.
(** C71: NaN and the infinities are refused by every function. *)
Theorem C71_not_finite : forall E d f items ms dbl t, arguments E d items ms -> In (VFloat dbl t) ms -> not_finite t -> takes f (length ms) ->
  arith_eval E d (NFunc f items) = Err InvalidDataType.
Proof. exact not_finite_call. Qed.
Print Assumptions C71_not_finite.
(** C71: if an operand fails, the call fails as the first of them does. *)
Theorem C71_failing : forall E d f before i after ms e, arguments E d before ms -> arith_eval E d i = Err e -> arith_eval E d (NFunc f (before ++ i :: after)) = Err e.
Proof. exact failing_argument. Qed.
Print Assumptions C71_failing.

(** Cases: a list with a null among the arguments, wrong numbers and types of arguments, a sum beyond 64 bits, a far date. *)
Example C71_case : let d := [(J "l", VColl true [VInt 4; VNull]); (J "e", VColl true []); (J "x", VLong 9223372036854775807); (J "s", VStr (J "+12024-02-28")); (J "n", VFloat true (J "NaN"))] in
  let call t := evaluate_arith witness_env t d in
  arguments witness_env d [NField (Some (J "l")); NField (Some (J "x"))] [VInt 4; VNull; VLong 9223372036854775807] /\
  Forall2 argument_type [VInt 4; VNull; VLong 9223372036854775807] [INTEGER; STRING; LONG] /\ takes F_LEN 3 /\ ~ takes F_INT 3 /\ func_supported F_LEN STRING /\ ~ func_supported F_SUM STRING /\
  call (J "len(l, x)") = Ok (VInt 3) /\ call (J "sum(l, x)") = Err InvalidDataType /\ call (J "int(l)") = Err InvalidContainerType /\ call (J "min(x)") = Err InvalidContainerType /\
  call (J "max(e)") = Err InvalidExpression /\ call (J "avg(x, 5)") = Err ArithmeticExc /\ call (J "avg(x, 6)") = Ok (VDec (BD (-461168601842738790150) 2)) /\
  call (J "sum(n, 1)") = Err InvalidDataType /\ call (J "sum(zz, n)") = Err DataNotFound /\ call (J "days_elapsed(s)") = Ok (VLong (-3652483)) /\
  call (J "days_elapsed('2024-02-30')") = Err InvalidFunctionArgument /\ laid_out (J "len" :: bracketed (commas [J "l"; J "x"])) (J "len(l, x)").
Proof.
  cbv zeta. split; [exists [VColl true [VInt 4; VNull]; VLong 9223372036854775807]; split; [repeat constructor|reflexivity]|].
  split; [constructor; [left; apply stands_int; lia|constructor; [right; auto|constructor; [left; apply stands_long; lia|constructor]]]|].
  split; [cbn; lia|]. split; [cbn; lia|]. split; [exact Logic.I|]. split; [cbn; intuition discriminate|].
  do 11 (split; [vm_compute; reflexivity|]). laidout [(J "len", []); (J "(", []); (J "l", []); (J ",", J " "); (J "x", []); (J ")", [])].
Qed.
