(** C85: comparing two function calls. *)
From Coq Require Import QArith Lia.
From Verif Require Import Base JNum BigDec Dates Values Ops Funcs Ast Eval Lexer Grammar Listener Api SpecCompare SpecArith SpecLex SpecSyntax SpecText SpecWrite
  LexCases TextCases CompareWitness WriteCalls.
Local Open Scope Z_scope.

(** C85: alone, such a comparison compares the values of the two calls. *)
Theorem C85_alone : forall E d dflt f fn ws ms c q g gn vs ns,
  In (f, fn) function_names -> listed ws ms -> In (c, q) comparators -> In (g, gn) function_names -> listed vs ns ->
  evaluate_boolean E (unwords (calls_compared f ws c g vs)) d dflt = bool_eval E d (NCmp (NFunc fn ms) (NFunc gn ns) q STRING).
Proof. exact two_calls. Qed.
Print Assumptions C85_alone.

(** C85: before AND or OR it is one of two conditions, as expected. *)
Theorem C85_first : forall E d dflt s ws2 n o op f fn ws ms c q g gn vs ns,
  In (f, fn) function_names -> listed ws ms -> In (c, q) comparators -> In (g, gn) function_names -> listed vs ns -> In (o, op) connectives -> written Logic s ws2 n ->
  evaluate_boolean E (unwords (bracketed (calls_compared f ws c g vs) ++ o :: bracketed ws2)) d dflt =
    match op with
    | AND => b <- evaluate_boolean E (unwords (calls_compared f ws c g vs)) d dflt ;; if b then bool_eval E d n else Ok false
    | OR => b <- evaluate_boolean E (unwords (calls_compared f ws c g vs)) d dflt ;; if b then Ok true else bool_eval E d n
    | NOT => Err InvalidExpression
    end.
Proof. exact calls_before. Qed.
Print Assumptions C85_first.

(** C85, refuted after AND and OR, with or without parentheses: a conjunction is false whatever the data, a disjunction loses its first condition. *)
Theorem C85_second_refuted : forall E d dflt s ws1 m o op f fn ws ms c q g gn vs ns (paren : bool), written Nothing s ws1 m -> In (o, op) connectives ->
  In (f, fn) function_names -> listed ws ms -> In (c, q) comparators -> In (g, gn) function_names -> listed vs ns ->
  evaluate_boolean E (unwords (bracketed ws1 ++ o :: if paren then bracketed (calls_compared f ws c g vs) else calls_compared f ws c g vs)) d dflt =
    match op with AND => Ok false | _ => evaluate_boolean E (unwords (calls_compared f ws c g vs)) d dflt end.
Proof. exact calls_second. Qed.
Print Assumptions C85_second_refuted.

(** The two orders of one conjunction, and of one disjunction, on data that satisfy or fail to satisfy both. *)
Example C85_case : let d := [(J "a", VInt 1); (J "b", VInt 5); (J "x", VInt 1)] in
  listed [J "a"; J "b"] [NField (Some (J "a")); NField (Some (J "b"))] /\
  calls_compared (J "min") [J "a"; J "b"] (J "<") (J "max") [J "a"; J "b"] = [J "min"; J "("; J "a"; J ","; J "b"; J ")"; J "<"; J "max"; J "("; J "a"; J ","; J "b"; J ")"] /\
  evaluate_boolean witness_env (J "min ( a , b ) < max ( a , b )") d None = Ok true /\
  evaluate_boolean witness_env (J "( min ( a , b ) < max ( a , b ) ) AND ( x = 1 )") d None = Ok true /\
  evaluate_boolean witness_env (J "( x = 1 ) AND ( min ( a , b ) < max ( a , b ) )") d None = Ok false /\
  evaluate_boolean witness_env (J "( min ( a , b ) > max ( a , b ) ) OR ( x = 1 )") d None = Ok true /\
  evaluate_boolean witness_env (J "( x = 1 ) OR ( min ( a , b ) > max ( a , b ) )") d None = Ok false.
Proof.
  cbv zeta. split; [|split; [|split; [|split; [|split; [|split]]]]]; try (vm_compute; reflexivity).
  assert (Fa : field_name (J "a")) by field_name_tac. assert (Fb : field_name (J "b")) by field_name_tac.
  split; [discriminate|]. apply Forall2_cons; [apply o_field, Fa|]. apply Forall2_cons; [apply o_field, Fb|apply Forall2_nil].
Qed.
