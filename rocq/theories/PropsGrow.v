(** Properties of conditions when collections in the data grow or shrink, and of functions of rising numbers. *)
From Coq Require Import QArith.
From Verif Require Import RecoverFacts.
From Verif Require Import Base JNum BigDec Dates Values Ops Funcs Ast Eval Lexer Grammar Api SpecNum SpecCompare SpecArith SpecFunc SpecLex SpecPath SpecSyntax SpecText SpecChain SpecTrend
  TrendFacts GrowFacts TrendCases CompareWitness.
Local Open Scope Z_scope.

(** C89: CONTAINS_ANY stays true when the collection and the request grow (as long as the request stays of one type). *)
Theorem C89_any : forall E d d' dflt f c ws ns have have' ms ms' t, field_name f -> In (c, CONTAINS_ANY) array_operators -> listed ws ns ->
  arith_eval E d (NField (Some f)) = Ok (VColl true have) -> arith_eval E d' (NField (Some f)) = Ok (VColl true have') -> ~ In VNull have -> ~ In VNull have' ->
  list_members E d ns ms -> list_members E d' ns ms' -> incl have have' -> incl ms ms' -> (forall m, In m ms' -> get_data_type m = t) ->
  evaluate_boolean E (unwords (f :: c :: bracketed (commas ws))) d dflt = Ok true -> evaluate_boolean E (unwords (f :: c :: bracketed (commas ws))) d' dflt = Ok true.
Proof. exact grow_any. Qed.
Print Assumptions C89_any.

(** C89: CONTAINS_ALL stays true when the collection grows and the request shrinks. *)
Theorem C89_all : forall E d d' dflt f c ws ns have have' ms ms' t, field_name f -> In (c, CONTAINS_ALL) array_operators -> listed ws ns ->
  arith_eval E d (NField (Some f)) = Ok (VColl true have) -> arith_eval E d' (NField (Some f)) = Ok (VColl true have') -> ~ In VNull have -> ~ In VNull have' ->
  list_members E d ns ms -> list_members E d' ns ms' -> incl have have' -> incl ms' ms -> (forall m, In m ms' -> get_data_type m = t) ->
  evaluate_boolean E (unwords (f :: c :: bracketed (commas ws))) d dflt = Ok true -> evaluate_boolean E (unwords (f :: c :: bracketed (commas ws))) d' dflt = Ok true.
Proof. exact grow_all. Qed.
Print Assumptions C89_all.

(** C89: IN never turns false when its list grows, and stays true when the new members come last. *)
Theorem C89_in : forall E d d' dflt f i ws ns v ms ms', field_name f -> In i in_words -> listed ws ns ->
  yields E d (NField (Some f)) v -> yields E d' (NField (Some f)) v -> list_members E d ns ms -> list_members E d' ns ms' -> incl ms ms' ->
  evaluate_boolean E (unwords (f :: i :: bracketed (commas ws))) d dflt = Ok true -> evaluate_boolean E (unwords (f :: i :: bracketed (commas ws))) d' dflt <> Ok false.
Proof. exact grow_in. Qed.
Print Assumptions C89_in.

Theorem C89_in_end : forall E d d' dflt f i ws ns v ms more, field_name f -> In i in_words -> listed ws ns ->
  yields E d (NField (Some f)) v -> yields E d' (NField (Some f)) v -> list_members E d ns ms -> list_members E d' ns (ms ++ more) ->
  evaluate_boolean E (unwords (f :: i :: bracketed (commas ws))) d dflt = Ok true -> evaluate_boolean E (unwords (f :: i :: bracketed (commas ws))) d' dflt = Ok true.
Proof. exact grow_in_end. Qed.
Print Assumptions C89_in_end.

(** C89: LEN rises with the number of members, MAX and MIN with the members and MAX also when members are added, MIN when they are
    taken away; SUM rises with its members, INT with its argument, and sums and differences with a decimal with their sides. *)
Theorem C89_len_rises : forall E d d' items ms ms', arguments E d items ms -> arguments E d' items ms' -> (2 <= length ms)%nat -> (length ms <= length ms')%nat ->
  fits32 (Z.of_nat (length ms')) -> Forall finite ms -> Forall finite ms' -> rises E d d' (NFunc F_LEN items).
Proof. exact len_rises. Qed.
Print Assumptions C89_len_rises.

Theorem C89_max_rises : forall E d d' items ms ms' qs qs' v v', arguments E d items ms -> arguments E d' items ms' -> Forall2 number ms qs -> Forall2 number ms' qs' ->
  (2 <= length ms)%nat -> (2 <= length ms')%nat -> precise ms -> precise ms' -> (forall m, In m ms -> exists m', In m' ms' /\ no_smaller m m') ->
  arith_eval E d (NFunc F_MAX items) = Ok v -> arith_eval E d' (NFunc F_MAX items) = Ok v' -> rises E d d' (NFunc F_MAX items).
Proof. exact max_rises. Qed.
Print Assumptions C89_max_rises.

Theorem C89_min_rises : forall E d d' items ms ms' qs qs' v v', arguments E d items ms -> arguments E d' items ms' -> Forall2 number ms qs -> Forall2 number ms' qs' ->
  (2 <= length ms)%nat -> (2 <= length ms')%nat -> precise ms -> precise ms' -> (forall m', In m' ms' -> exists m, In m ms /\ no_smaller m m') ->
  arith_eval E d (NFunc F_MIN items) = Ok v -> arith_eval E d' (NFunc F_MIN items) = Ok v' -> rises E d d' (NFunc F_MIN items).
Proof. exact min_rises. Qed.
Print Assumptions C89_min_rises.

Theorem C89_sum_rises : forall E d d' items ms ms' qs qs' v v', arguments E d items ms -> arguments E d' items ms' -> Forall2 number ms qs -> Forall2 number ms' qs' ->
  (2 <= length ms)%nat -> precise ms -> precise ms' -> Forall2 no_smaller ms ms' ->
  arith_eval E d (NFunc F_SUM items) = Ok v -> arith_eval E d' (NFunc F_SUM items) = Ok v' -> rises E d d' (NFunc F_SUM items).
Proof. exact call_sum_rises. Qed.
Print Assumptions C89_sum_rises.

Theorem C89_int_rises : forall E d d' n v v' q q', arith_eval E d n = Ok v -> arith_eval E d' n = Ok v' -> number v q -> number v' q' -> (q <= q')%Q ->
  (forall z, truncates q z -> fits32 z) -> (forall z, truncates q' z -> fits32 z) -> rises E d d' (NFunc F_INT [n]).
Proof. exact int_rises. Qed.
Print Assumptions C89_int_rises.

Theorem C89_decimal_rises : forall E d d' l r op p q p' q' vl vr vl' vr', arith_eval E d l = Ok vl -> arith_eval E d r = Ok vr -> arith_eval E d' l = Ok vl' -> arith_eval E d' r = Ok vr' ->
  number vl p -> number vr q -> number vl' p' -> number vr' q' -> decimal vl \/ decimal vr -> decimal vl' \/ decimal vr' ->
  (p <= p')%Q -> (op = ADD /\ (q <= q')%Q) \/ (op = SUBTRACT /\ (q' <= q)%Q) -> rises E d d' (bin l op r).
Proof. exact decimal_sum_rises. Qed.
Print Assumptions C89_decimal_rises.

(** C89, refuted for requests of several types: a request that grows can make a condition fail that was true. *)
Theorem C89_request_refuted : exists E d d' f c ws ns have ms ms', field_name f /\ In (c, CONTAINS_ANY) array_operators /\ listed ws ns /\
  arith_eval E d (NField (Some f)) = Ok (VColl true have) /\ arith_eval E d' (NField (Some f)) = Ok (VColl true have) /\
  list_members E d ns ms /\ list_members E d' ns ms' /\ incl ms ms' /\
  evaluate_boolean E (unwords (f :: c :: bracketed (commas ws))) d None = Ok true /\
  evaluate_boolean E (unwords (f :: c :: bracketed (commas ws))) d' None = Err HeterogeneousArray.
Proof. exact grow_request_refuted. Qed.
Print Assumptions C89_request_refuted.

(** NOT ( tags CONTAINS_ALL ( 'a' , 'b' ) ) AND LEN ( marks ) > 1 : a tag is taken away, a mark is added. *)
Example C89_case : let ws := ([J "NOT"] ++ bracketed (J "tags" :: J "CONTAINS_ALL" :: bracketed (commas [J "'a'"; J "'b'"]))) ++ J "AND" :: ((J "LEN" :: bracketed (commas [J "marks"])) ++ [J ">"; J "1"]) in
  let n := NBool (NBool (NArray (Some (J "tags")) CONTAINS_ALL [NUnary STRING (VStr (J "a")); NUnary STRING (VStr (J "b"))]) None NOT)
    (Some (NCmp (NFunc F_LEN [NField (Some (J "marks"))]) (NUnary INTEGER (VInt 1)) GREATER_THAN INTEGER)) AND in
  let d := [(J "tags", VColl true [VStr (J "a"); VStr (J "b")]); (J "marks", VColl true [VInt 1; VInt 2])] in
  let d' := [(J "tags", VColl true [VStr (J "b")]); (J "marks", VColl true [VInt 1; VInt 2; VDec (BD 95 1)])] in
  passage Nothing Logic ws n /\ trend witness_env d d' true n /\
  evaluate_boolean witness_env (unwords ws) d None = Ok false /\ evaluate_boolean witness_env (unwords ws) d' None = Ok true.
Proof. exact grow_case. Qed.

(** Marks 1 and 2 become 3 and 2.5, the decimal x rises from 1.5 to 2.9. *)
Example C89_rises_case : let d := [(J "marks", VColl true [VInt 1; VInt 2]); (J "x", VDec (BD 15 1))] in let d' := [(J "marks", VColl true [VInt 3; VDec (BD 25 1)]); (J "x", VDec (BD 29 1))] in
  let m := [NField (Some (J "marks"))] in
  rises witness_env d d' (NFunc F_MAX m) /\ rises witness_env d d' (NFunc F_MIN m) /\ rises witness_env d d' (NFunc F_SUM m) /\
  rises witness_env d d' (bin (NField (Some (J "x"))) SUBTRACT (lit (VInt 1))) /\ rises witness_env d d' (NFunc F_INT [NField (Some (J "x"))]).
Proof. exact rises_case. Qed.

(** user IN ( allowed ) : someone is put on the list. *)
Example C89_in_case : let d := [(J "user", VStr (J "bo")); (J "allowed", VColl true [VInt 7; VStr (J "bo")])] in
  let d' := [(J "user", VStr (J "bo")); (J "allowed", VColl true [VInt 7; VStr (J "bo"); VStr (J "al")])] in
  field_name (J "user") /\ listed [J "allowed"] [NField (Some (J "allowed"))] /\ yields witness_env d (NField (Some (J "user"))) (VStr (J "bo")) /\
  yields witness_env d' (NField (Some (J "user"))) (VStr (J "bo")) /\ list_members witness_env d [NField (Some (J "allowed"))] [VInt 7; VStr (J "bo")] /\
  list_members witness_env d' [NField (Some (J "allowed"))] ([VInt 7; VStr (J "bo")] ++ [VStr (J "al")]) /\
  evaluate_boolean witness_env (unwords (J "user" :: J "IN" :: bracketed (commas [J "allowed"]))) d None = Ok true.
Proof. exact grow_in_case. Qed.
