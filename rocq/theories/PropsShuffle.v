(** Properties of the order of the members of a collection. *)
From Coq Require Import QArith Permutation.
From Verif Require Import RecoverFacts.
From Verif Require Import Base JNum BigDec Dates Values Ops Funcs Ast Eval Lexer Grammar Api SpecNum SpecCompare SpecArith SpecFunc SpecDate SpecLex SpecPath SpecSyntax SpecText SpecChain SpecTrend SpecRepr SpecMixed SpecForm SpecCourse SpecStamp SpecOrder SpecList SpecShuffle
  ShuffleFacts ShuffleCases CompareWitness.
Local Open Scope Z_scope.

(** C96: with collections in another order, a condition on membership never gives the opposite answer. *)
Theorem C96_condition : forall E d d' n, shuffled E d d' n -> forall a b, bool_eval E d n = Ok a -> bool_eval E d' n = Ok b -> a = b.
Proof. exact shuffled_unopposed. Qed.
Print Assumptions C96_condition.

(** C96: the same for texts of any length. *)
Theorem C96_text : forall E d d' dflt s ws n a b, passage Nothing s ws n -> shuffled E d d' n ->
  evaluate_boolean E (unwords ws) d dflt = Ok a -> evaluate_boolean E (unwords ws) d' dflt = Ok b -> a = b.
Proof. exact shuffled_text. Qed.
Print Assumptions C96_text.

(** C96: if the value can be compared with every member, IN has the same outcome. *)
Theorem C96_in : forall E d d' f items v ms ms', arith_eval E d (NField (Some f)) = Ok v -> arith_eval E d' (NField (Some f)) = Ok v ->
  elements E d items ms -> elements E d' items ms' -> same_members ms ms' -> (forall m, In m ms -> exists b, equal_to v m (Ok b)) -> (exists a, stands v a) -> (forall m, In m ms -> exists t, member_type m t) ->
  bool_eval E d (NIn (Some f) items) = bool_eval E d' (NIn (Some f) items).
Proof. exact in_exact. Qed.
Print Assumptions C96_in.

(** C96: without nulls, CONTAINS_ALL and CONTAINS_ANY have the same outcome, failures included. *)
Theorem C96_contains : forall E d d' f op items have have' ms ms', In op [CONTAINS_ALL; CONTAINS_ANY] ->
  arith_eval E d (NField (Some f)) = Ok (VColl true have) -> arith_eval E d' (NField (Some f)) = Ok (VColl true have') -> same_members have have' ->
  elements E d items ms -> elements E d' items ms' -> same_members ms ms' -> ~ In VNull have -> ~ In VNull ms ->
  bool_eval E d (NArray (Some f) op items) = bool_eval E d' (NArray (Some f) op items).
Proof. exact contains_exact. Qed.
Print Assumptions C96_contains.

(** C96: a function other than MODE gives the same value. *)
Theorem C96_call : forall E d d' f items ms ms', f <> F_MODE -> arguments E d items ms -> arguments E d' items ms' -> Permutation ms ms' -> ~ In VNull ms ->
  same_outcome (arith_eval E d (NFunc f items)) (arith_eval E d' (NFunc f items)).
Proof. exact call_reordered. Qed.
Print Assumptions C96_call.
(** C96: so it may be compared with numbers (C90). *)
Theorem C96_compared : forall E d d' f items ms ms' v q, f <> F_MODE -> arguments E d items ms -> arguments E d' items ms' -> Permutation ms ms' -> ~ In VNull ms ->
  arith_eval E d (NFunc f items) = Ok v -> number v q -> same_measure E d d' (NFunc f items).
Proof. exact call_measure. Qed.
Print Assumptions C96_compared.

(** C96: reordering the collections of the data reorders the members of every list that names them. *)
Theorem C96_members : forall E d d' items ms, elements E d items ms -> (forall i v, In i items -> element E d i (Ok v) -> exists w, element E d' i (Ok w) /\ reordered v w) ->
  exists ms', elements E d' items ms' /\ Permutation ms ms'.
Proof. exact reordered_elements. Qed.
Print Assumptions C96_members.
Theorem C96_permuted : forall l l', Permutation l l' -> same_members l l'.
Proof. exact permuted_members. Qed.
Print Assumptions C96_permuted.

(** C96, refuted: whether IN fails depends on the order. *)
Theorem C96_in_refuted : exists E x l l', Permutation l l' /\
  evaluate_boolean E (J "x IN (s)") [(J "x", x); (J "s", VColl false l)] None = Ok true /\
  evaluate_boolean E (J "x IN (s)") [(J "x", x); (J "s", VColl false l')] None = Err InvalidDataType.
Proof. exact shuffle_in_refuted. Qed.
Print Assumptions C96_in_refuted.
(** C96, refuted: a collection that is compared itself is compared as the text it prints to. *)
Theorem C96_compared_refuted : exists E l l', Permutation l l' /\
  evaluate_boolean E (J "s = ""[1, 2]""") [(J "s", VColl false l)] None = Ok true /\ evaluate_boolean E (J "s = ""[1, 2]""") [(J "s", VColl false l')] None = Ok false.
Proof. exact shuffle_compared_refuted. Qed.
Print Assumptions C96_compared_refuted.
(** C96, refuted for MODE. *)
Theorem C96_mode_refuted : exists E l l', Permutation l l' /\
  evaluate_boolean E (J "mode ( s ) = 1") [(J "s", VColl false l)] None = Ok true /\ evaluate_boolean E (J "mode ( s ) = 1") [(J "s", VColl false l')] None = Ok false.
Proof. exact shuffle_mode_refuted. Qed.
Print Assumptions C96_mode_refuted.

(** kind IN ( 7 , kinds ) AND tags CONTAINS_ALL ( wanted ) AND max ( scores ) >= 5 *)
Example C96_case : let ws := [J "kind"; J "IN"] ++ bracketed (commas [J "7"; J "kinds"]) ++ [J "AND"; J "tags"; J "CONTAINS_ALL"] ++ bracketed (commas [J "wanted"]) in
  let ws' := ws ++ J "AND" :: (J "max" :: bracketed (commas [J "scores"])) ++ [J ">="; J "5"] in
  let m := NBool (NIn (Some (J "kind")) [NUnary INTEGER (VInt 7); NField (Some (J "kinds"))]) (Some (NArray (Some (J "tags")) CONTAINS_ALL [NField (Some (J "wanted"))])) AND in
  let n := NBool m (Some (NCmp (NFunc F_MAX [NField (Some (J "scores"))]) (NUnary INTEGER (VInt 5)) GREATER_THAN_EQUAL INTEGER)) AND in
  let d := [(J "kind", VInt 2); (J "kinds", VColl false [VInt 1; VInt 2]); (J "tags", VColl true [VStr (J "a"); VStr (J "b")]); (J "wanted", VColl false [VStr (J "b"); VStr (J "a")]);
            (J "scores", VColl false [VInt 4; VInt 6])] in
  let d' := [(J "kind", VInt 2); (J "kinds", VColl false [VInt 2; VInt 1]); (J "tags", VColl true [VStr (J "b"); VStr (J "a")]); (J "wanted", VColl false [VStr (J "a"); VStr (J "b")]);
            (J "scores", VColl false [VInt 6; VInt 4])] in
  passage Nothing Logic ws' n /\ shuffled witness_env d d' n /\ evaluate_boolean witness_env (unwords ws') d None = Ok true /\ evaluate_boolean witness_env (unwords ws') d' None = Ok true.
Proof. exact shuffle_case. Qed.
