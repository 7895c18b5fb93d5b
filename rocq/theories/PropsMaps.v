(** Properties: maps of any kind, null in place of the map or the text. *)
From Verif Require Import Base Values Ops Funcs Ast Eval Lexer Api Cache SpecPath SpecReads CompareWitness Maps SpecMaps MapFacts.

(** C82: on a plain map these are the evaluators of all other properties. *)
Theorem C82_plain : forall E s d dflt, evaluate_boolean_on E (Some s) (hash_map d) dflt = evaluate_boolean E s d dflt.
Proof. exact boolean_plain. Qed.
Print Assumptions C82_plain.
Theorem C82_plain_arithmetic : forall E s d, evaluate_arith_on E (Some s) (hash_map d) = evaluate_arith E s d.
Proof. exact arithmetic_plain. Qed.
Print Assumptions C82_plain_arithmetic.

(** C82: of the map only the answers to get for the first keys of the mentioned names matter. *)
Theorem C82_gets : forall E g1 g2 n, (forall f, In f (bool_fields n) -> alike (g1 (before_dot f)) (g2 (before_dot f))) -> bool_on E g1 n = bool_on E g2 n.
Proof. exact bool_alike. Qed.
Print Assumptions C82_gets.
Theorem C82_gets_arithmetic : forall E g1 g2 n, (forall f, In f (arith_fields n) -> alike (g1 (before_dot f)) (g2 (before_dot f))) -> arith_on E g1 n = arith_on E g2 n.
Proof. exact arith_alike. Qed.
Print Assumptions C82_gets_arithmetic.

(** C82: the value of a field, through maps of any kind. *)
Theorem C82_field : forall E g ks x, ks <> [] -> Forall component ks -> reaches g ks x ->
  arith_on E g (NField (Some (path_text ks))) = match x with Ok (Some v) => Ok v | Ok None => Err DataNotFound | Err e => Err e end.
Proof. exact field_reaches. Qed.
Print Assumptions C82_field.
Theorem C82_field_one : forall ks g, ks <> [] -> exists x, reaches g ks x /\ forall y, reaches g ks y -> y = x.
Proof. exact reaches_unique. Qed.
Print Assumptions C82_field_one.

(** C82: if get throws the outcome is that exception, unless the map is not asked, or not where it matters: then it is as if it did not throw. *)
Theorem C82_throws : forall E e g1 g2 n, (forall k, g1 k = Err e \/ alike (g1 k) (g2 k)) -> bool_on E g1 n = Err e \/ bool_on E g1 n = bool_on E g2 n.
Proof. exact bool_throws. Qed.
Print Assumptions C82_throws.
Theorem C82_throws_arithmetic : forall E e g1 g2 n, (forall k, g1 k = Err e \/ alike (g1 k) (g2 k)) -> arith_on E g1 n = Err e \/ arith_on E g1 n = arith_on E g2 n.
Proof. exact arith_throws. Qed.
Print Assumptions C82_throws_arithmetic.

(** C82: on null in place of the map the outcome is a NullPointerException as a failure, or the outcome on every map. *)
Theorem C82_null_map : forall E expr dflt, evaluate_boolean_on E expr null_map dflt = Err NullPointer \/
  forall g, evaluate_boolean_on E expr g dflt = evaluate_boolean_on E expr null_map dflt.
Proof. exact bool_null. Qed.
Print Assumptions C82_null_map.
Theorem C82_null_map_arithmetic : forall E expr, evaluate_arith_on E expr null_map = Err NullPointer \/
  forall g, evaluate_arith_on E expr g = evaluate_arith_on E expr null_map.
Proof. exact arith_null. Qed.
Print Assumptions C82_null_map_arithmetic.

(** C82: a nested map that throws a ClassCastException hides it: the field counts as missing.  The outermost map does not. *)
Theorem C82_cast_refuted : forall E (g g' : map_object) k k' self, component k -> component k' -> g k = Ok (Some (Nested self g')) -> g' k' = Err ClassCast ->
  bool_on E g (NCmp (NField (Some (path_text [k; k']))) (NField (Some (J "null"))) EQUALS STRING) = Ok true /\
  arith_on E g' (NField (Some k')) = Err ClassCast /\ arith_on E g (NField (Some (path_text [k; k']))) = Err DataNotFound.
Proof. exact cast_hidden. Qed.
Print Assumptions C82_cast_refuted.

(** C82: null in place of the text is a failure, on any map. *)
Theorem C82_null_text : forall E g dflt, evaluate_boolean_on E None g dflt = Err NullPointer /\ evaluate_arith_on E None g = Err NullPointer.
Proof. exact null_text. Qed.
Print Assumptions C82_null_text.

(** C82: with a caching parser calls for null do not change the answers to the other calls, which are those of C42's histories. *)
Theorem C82_cached_others : forall c es, answers es (snd (nrun c es)) = snd (nrun c (filter not_for_null es)).
Proof. exact others_apart. Qed.
Print Assumptions C82_cached_others.
Theorem C82_cached_same : forall c es, snd (nrun c (map (fun e => match e with Call s d => NCall (Some s) d | Evict k => NEvict k end) es)) = map (option_map result) (snd (crun c es)).
Proof. exact same_histories. Qed.
Print Assumptions C82_cached_same.
(** C82: and a call for null fails, or gets the tree of an earlier text whose key reads as that of null. *)
Theorem C82_cached_null : forall es dflt x, snd (nstep (fst (nrun [] es)) (NCall None dflt)) = Some x ->
  x = Err NullPointer \/ exists s d n, x = Ok n /\ In (NCall (Some s) d) es /\ parse_expression s d = Ok n /\
    s ++ J "_" ++ match d with Some k => k | None => [] end = J "null_" ++ match dflt with Some k => k | None => [] end.
Proof. exact null_answer. Qed.
Print Assumptions C82_cached_null.
(** C82: which happens: after the text "null" has been parsed, null is taken for it. *)
Theorem C82_cached_null_refuted :
  snd (nrun [] [NCall None None; NCall (Some (J "null")) None; NCall None None; NEvict (J "null_"); NCall None None]) =
  [Some (Err NullPointer); Some (Ok (NField (Some (J "null")))); Some (Ok (NField (Some (J "null")))); None; Some (Err NullPointer)].
Proof. exact null_collides. Qed.
Print Assumptions C82_cached_null_refuted.

(** Cases: a map object with a nested one that has every key and one that refuses every key, a map that refuses every key, and null. *)
Example C82_case : let echo : map_object := fun k => Ok (Some (Plain (VStr k))) in
  let numbered : map_object := fun _ => Err ClassCast in
  let odd_map : map_object := fun k => if jstr_eqb k (J "m") then Ok (Some (Nested (VOther (J "{...}")) echo)) else if jstr_eqb k (J "t") then Ok (Some (Nested (VOther (J "{1=x}")) numbered)) else
    match k with [_] => Ok None | _ => Err NullPointer end in
  let on g s := evaluate_boolean_on witness_env (Some s) g None in
  map (on odd_map) [J "m.abc = 'abc'"; J "x = 1"; J "t.a = null"; J "t.a = 1"; J "xy = 1"; J "m.abc = 'abc' OR xy = 1"] = [Ok true; Err DataNotFound; Ok true; Err DataNotFound; Err NullPointer; Ok true] /\
  map (on numbered) [J "a = null"; J "a = 1"] = [Err ClassCast; Err ClassCast] /\
  map (on null_map) [J "a = null"; J "1 = 1"; J "(1 = 1) OR (a = 1)"; J "(1 = 2) OR (a = 1)"] = [Err NullPointer; Ok true; Ok true; Err NullPointer] /\
  evaluate_arith_on witness_env (Some (J "1 + 2")) null_map = Ok (VInt 3) /\ evaluate_arith_on witness_env (Some (J "1 + a")) null_map = Err NullPointer.
Proof. exact odd_cases. Qed.
