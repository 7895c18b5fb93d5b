(** C03 - C05, C11: ranges, lists and null checks. *)
From Coq Require Import QArith.
From Verif Require Import Base JNum BigDec Dates Version Values Ops Funcs Ast Eval SpecNum SpecCompare SpecPath CompareFacts MemberFacts CompareWitness.

(** C03: a range that succeeds says whether the number the field reads as lies between the bounds. *)
Theorem C03_range_sound : forall E d f lo hi t1 t2 p q b, bound lo t1 p -> bound hi t2 q ->
  bool_eval E d (NRange (Some f) lo hi t1 t2) = Ok b ->
  exists v x, arith_eval E d (NField (Some f)) = Ok v /\ reads_as v x /\ b = (Qle_bool p x && Qle_bool x q)%bool.
Proof. exact range_success. Qed.
Print Assumptions C03_range_sound.

(** C03: on a numeric field a range always succeeds. *)
Theorem C03_range_numeric : forall E d f lo hi t1 t2 p q v x, bound lo t1 p -> bound hi t2 q ->
  arith_eval E d (NField (Some f)) = Ok v -> number v x ->
  bool_eval E d (NRange (Some f) lo hi t1 t2) = Ok (Qle_bool p x && Qle_bool x q)%bool.
Proof. exact range_numeric. Qed.
Print Assumptions C03_range_numeric.

(** C03: a reversed range is never satisfied, whatever the field holds. *)
Theorem C03_reversed_range : forall E d f lo hi t1 t2 p q, bound lo t1 p -> bound hi t2 q -> q < p ->
  bool_eval E d (NRange (Some f) lo hi t1 t2) <> Ok true.
Proof. exact range_reversed. Qed.
Print Assumptions C03_reversed_range.

Example C03_case : bound (VInt 18) INTEGER 18 /\ bound (VDec (BD 205 1)) DECIMAL (41#2) /\
  bool_eval witness_env [(J "age", VStr (J "20.0"))] (NRange (Some (J "age")) (VInt 18) (VDec (BD 205 1)) INTEGER DECIMAL) = Ok true /\
  bool_eval witness_env [(J "age", VStr (J "21"))] (NRange (Some (J "age")) (VInt 18) (VDec (BD 205 1)) INTEGER DECIMAL) = Ok false.
Proof.
  split; [split; [apply number_int; [split; discriminate|reflexivity]|reflexivity]|].
  split; [split; [apply number_dec; reflexivity|reflexivity]|]. split; reflexivity.
Qed.

(** C04: IN is the left-to-right short-circuit disjunction of the equality tests, failures included.  The members of a
    collection count as elements. *)
Theorem C04_in_disjunction : forall E d f v items m ms, yields E d (NField (Some f)) v -> list_members E d items (m :: ms) ->
  let test x := cond (NField (Some f)) EQUALS (lit x) in
  bool_eval E d (NIn (Some f) items) = bool_eval E d (or_chain (test m) (map test ms)).
Proof. exact in_disjunction. Qed.
Print Assumptions C04_in_disjunction.

(** C04: nothing is in an empty list. *)
Theorem C04_in_empty : forall E d f v items, yields E d (NField (Some f)) v -> (forall b t, v <> VFloat b t) ->
  list_members E d items [] -> bool_eval E d (NIn (Some f) items) = Ok false.
Proof. exact in_empty. Qed.
Print Assumptions C04_in_empty.

(** C04: order and duplication of elements do not matter if every single test succeeds. *)
Theorem C04_in_set : forall E d f v items1 items2 ms1 ms2, yields E d (NField (Some f)) v ->
  list_members E d items1 ms1 -> list_members E d items2 ms2 -> (forall m, In m ms1 <-> In m ms2) ->
  (forall m, In m ms1 -> exists b, bool_eval E d (cond (NField (Some f)) EQUALS (lit m)) = Ok b) ->
  bool_eval E d (NIn (Some f) items1) = bool_eval E d (NIn (Some f) items2).
Proof. exact in_set. Qed.
Print Assumptions C04_in_set.

(** C04: NOT IN is the opposite, or the same failure. *)
Theorem C04_not_in : forall E d f items,
  bool_eval E d (NBool (NIn (Some f) items) None NOT) = fmap negb (bool_eval E d (NIn (Some f) items)).
Proof. exact not_in. Qed.
Print Assumptions C04_not_in.

Example C04_case :
  let d := [(J "a", VInt 3); (J "allowed", VColl true [VInt 1; VDec (BD 30 1)])] in
  yields witness_env d (NField (Some (J "a"))) (VInt 3) /\
  list_members witness_env d [lit (VStr (J "x")); NField (Some (J "allowed"))] [VStr (J "x"); VInt 1; VDec (BD 30 1)] /\
  bool_eval witness_env d (NIn (Some (J "a")) [lit (VStr (J "x")); NField (Some (J "allowed"))]) = Ok true.
Proof.
  split; [|split].
  - split; [reflexivity|]. split; [discriminate|]. intros (f & H & L). injection H as <-. discriminate L.
  - exists [VStr (J "x"); VColl true [VInt 1; VDec (BD 30 1)]]. split; [repeat constructor|]. split; [reflexivity|].
    intros [H|[H|[H|[]]]]; discriminate H.
  - reflexivity.
Qed.

(** C05: CONTAINS_ALL is inclusion and CONTAINS_ANY non-empty intersection, elements being identified by their text. *)
Theorem C05_contains : forall E d f have items ms t, arith_eval E d (NField (Some f)) = Ok (VColl true have) -> ~ In VNull have ->
  list_members E d items ms -> (forall m, In m ms -> get_data_type m = t) ->
  (bool_eval E d (NArray (Some f) CONTAINS_ALL items) = Ok (forallb (fun m => existsb (same_text m) have) ms)) /\
  (bool_eval E d (NArray (Some f) CONTAINS_ANY items) = Ok (existsb (fun m => existsb (same_text m) have) ms)).
Proof. exact contains_both. Qed.
Print Assumptions C05_contains.

(** C05: for a single requested element both operators agree. *)
Theorem C05_single : forall E d f have items m, arith_eval E d (NField (Some f)) = Ok (VColl true have) -> ~ In VNull have ->
  list_members E d items [m] ->
  bool_eval E d (NArray (Some f) CONTAINS_ALL items) = bool_eval E d (NArray (Some f) CONTAINS_ANY items).
Proof. exact contains_one. Qed.
Print Assumptions C05_single.

(** C05: requesting more can only falsify ALL and satisfy ANY. *)
Theorem C05_monotone : forall E d f have items1 items2 ms1 ms2 t,
  arith_eval E d (NField (Some f)) = Ok (VColl true have) -> ~ In VNull have ->
  list_members E d items1 ms1 -> list_members E d items2 ms2 -> (forall m, In m ms2 -> get_data_type m = t) ->
  (forall m, In m ms1 -> In m ms2) ->
  (bool_eval E d (NArray (Some f) CONTAINS_ALL items2) = Ok true -> bool_eval E d (NArray (Some f) CONTAINS_ALL items1) = Ok true) /\
  (bool_eval E d (NArray (Some f) CONTAINS_ANY items1) = Ok true -> bool_eval E d (NArray (Some f) CONTAINS_ANY items2) = Ok true).
Proof. exact contains_monotone. Qed.
Print Assumptions C05_monotone.

(** C05: elements of different types in one request always fail. *)
Theorem C05_mixed_types_fail : forall E d f op items ms v a b, arith_eval E d (NField (Some f)) = Ok v ->
  list_members E d items ms -> In a ms -> In b ms -> get_data_type a <> get_data_type b ->
  bool_eval E d (NArray (Some f) op items) = Err HeterogeneousArray.
Proof. exact contains_heterogeneous. Qed.
Print Assumptions C05_mixed_types_fail.

Example C05_case :
  let d := [(J "tags", VColl true [VStr (J "red"); VInt 5])] in
  list_members witness_env d [lit (VInt 5); lit (VInt 6)] [VInt 5; VInt 6] /\
  bool_eval witness_env d (NArray (Some (J "tags")) CONTAINS_ANY [lit (VInt 5); lit (VInt 6)]) = Ok true /\
  bool_eval witness_env d (NArray (Some (J "tags")) CONTAINS_ALL [lit (VInt 5); lit (VInt 6)]) = Ok false.
Proof.
  split; [|split; reflexivity]. exists [VInt 5; VInt 6]. split; [repeat constructor|]. split; [reflexivity|]. intros [H|[H|[]]]; discriminate H.
Qed.

(** C11: f = null holds exactly if the field is absent, null, or prints as the text null; f != null is the opposite;
    neither fails unless the field holds a floating point number that is NaN or infinite. *)
Theorem C11_null_check : forall E d ks w, proper_data d -> ks <> [] -> Forall component ks -> to_lower w = J "null" ->
  (forall b t, found d ks (VFloat b t) -> exists q, float_text t q) ->
  exists b, bool_eval E d (cond (NField (Some (path_text ks))) EQUALS (NField (Some w))) = Ok b /\
            bool_eval E d (cond (NField (Some (path_text ks))) NOT_EQUAL (NField (Some w))) = Ok (negb b) /\
            (b = true <-> (forall v, ~ found d ks v) \/ exists v, found d ks v /\ show v = J "null").
Proof. exact null_check_found. Qed.
Print Assumptions C11_null_check.

Example C11_case :
  let d := [(J "a", VMap [(J "b", VInt 3); (J "c", VNull)])] in
  found d [J "a"; J "b"] (VInt 3) /\ path_text [J "a"; J "b"] = J "a.b" /\
  bool_eval witness_env d (cond (NField (Some (J "a.b"))) EQUALS (NField (Some (J "Null")))) = Ok false /\
  bool_eval witness_env d (cond (NField (Some (J "a.c"))) EQUALS (NField (Some (J "NULL")))) = Ok true /\
  bool_eval witness_env d (cond (NField (Some (J "a.d"))) NOT_EQUAL (NField (Some (J "null")))) = Ok false.
Proof.
  repeat split; try reflexivity. eapply found_step; [left; reflexivity|]. apply found_last; [left; reflexivity|discriminate].
Qed.

(** C11: the exception for NaN is needed. *)
Theorem C11_never_fails_refuted : exists E d f, bool_eval E d (cond (NField (Some f)) EQUALS (NField (Some (J "null")))) = Err InvalidDataType.
Proof. exact null_check_nan. Qed.
Print Assumptions C11_never_fails_refuted.

(** C11: with null on the left the check is true for every right operand, so null checks are not symmetric. *)
Theorem C11_symmetry_refuted : forall E d w r, to_lower w = J "null" -> (forall v, ~ In (w, v) d) -> r <> NField None ->
  bool_eval E d (cond (NField (Some w)) EQUALS r) = Ok true.
Proof. exact null_left_true. Qed.
Print Assumptions C11_symmetry_refuted.
