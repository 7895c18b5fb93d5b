(** C74: list and range tests on values of any types. *)
From Coq Require Import QArith Lia.
From Verif Require Import Base JNum BigDec Dates Values Ops Funcs Ast Eval Api SpecNum SpecCompare SpecMixed SpecList ListTests CompareWitness.
Local Open Scope Z_scope.

(** C74: IN asks whether the field equals the members of the list, one after the other until one does or the question fails; the answer to a single
    question is that of C63. *)
Theorem C74_in : forall E d f v a items ms, arith_eval E d (NField (Some f)) = Ok v -> stands v a -> elements E d items ms -> Forall (fun m => exists t, member_type m t) ms ->
  forall r, some_of (equal_to v) ms r <-> bool_eval E d (NIn (Some f) items) = r.
Proof. exact in_outcome. Qed.
Print Assumptions C74_in.

(** C74: NaN and the infinities are in no list: the test is refused, also for the empty list. *)
Theorem C74_in_not_finite : forall E d f dbl t items ms, arith_eval E d (NField (Some f)) = Ok (VFloat dbl t) -> not_finite t -> elements E d items ms ->
  bool_eval E d (NIn (Some f) items) = Err InvalidDataType.
Proof. exact in_not_finite. Qed.
Print Assumptions C74_in_not_finite.

(** C74: CONTAINS_ALL and CONTAINS_ANY refuse elements of several types, then fields that are neither a collection nor an array, then (by another
    exception) collections that are no List and arrays; of a List they ask whether the elements, one after the other, print as one of its members. *)
Theorem C74_contains : forall E d f (all : bool) items ms ts v,
  let op := if all then CONTAINS_ALL else CONTAINS_ANY in let x := bool_eval E d (NArray (Some f) op items) in
  arith_eval E d (NField (Some f)) = Ok v -> elements E d items ms -> Forall2 member_type ms ts ->
  (~ of_one_type ts -> x = Err HeterogeneousArray) /\
  (of_one_type ts -> forall have, v = VColl true have ->
     forall r, (if all then every_of (fun m => some_of (prints_as m) have) ms r else some_of (fun m => some_of (prints_as m) have) ms r) <-> x = r) /\
  (of_one_type ts -> forall l t, v = VColl false l \/ v = VArr l t -> x = Err ClassCast) /\
  (of_one_type ts -> (forall b l, v <> VColl b l) -> (forall l t, v <> VArr l t) -> x = Err InvalidDataType).
Proof. exact contains_outcome. Qed.
Print Assumptions C74_contains.

(** C74: if the field can not be looked up the test fails as the look-up does, whatever the elements; otherwise, if an element fails, it fails as the first of them. *)
Theorem C74_missing : forall E d f op items e, arith_eval E d (NField (Some f)) = Err e ->
  bool_eval E d (NIn (Some f) items) = Err e /\ bool_eval E d (NArray (Some f) op items) = Err e.
Proof. exact list_missing. Qed.
Print Assumptions C74_missing.
Theorem C74_failing : forall E d f op v before i after ms e, arith_eval E d (NField (Some f)) = Ok v -> elements E d before ms -> element E d i (Err e) ->
  bool_eval E d (NIn (Some f) (before ++ i :: after)) = Err e /\ bool_eval E d (NArray (Some f) op (before ++ i :: after)) = Err e.
Proof. exact list_failing. Qed.
Print Assumptions C74_failing.

(** C74: a range makes the two comparisons of C63, also the second one if the first is false. *)
Theorem C74_range : forall E d f v lo hi t1 t2 p q, arith_eval E d (NField (Some f)) = Ok v -> bound lo t1 p -> bound hi t2 q ->
  bool_eval E d (NRange (Some f) lo hi t1 t2) =
  both (bool_eval E d (cond (NField (Some f)) GREATER_THAN_EQUAL (lit lo))) (bool_eval E d (cond (NField (Some f)) LESS_THAN_EQUAL (lit hi))).
Proof. exact range_both. Qed.
Print Assumptions C74_range.
Theorem C74_range_missing : forall E d f lo hi t1 t2 e, arith_eval E d (NField (Some f)) = Err e -> bool_eval E d (NRange (Some f) lo hi t1 t2) = Err e.
Proof. exact range_missing. Qed.
Print Assumptions C74_range_missing.

(** Cases: nulls and NaN in collections, sets and arrays, members of several types; which failure comes first. *)
Example C74_case :
  let d := [(J "n", VInt 5); (J "s", VStr (J "x")); (J "l", VColl true [VStr (J "x"); VNull; VInt 5]); (J "t", VColl false [VInt 5]); (J "a", VArr [VInt 5] (J "[I@1"));
            (J "e", VColl true []); (J "q", VFloat true (J "NaN")); (J "v", VStr (J "2.5"))] in
  let ask t := evaluate_boolean witness_env t d None in
  elements witness_env d [NField (Some (J "l")); lit (VInt 7)] [VStr (J "x"); VNull; VInt 5; VInt 7] /\
  Forall2 member_type [VStr (J "x"); VNull; VInt 5; VInt 7] [STRING; STRING; INTEGER; INTEGER] /\ of_one_type [INTEGER; INTEGER] /\ ~ of_one_type [STRING; INTEGER] /\
  ask (J "s in (l, 7)") = Ok true /\ ask (J "n in (l, 7)") = Err NullPointer /\ ask (J "n in (t)") = Ok true /\ ask (J "q in (e)") = Err InvalidDataType /\
  ask (J "n in (5, true)") = Ok true /\ ask (J "n in (true, 5)") = Err InvalidDataType /\ ask (J "s in (q)") = Ok false /\
  ask (J "l contains_any ('x', 'y')") = Ok true /\ ask (J "l contains_all ('x', 'y')") = Err NullPointer /\ ask (J "l contains_any (5)") = Err NullPointer /\
  ask (J "e contains_all ('x')") = Ok false /\ ask (J "e contains_all (e)") = Ok true /\ ask (J "t contains_any (5)") = Err ClassCast /\ ask (J "a contains_any (5)") = Err ClassCast /\
  ask (J "n contains_any (5)") = Err InvalidDataType /\ ask (J "n contains_any (5, 'x')") = Err HeterogeneousArray /\ ask (J "zz contains_any (5, 'x')") = Err DataNotFound /\
  ask (J "n contains_any (zz, 5, 'x')") = Err DataNotFound /\
  ask (J "n 6 to 9") = Ok false /\ ask (J "v 1.5 to 3.5") = Ok true /\ ask (J "v 1 to 3") = Err InvalidDataType /\ ask (J "v 7.5 to 9") = Err InvalidDataType /\ ask (J "zz 1 to 3") = Err DataNotFound.
Proof.
  cbv zeta. split; [|split; [|split; [|split]]].
  - exists [VColl true [VStr (J "x"); VNull; VInt 5]; VInt 7]. split; [|reflexivity]. repeat constructor; match goal with |- element ?E ?d ?i _ => exact (computed E d i eq_refl) end.
  - assert (X : stands (VStr (J "x")) STRING).
    { apply stands_text; intros a H; [apply DateFacts.parse_date_spec in H|apply DateFacts.parse_datetime_spec in H]; discriminate H. }
    apply Forall2_cons; [left; exact X|]. apply Forall2_cons; [right; left; auto|]. do 2 (apply Forall2_cons; [left; apply stands_int; lia|]). apply Forall2_nil.
  - exists INTEGER. intros t [<- | [<- | []]]; reflexivity.
  - intros [t H]. assert (A := H STRING ltac:(cbn; auto)). assert (B := H INTEGER ltac:(cbn; auto)). congruence.
  - vm_compute. repeat split.
Qed.
