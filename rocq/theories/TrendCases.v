(** Cases for the properties of rising numbers and growing collections. *)
From Coq Require Import QArith.
From Verif Require Import RecoverFacts.
From Verif Require Import Base JNum BigDec Dates Values Ops Funcs Ast Eval Lexer Grammar Api SpecNum SpecCompare SpecArith SpecFunc SpecLex SpecPath SpecSyntax SpecText SpecChain SpecTrend
  BigDecFacts LexCases TextCases TrendFacts GrowFacts CompareWitness.
Local Open Scope Z_scope.

Lemma trend_sum_refuted : exists E a a', a <= a' /\ fits64 a /\ fits64 a' /\
  evaluate_boolean E (J "( a + 1 ) > 0") [(J "a", VLong a)] None = Ok true /\ evaluate_boolean E (J "( a + 1 ) > 0") [(J "a", VLong a')] None = Ok false.
Proof. exists witness_env, 9223372036854775806, 9223372036854775807. split; [discriminate|]. split; [split; discriminate|]. split; [split; discriminate|]. split; vm_compute; reflexivity. Qed.
Lemma trend_case : let ws := [J "age"; J ">="; J "18"; J "AND"; J "NOT"] ++ bracketed [J "debt"; J ">"; J "100"] in
  let n := NBool (NCmp (NField (Some (J "age"))) (NUnary INTEGER (VInt 18)) GREATER_THAN_EQUAL INTEGER)
     (Some (NBool (NCmp (NField (Some (J "debt"))) (NUnary INTEGER (VInt 100)) GREATER_THAN INTEGER) None NOT)) AND in
  let d := [(J "age", VInt 18); (J "debt", VDec (BD 1005 1))] in let d' := [(J "age", VLong 30); (J "debt", VInt 90)] in
  passage Nothing Logic ws n /\ trend witness_env d d' true n /\ numeric witness_env d' n /\
  evaluate_boolean witness_env (unwords ws) d None = Ok false /\ evaluate_boolean witness_env (unwords ws) d' None = Ok true.
Proof.
  cbv zeta. assert (L : forall z, fits32 z -> number (VInt z) (inject_Z z)) by (intros z Z; constructor; [exact Z|reflexivity]).
  split; [|split; [|split]].
  - apply (passage_join Nothing Logic Logic [J "age"; J ">="; J "18"] (J "AND") (J "NOT" :: bracketed [J "debt"; J ">"; J "100"])); [|sym|].
    + apply passage_clause, clause_words; [auto|fieldop|sym|intop (J "18")].
    + apply (clause_not _ Logic); [sym|]. apply passage_clause, clause_words; [auto|fieldop|sym|intop (J "100")].
  - apply trend_join; [auto| |apply trend_not; cbn [negb]].
    + apply trend_more_up; [auto|apply (field_rises _ _ _ _ (VInt 18) 18 (VLong 30) 30); try (vm_compute; reflexivity); try discriminate; constructor; try reflexivity; split; discriminate|].
      apply (literal_rises _ _ _ _ _ 18), L. split; discriminate.
    + apply trend_more_down; [auto| |apply (literal_rises _ _ _ _ _ 100), L; split; discriminate].
      apply (field_rises _ _ _ _ (VInt 90) 90 (VDec (BD 1005 1)) (201 # 2)); try (vm_compute; reflexivity); try discriminate; constructor; try reflexivity; split; discriminate.
  - apply numeric_join; [auto| |apply numeric_not].
    + apply (numeric_words _ _ _ _ _ _ (VLong 30) (VInt 18) 30 18); [cbn [In]; tauto|..]; try (constructor; try reflexivity; split; discriminate); (split; [vm_compute; reflexivity|split; [discriminate|]]).
      * intros [g [G H]]. injection G as <-. vm_compute in H. discriminate.
      * intros [g [G _]]. discriminate.
    + apply (numeric_words _ _ _ _ _ _ (VInt 90) (VInt 100) 90 100); [cbn [In]; tauto|..]; try (constructor; try reflexivity; split; discriminate); (split; [vm_compute; reflexivity|split; [discriminate|]]).
      * intros [g [G H]]. injection G as <-. vm_compute in H. discriminate.
      * intros [g [G _]]. discriminate.
  - split; vm_compute; reflexivity.
Qed.

Lemma grow_request_refuted : exists E d d' f c ws ns have ms ms', field_name f /\ In (c, CONTAINS_ANY) array_operators /\ listed ws ns /\
  arith_eval E d (NField (Some f)) = Ok (VColl true have) /\ arith_eval E d' (NField (Some f)) = Ok (VColl true have) /\
  list_members E d ns ms /\ list_members E d' ns ms' /\ incl ms ms' /\
  evaluate_boolean E (unwords (f :: c :: bracketed (commas ws))) d None = Ok true /\
  evaluate_boolean E (unwords (f :: c :: bracketed (commas ws))) d' None = Err HeterogeneousArray.
Proof.
  exists witness_env, [(J "roles", VColl true [VInt 1]); (J "wanted", VColl true [VInt 1])], [(J "roles", VColl true [VInt 1]); (J "wanted", VColl true [VInt 1; VStr (J "x")])],
    (J "roles"), (J "CONTAINS_ANY"), [J "wanted"], [NField (Some (J "wanted"))], [VInt 1], [VInt 1], [VInt 1; VStr (J "x")].
  split; [field_name_tac|]. split; [sym|]. split; [split; [discriminate|constructor; [fieldop|constructor]]|]. split; [vm_compute; reflexivity|]. split; [vm_compute; reflexivity|].
  split; [|split; [|split; [|split; vm_compute; reflexivity]]].
  - eexists. split; [constructor; [vm_compute; reflexivity|constructor]|]. split; [reflexivity|]. intros [X|[]]. discriminate.
  - eexists. split; [constructor; [vm_compute; reflexivity|constructor]|]. split; [reflexivity|]. intros [X|[X|[]]]; discriminate.
  - intros x [<-|[]]. left. reflexivity.
Qed.
(** NOT ( tags CONTAINS_ALL ( 'a' , 'b' ) ) AND LEN ( marks ) > 1 : a tag is taken away, a mark is added. *)
Lemma grow_case :
  let ws := ([J "NOT"] ++ bracketed (J "tags" :: J "CONTAINS_ALL" :: bracketed (commas [J "'a'"; J "'b'"]))) ++ J "AND" :: ((J "LEN" :: bracketed (commas [J "marks"])) ++ [J ">"; J "1"]) in
  let n := NBool (NBool (NArray (Some (J "tags")) CONTAINS_ALL [NUnary STRING (VStr (J "a")); NUnary STRING (VStr (J "b"))]) None NOT)
    (Some (NCmp (NFunc F_LEN [NField (Some (J "marks"))]) (NUnary INTEGER (VInt 1)) GREATER_THAN INTEGER)) AND in
  let d := [(J "tags", VColl true [VStr (J "a"); VStr (J "b")]); (J "marks", VColl true [VInt 1; VInt 2])] in
  let d' := [(J "tags", VColl true [VStr (J "b")]); (J "marks", VColl true [VInt 1; VInt 2; VDec (BD 95 1)])] in
  passage Nothing Logic ws n /\ trend witness_env d d' true n /\
  evaluate_boolean witness_env (unwords ws) d None = Ok false /\ evaluate_boolean witness_env (unwords ws) d' None = Ok true.
Proof.
  cbv zeta. split; [|split; [|split; vm_compute; reflexivity]].
  - apply (passage_join Nothing Logic Logic); [|sym|].
    + apply passage_clause. apply (clause_not _ Member); [sym|]. apply passage_clause, clause_contains; [field_name_tac|sym|].
      split; [discriminate|]. assert (Lo : forall w c, w = ch "'" :: [c] ++ [ch "'"] -> c <> ch "'" -> operand w (NUnary STRING (VStr [c]))).
      { intros w c -> N. apply o_string; [auto|]. intros [X|[]]. auto. }
      constructor; [apply (Lo _ (ch "a")); [reflexivity|discriminate]|]. constructor; [apply (Lo _ (ch "b")); [reflexivity|discriminate]|constructor].
    + apply clause_call_left; [sym|split; [discriminate|constructor; [fieldop|constructor]]|sym|intop (J "1")].
  - apply trend_join; [auto|apply trend_not; cbn [negb]|].
    + apply (trend_all _ _ _ false (J "tags") _ [VStr (J "a"); VStr (J "b")] [VStr (J "b")] [VStr (J "a"); VStr (J "b")] [VStr (J "a"); VStr (J "b")]).
      * vm_compute; reflexivity.
      * vm_compute; reflexivity.
      * intros [X|[X|[]]]; discriminate.
      * intros [X|[]]; discriminate.
      * exists [VStr (J "a"); VStr (J "b")]. split; [repeat constructor|]. split; [reflexivity|]. intros [X|[X|[]]]; discriminate.
      * exists [VStr (J "a"); VStr (J "b")]. split; [repeat constructor|]. split; [reflexivity|]. intros [X|[X|[]]]; discriminate.
      * intros x [<-|[]]. right. left. reflexivity.
      * intros x X. exact X.
    + apply trend_more_up; [auto| |apply (literal_rises _ _ _ _ _ 1); constructor; [split; discriminate|reflexivity]].
      apply (len_rises _ _ _ _ [VInt 1; VInt 2] [VInt 1; VInt 2; VDec (BD 95 1)]).
      * exists [VColl true [VInt 1; VInt 2]]. split; [constructor; [vm_compute; reflexivity|constructor]|reflexivity].
      * exists [VColl true [VInt 1; VInt 2; VDec (BD 95 1)]]. split; [constructor; [vm_compute; reflexivity|constructor]|reflexivity].
      * cbn. lia.
      * cbn. lia.
      * split; discriminate.
      * repeat constructor; intros b t X; discriminate.
      * repeat constructor; intros b t X; discriminate.
Qed.
(** MAX of two whole numbers and of three, with a decimal; MIN and SUM in the same data; a decimal sum; INT. *)
Lemma rises_case :
  let d := [(J "marks", VColl true [VInt 1; VInt 2]); (J "x", VDec (BD 15 1))] in let d' := [(J "marks", VColl true [VInt 3; VDec (BD 25 1)]); (J "x", VDec (BD 29 1))] in
  let m := [NField (Some (J "marks"))] in
  rises witness_env d d' (NFunc F_MAX m) /\ rises witness_env d d' (NFunc F_MIN m) /\ rises witness_env d d' (NFunc F_SUM m) /\
  rises witness_env d d' (bin (NField (Some (J "x"))) SUBTRACT (lit (VInt 1))) /\ rises witness_env d d' (NFunc F_INT [NField (Some (J "x"))]).
Proof.
  cbv zeta. assert (L : forall z, fits32 z -> number (VInt z) (inject_Z z)) by (intros z Z; constructor; [exact Z|reflexivity]).
  assert (D : forall b, number (VDec b) (dec_value b)) by (intros b; constructor; reflexivity).
  assert (N : Forall2 number [VInt 1; VInt 2] [inject_Z 1; inject_Z 2]) by (constructor; [apply L; split; discriminate|constructor; [apply L; split; discriminate|constructor]]).
  assert (N' : Forall2 number [VInt 3; VDec (BD 25 1)] [inject_Z 3; dec_value (BD 25 1)]) by (constructor; [apply L; split; discriminate|constructor; [apply D|constructor]]).
  assert (P : precise [VInt 1; VInt 2]) by (right; exists [1; 2]; split; [constructor; [constructor; split; discriminate|constructor; [constructor; split; discriminate|constructor]]|split; [repeat constructor; vm_compute; discriminate|vm_compute; discriminate]]).
  assert (P' : precise [VInt 3; VDec (BD 25 1)]) by (left; apply Exists_cons_tl, Exists_cons_hd; reflexivity).
  assert (A : arguments witness_env [(J "marks", VColl true [VInt 1; VInt 2]); (J "x", VDec (BD 15 1))] [NField (Some (J "marks"))] [VInt 1; VInt 2])
    by (exists [VColl true [VInt 1; VInt 2]]; split; [constructor; [vm_compute; reflexivity|constructor]|reflexivity]).
  assert (A' : arguments witness_env [(J "marks", VColl true [VInt 3; VDec (BD 25 1)]); (J "x", VDec (BD 29 1))] [NField (Some (J "marks"))] [VInt 3; VDec (BD 25 1)])
    by (exists [VColl true [VInt 3; VDec (BD 25 1)]]; split; [constructor; [vm_compute; reflexivity|constructor]|reflexivity]).
  assert (S1 : no_smaller (VInt 1) (VInt 3)) by (exists (inject_Z 1), (inject_Z 3); split; [apply L; split; discriminate|split; [apply L; split; discriminate|discriminate]]).
  assert (S2 : no_smaller (VInt 2) (VDec (BD 25 1))) by (exists (inject_Z 2), (dec_value (BD 25 1)); split; [apply L; split; discriminate|split; [apply D|discriminate]]).
  split; [|split; [|split; [|split]]].
  - eapply (max_rises _ _ _ _ _ _ _ _ _ _ A A' N N' (le_n 2) (le_n 2) P P'); [|vm_compute; reflexivity|vm_compute; reflexivity].
    intros m [<-|[<-|[]]]; eexists; (split; [|eassumption]); cbn; auto.
  - eapply (min_rises _ _ _ _ _ _ _ _ _ _ A A' N N' (le_n 2) (le_n 2) P P'); [|vm_compute; reflexivity|vm_compute; reflexivity].
    intros m [<-|[<-|[]]]; eexists; (split; [|eassumption]); cbn; auto.
  - eapply (call_sum_rises _ _ _ _ _ _ _ _ _ _ A A' N N' (le_n 2) P P'); [constructor; [exact S1|constructor; [exact S2|constructor]]|vm_compute; reflexivity|vm_compute; reflexivity].
  - apply (decimal_sum_rises _ _ _ _ _ _ (dec_value (BD 15 1)) (inject_Z 1) (dec_value (BD 29 1)) (inject_Z 1) (VDec (BD 15 1)) (VInt 1) (VDec (BD 29 1)) (VInt 1)).
    1-4: vm_compute; reflexivity.
    1, 3: apply D.
    1-2: apply L; split; discriminate.
    1-2: left; reflexivity.
    1: discriminate.
    right. split; [reflexivity|discriminate].
  - apply (int_rises _ _ _ _ (VDec (BD 15 1)) (VDec (BD 29 1)) (dec_value (BD 15 1)) (dec_value (BD 29 1))).
    1-2: vm_compute; reflexivity.
    1-2: apply D.
    1: discriminate.
    + intros z T. assert (U : truncates (dec_value (BD 15 1)) 1).
      { split; [intros _; split; [discriminate|reflexivity]|intros X; exfalso; vm_compute in X; apply X; reflexivity]. }
      rewrite (truncates_unique _ z 1 T U). split; discriminate.
    + intros z T. assert (U : truncates (dec_value (BD 29 1)) 2).
      { split; [intros _; split; [discriminate|reflexivity]|intros X; exfalso; vm_compute in X; apply X; reflexivity]. }
      rewrite (truncates_unique _ z 2 T U). split; discriminate.
Qed.
(** user IN ( allowed ) : someone is put on the list. *)
Lemma grow_in_case :
  let d := [(J "user", VStr (J "bo")); (J "allowed", VColl true [VInt 7; VStr (J "bo")])] in
  let d' := [(J "user", VStr (J "bo")); (J "allowed", VColl true [VInt 7; VStr (J "bo"); VStr (J "al")])] in
  field_name (J "user") /\ listed [J "allowed"] [NField (Some (J "allowed"))] /\ yields witness_env d (NField (Some (J "user"))) (VStr (J "bo")) /\
  yields witness_env d' (NField (Some (J "user"))) (VStr (J "bo")) /\ list_members witness_env d [NField (Some (J "allowed"))] [VInt 7; VStr (J "bo")] /\
  list_members witness_env d' [NField (Some (J "allowed"))] ([VInt 7; VStr (J "bo")] ++ [VStr (J "al")]) /\
  evaluate_boolean witness_env (unwords (J "user" :: J "IN" :: bracketed (commas [J "allowed"]))) d None = Ok true.
Proof.
  cbv zeta. split; [field_name_tac|]. split; [split; [discriminate|constructor; [fieldop|constructor]]|].
  assert (W : ~ null_word (NField (Some (J "user")))) by (intros [g [G H]]; injection G as <-; vm_compute in H; discriminate).
  split; [split; [vm_compute; reflexivity|split; [discriminate|exact W]]|]. split; [split; [vm_compute; reflexivity|split; [discriminate|exact W]]|].
  split; [|split; [|vm_compute; reflexivity]].
  - eexists. split; [constructor; [vm_compute; reflexivity|constructor]|]. split; [reflexivity|]. intros [X|[X|[]]]; discriminate.
  - eexists. split; [constructor; [vm_compute; reflexivity|constructor]|]. split; [reflexivity|]. intros [X|[X|[X|[]]]]; discriminate.
Qed.
