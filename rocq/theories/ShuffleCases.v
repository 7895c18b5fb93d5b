(** Cases for the properties of the order of the members of a collection. *)
From Coq Require Import QArith Permutation.
From Verif Require Import RecoverFacts.
From Verif Require Import Base JNum BigDec Dates Values Ops Funcs Ast Eval Lexer Grammar Api SpecNum SpecCompare SpecArith SpecFunc SpecDate SpecLex SpecPath SpecSyntax SpecText SpecChain SpecTrend SpecRepr SpecMixed SpecForm SpecCourse SpecStamp SpecList SpecShuffle
  CompareFacts MixedFacts LexCases TextCases TrendFacts ReprFacts ListTests FormFacts StampFacts ShuffleFacts CompareWitness.
Local Open Scope Z_scope.

Lemma shuffle_in_refuted : exists E x l l', Permutation l l' /\
  evaluate_boolean E (J "x IN (s)") [(J "x", x); (J "s", VColl false l)] None = Ok true /\
  evaluate_boolean E (J "x IN (s)") [(J "x", x); (J "s", VColl false l')] None = Err InvalidDataType.
Proof.
  exists witness_env, (VDate (Date 2024 1 1)), [VDate (Date 2024 1 1); VDateTime (DateTime (Date 2024 1 1) 0 0 0 0)], [VDateTime (DateTime (Date 2024 1 1) 0 0 0 0); VDate (Date 2024 1 1)].
  split; [constructor|]. split; vm_compute; reflexivity.
Qed.
Lemma shuffle_compared_refuted : exists E l l', Permutation l l' /\
  evaluate_boolean E (J "s = ""[1, 2]""") [(J "s", VColl false l)] None = Ok true /\ evaluate_boolean E (J "s = ""[1, 2]""") [(J "s", VColl false l')] None = Ok false.
Proof. exists witness_env, [VInt 1; VInt 2], [VInt 2; VInt 1]. split; [constructor|]. split; vm_compute; reflexivity. Qed.
Lemma shuffle_mode_refuted : exists E l l', Permutation l l' /\
  evaluate_boolean E (J "mode ( s ) = 1") [(J "s", VColl false l)] None = Ok true /\ evaluate_boolean E (J "mode ( s ) = 1") [(J "s", VColl false l')] None = Ok false.
Proof. exists witness_env, [VInt 1; VInt 2], [VInt 2; VInt 1]. split; [constructor|]. split; vm_compute; reflexivity. Qed.

Lemma shuffle_case : let ws := [J "kind"; J "IN"] ++ bracketed (commas [J "7"; J "kinds"]) ++ [J "AND"; J "tags"; J "CONTAINS_ALL"] ++ bracketed (commas [J "wanted"]) in
  let ws' := ws ++ J "AND" :: (J "max" :: bracketed (commas [J "scores"])) ++ [J ">="; J "5"] in
  let m := NBool (NIn (Some (J "kind")) [NUnary INTEGER (VInt 7); NField (Some (J "kinds"))]) (Some (NArray (Some (J "tags")) CONTAINS_ALL [NField (Some (J "wanted"))])) AND in
  let n := NBool m (Some (NCmp (NFunc F_MAX [NField (Some (J "scores"))]) (NUnary INTEGER (VInt 5)) GREATER_THAN_EQUAL INTEGER)) AND in
  let d := [(J "kind", VInt 2); (J "kinds", VColl false [VInt 1; VInt 2]); (J "tags", VColl true [VStr (J "a"); VStr (J "b")]); (J "wanted", VColl false [VStr (J "b"); VStr (J "a")]);
            (J "scores", VColl false [VInt 4; VInt 6])] in
  let d' := [(J "kind", VInt 2); (J "kinds", VColl false [VInt 2; VInt 1]); (J "tags", VColl true [VStr (J "b"); VStr (J "a")]); (J "wanted", VColl false [VStr (J "a"); VStr (J "b")]);
            (J "scores", VColl false [VInt 6; VInt 4])] in
  passage Nothing Logic ws' n /\ shuffled witness_env d d' n /\ evaluate_boolean witness_env (unwords ws') d None = Ok true /\ evaluate_boolean witness_env (unwords ws') d' None = Ok true.
Proof.
  cbv zeta. split; [|split; [|split]].
  - apply (passage_join Nothing Logic Logic
      (([J "kind"; J "IN"] ++ bracketed (commas [J "7"; J "kinds"])) ++ J "AND" :: (J "tags" :: J "CONTAINS_ALL" :: bracketed (commas [J "wanted"]))) (J "AND")
      ((J "max" :: bracketed (commas [J "scores"])) ++ [J ">="; J "5"])); [|sym|].
    + apply (passage_join Nothing Member Member (J "kind" :: J "IN" :: bracketed (commas [J "7"; J "kinds"])) (J "AND") (J "tags" :: J "CONTAINS_ALL" :: bracketed (commas [J "wanted"]))); [|sym|].
      * apply passage_clause, clause_in; [field_name_tac|sym|]. split; [discriminate|]. constructor; [intop (J "7")|constructor; [fieldop|constructor]].
      * apply clause_contains; [field_name_tac|sym|]. split; [discriminate|]. constructor; [fieldop|constructor].
    + apply clause_call_left; [sym| |sym|intop (J "5")]. split; [discriminate|]. constructor; [fieldop|constructor].
  - apply shuffled_join; [auto|apply shuffled_join; [auto| |]|apply shuffled_stamped, stamped_received, received_measured, measured_words].
    + eapply shuffled_in with (ms := [VInt 7; VInt 1; VInt 2]) (ms' := [VInt 7; VInt 2; VInt 1]); [vm_compute; reflexivity|vm_compute; reflexivity| | |].
      * exists [VInt 7; VColl false [VInt 1; VInt 2]]. split; [|reflexivity]. constructor; [apply (computed _ _ (NUnary INTEGER (VInt 7))); reflexivity|].
        constructor; [|constructor]. apply element_eval; vm_compute; reflexivity.
      * exists [VInt 7; VColl false [VInt 2; VInt 1]]. split; [|reflexivity]. constructor; [apply (computed _ _ (NUnary INTEGER (VInt 7))); reflexivity|].
        constructor; [|constructor]. apply element_eval; vm_compute; reflexivity.
      * apply permuted_members. constructor. constructor.
    + eapply shuffled_contains with (have := [VStr (J "a"); VStr (J "b")]) (have' := [VStr (J "b"); VStr (J "a")]) (ms := [VStr (J "b"); VStr (J "a")]) (ms' := [VStr (J "a"); VStr (J "b")]);
        [left; reflexivity|vm_compute; reflexivity|vm_compute; reflexivity|apply permuted_members; constructor| | |apply permuted_members; constructor].
      * exists [VColl false [VStr (J "b"); VStr (J "a")]]. split; [|reflexivity]. constructor; [|constructor]. apply element_eval; vm_compute; reflexivity.
      * exists [VColl false [VStr (J "a"); VStr (J "b")]]. split; [|reflexivity]. constructor; [|constructor]. apply element_eval; vm_compute; reflexivity.
    + cbn; tauto.
    + apply (call_measure _ _ _ _ _ [VInt 4; VInt 6] [VInt 6; VInt 4] (VInt 6) (6 # 1)); [discriminate| | |constructor| | |].
      * exists [VColl false [VInt 4; VInt 6]]. split; [repeat constructor|reflexivity].
      * exists [VColl false [VInt 6; VInt 4]]. split; [repeat constructor|reflexivity].
      * intros [X|[X|[]]]; discriminate X.
      * vm_compute; reflexivity.
      * constructor; [lia|reflexivity].
    + exists (VInt 5), (VInt 5). assert (Y : forall e, yields witness_env e (NUnary INTEGER (VInt 5)) (VInt 5)) by (intros e; split; [reflexivity|split; [discriminate|intros [g [G _]]; discriminate]]).
      split; [apply Y|]. split; [apply Y|]. exists (5 # 1). split; (constructor; [lia|reflexivity]).
  - vm_compute. reflexivity.
  - vm_compute. reflexivity.
Qed.
