(** Cases for the properties of dates held as objects or as text. *)
From Coq Require Import QArith.
From Verif Require Import RecoverFacts.
From Verif Require Import Base JNum BigDec Dates Values Ops Funcs Ast Eval Lexer Grammar Api SpecNum SpecCompare SpecArith SpecFunc SpecDate SpecLex SpecPath SpecSyntax SpecText SpecChain SpecTrend SpecRepr SpecMixed SpecForm SpecCourse SpecStamp
  CompareFacts MixedFacts DateFacts LexCases TextCases TrendFacts ReprFacts FormFacts StampFacts CompareWitness.
Local Open Scope Z_scope.

Lemma stamp_contains_refuted : exists E x s, denotes_datetime (VDateTime x) x /\ written_datetime s x /\
  evaluate_boolean E (J "l CONTAINS_ANY (x)") [(J "x", VDateTime x); (J "l", VColl true [VStr s])] None = Ok false /\
  evaluate_boolean E (J "l CONTAINS_ANY (x)") [(J "x", VStr s); (J "l", VColl true [VStr s])] None = Ok true.
Proof.
  exists witness_env, (DateTime (Date 2024 1 1) 10 0 0 0), (J "2024-01-01 10:00:00"). 
  assert (C : calendar (Date 2024 1 1)) by (exists 31; split; [apply days31; cbn; tauto|cbn; lia]).
  split; [left; split; [reflexivity|]; unfold wall_time; cbn [dt_date hour minute second nano]; split; [exact C|lia]|].
  split; [apply parse_datetime_spec; vm_compute; reflexivity|]. split; vm_compute; reflexivity.
Qed.
Lemma stamp_elapsed_refuted : exists E a s, calendar a /\ written_date s a /\
  evaluate_boolean E (J "DAYS_ELAPSED ( x ) > 5") [(J "x", VDate a)] None = Ok false /\
  evaluate_boolean E (J "DAYS_ELAPSED ( x ) > 5") [(J "x", VStr s)] None = Err InvalidFunctionArgument.
Proof.
  exists witness_env, (Date 2024 2 29), (J "2024-02-30").
  split; [exists 29; split; [apply days29; split; [exists 506; reflexivity|left; intros [z Z]; cbn [year] in Z; lia]|cbn; lia]|].
  split; [apply parse_date_spec; vm_compute; reflexivity|]. split; vm_compute; reflexivity.
Qed.

Lemma stamp_case : let ws := [J "due"; J "<="; J "2024-03-01"; J "AND"; J "day"; J "IN"] ++ bracketed (commas [J "2024-05-01"; J "first"]) in
  let n := NBool (NCmp (NField (Some (J "due"))) (NUnary DATE (VDate (Date 2024 3 1))) LESS_THAN_EQUAL DATE)
     (Some (NIn (Some (J "day")) [NUnary DATE (VDate (Date 2024 5 1)); NField (Some (J "first"))])) AND in
  let d := [(J "due", VStr (J "2024-02-30")); (J "day", VDate (Date 2024 1 1)); (J "first", VStr (J "2024-01-01"))] in
  let d' := [(J "due", VDate (Date 2024 2 29)); (J "day", VStr (J "2024-01-01")); (J "first", VStr (J "2024-01-01"))] in
  passage Nothing Logic ws n /\ stamped witness_env d d' n /\ evaluate_boolean witness_env (unwords ws) d None = Ok true.
Proof.
  cbv zeta.
  assert (W : forall s a, parse_date s = Some a -> written_date s a) by (intros s a H; apply parse_date_spec, H).
  assert (C1 : calendar (Date 2024 3 1)) by (exists 31; split; [apply days31; cbn; tauto|cbn; lia]).
  assert (C2 : calendar (Date 2024 2 29)) by (exists 29; split; [apply days29; split; [exists 506; reflexivity|left; intros [z Z]; cbn [year] in Z; lia]|cbn; lia]).
  assert (C3 : calendar (Date 2024 1 1)) by (exists 31; split; [apply days31; cbn; tauto|cbn; lia]).
  assert (C4 : calendar (Date 2024 5 1)) by (exists 31; split; [apply days31; cbn; tauto|cbn; lia]).
  assert (K : forall a, calendar a -> denotes_date (VDate a) a) by (left; auto).
  assert (T : forall s a, parse_date s = Some a -> denotes_date (VStr s) a) by (intros s a H; right; exists s; auto).
  split; [|split].
  - apply (passage_join Nothing Logic Member [J "due"; J "<="; J "2024-03-01"] (J "AND") (J "day" :: J "IN" :: bracketed (commas [J "2024-05-01"; J "first"]))); [|sym|].
    + apply passage_clause, clause_words; [auto|fieldop|sym|]. apply o_date; [reflexivity|]. apply W. vm_compute. reflexivity.
    + apply clause_in; [field_name_tac|sym|]. split; [discriminate|]. constructor; [apply o_date; [reflexivity|]; apply W; vm_compute; reflexivity|constructor; [fieldop|constructor]].
  - apply stamped_join; [auto| |].
    + apply stamped_words; [cbn; tauto| |].
      * eapply field_time; [discriminate|vm_compute; reflexivity|vm_compute; reflexivity|]. left. exists (Date 2024 2 29). split; [apply T; vm_compute; reflexivity|apply K, C2].
      * apply literal_time. left. exists (Date 2024 3 1). auto.
    + eapply stamped_in with (ms := [VDate (Date 2024 5 1); VStr (J "2024-01-01")]) (ms' := [VDate (Date 2024 5 1); VStr (J "2024-01-01")]).
      * eapply field_time; [discriminate|vm_compute; reflexivity|vm_compute; reflexivity|]. left. exists (Date 2024 1 1). split; [apply K, C3|apply T; vm_compute; reflexivity].
      * exists [VDate (Date 2024 5 1); VStr (J "2024-01-01")]. split; [repeat constructor|]. split; [reflexivity|]. intros [H|[H|[]]]; discriminate H.
      * exists [VDate (Date 2024 5 1); VStr (J "2024-01-01")]. split; [repeat constructor|]. split; [reflexivity|]. intros [H|[H|[]]]; discriminate H.
      * constructor; [left; exists (Date 2024 5 1); auto|]. constructor; [left; exists (Date 2024 1 1); split; apply T; vm_compute; reflexivity|constructor].
  - vm_compute. reflexivity.
Qed.
