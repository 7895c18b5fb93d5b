(** Cases for the properties of dates that move later and versions that become newer. *)
From Coq Require Import QArith.
From Verif Require Import RecoverFacts.
From Verif Require Import Base JNum BigDec Dates Version Values Ops Funcs Ast Eval Lexer Grammar Api SpecNum SpecCompare SpecArith SpecDate SpecLex SpecPath SpecSyntax SpecText SpecChain SpecTrend SpecCourse
  DateFacts LexCases TextCases TrendFacts CourseFacts CompareWitness.
Local Open Scope Z_scope.

Lemma day_literal E d a : calendar a -> at_point E d (NUnary DATE (VDate a)) (PDay a).
Proof. intros C. apply literal_at. left. auto. Qed.
Lemma course_case : let ws := [J "due"; J "<="; J "2024-03-01"; J "AND"; J "NOT"] ++ bracketed [J "app"; J "<"; J "2.10.0"] in
  let n := NBool (NCmp (NField (Some (J "due"))) (NUnary DATE (VDate (Date 2024 3 1))) LESS_THAN_EQUAL DATE)
     (Some (NBool (NCmp (NField (Some (J "app"))) (NUnary VERSION (VVer (J "2.10.0"))) LESS_THAN VERSION) None NOT)) AND in
  let d := [(J "due", VStr (J "2024-02-30")); (J "app", VStr (J "2.9"))] in let d' := [(J "due", VDate (Date 2024 2 29)); (J "app", VStr (J "2.10"))] in
  passage Nothing Logic ws n /\ course witness_env d d' true n /\ certain witness_env d' n /\
  evaluate_boolean witness_env (unwords ws) d None = Ok false /\ evaluate_boolean witness_env (unwords ws) d' None = Ok true.
Proof.
  cbv zeta.
  set (d := [(J "due", VStr (J "2024-02-30")); (J "app", VStr (J "2.9"))]). set (d' := [(J "due", VDate (Date 2024 2 29)); (J "app", VStr (J "2.10"))]).
  assert (W : forall s a, parse_date s = Some a -> written_date s a) by (intros s a H; apply parse_date_spec, H).
  assert (C1 : calendar (Date 2024 3 1)) by (exists 31; split; [apply days31; cbn; tauto|cbn; lia]).
  assert (C2 : calendar (Date 2024 2 29)) by (exists 29; split; [apply days29; split; [exists 506; reflexivity|left; intros [z Z]; cbn [year] in Z; lia]|cbn; lia]).
  assert (D1 : at_point witness_env d (NField (Some (J "due"))) (PDay (Date 2024 2 29))).
  { apply (field_at _ _ _ _ (VStr (J "2024-02-30"))); [discriminate|vm_compute; reflexivity|]. right. eexists. split; [reflexivity|]. apply W. vm_compute. reflexivity. }
  assert (D2 : at_point witness_env d' (NField (Some (J "due"))) (PDay (Date 2024 2 29))).
  { apply (field_at _ _ _ _ (VDate (Date 2024 2 29))); [discriminate|vm_compute; reflexivity|]. left. auto. }
  assert (D3 : forall e, at_point witness_env e (NUnary DATE (VDate (Date 2024 3 1))) (PDay (Date 2024 3 1))) by (intros e; apply day_literal, C1).
  assert (V1 : at_point witness_env d (NField (Some (J "app"))) (PRelease [2; 9]%N)).
  { apply (field_at _ _ _ _ (VStr (J "2.9"))); [discriminate|vm_compute; reflexivity|]. split; [discriminate|]. left. reflexivity. }
  assert (V2 : at_point witness_env d' (NField (Some (J "app"))) (PRelease [2; 10]%N)).
  { apply (field_at _ _ _ _ (VStr (J "2.10"))); [discriminate|vm_compute; reflexivity|]. split; [discriminate|]. left. reflexivity. }
  assert (V3 : forall e, at_point witness_env e (NUnary VERSION (VVer (J "2.10.0"))) (PRelease [2; 10; 0]%N)).
  { intros e. apply literal_at. split; [discriminate|]. right. reflexivity. }
  assert (V4 : forall e m, comparable Releases witness_env e m (NUnary VERSION (VVer (J "2.10.0")))).
  { intros e m _. right. exists (J "2.10.0"). split; [reflexivity|]. split; [discriminate|]. intros [g [G _]]; discriminate. }
  split; [|split; [|split]].
  - apply (passage_join Nothing Logic Logic [J "due"; J "<="; J "2024-03-01"] (J "AND") (J "NOT" :: bracketed [J "app"; J "<"; J "2.10.0"])); [|sym|].
    + apply passage_clause, clause_words; [auto|fieldop|sym|]. apply o_date; [reflexivity|]. apply W. vm_compute. reflexivity.
    + apply (clause_not _ Logic); [sym|]. apply passage_clause, clause_words; [auto|fieldop|sym|].
      apply (o_version (ch "2") [J "10"; J "0"]); [reflexivity|cbn; lia|]. repeat constructor; discriminate.
  - apply course_join; [auto| |apply course_not; cbn [negb]].
    + apply (course_less_up _ _ _ Days); [auto| | |intros K; discriminate K|intros K; discriminate K].
      * eexists. eexists. split; [exact D2|]. split; [exact D1|]. eapply no_earlier_self; [exact D2|exact Logic.I].
      * eexists. eexists. split; [apply D3|]. split; [apply D3|]. eapply no_earlier_self; [apply (D3 d)|exact Logic.I].
    + apply (course_less_down _ _ _ Releases); [auto| | |apply V4|apply V4].
      * eexists. eexists. split; [exact V1|]. split; [exact V2|]. vm_compute. discriminate.
      * eexists. eexists. split; [apply V3|]. split; [apply V3|]. vm_compute. discriminate.
  - apply certain_join; [auto| |apply certain_not].
    + apply (certain_words _ _ Days); [cbn [In]; tauto| | |intros K; discriminate K].
      * eexists. eexists. split; [exact D2|]. split; [exact D2|]. eapply no_earlier_self; [exact D2|exact Logic.I].
      * eexists. eexists. split; [apply D3|]. split; [apply D3|]. eapply no_earlier_self; [apply (D3 d)|exact Logic.I].
    + apply (certain_words _ _ Releases); [cbn [In]; tauto| | |apply V4].
      * eexists. eexists. split; [exact V2|]. split; [exact V2|]. vm_compute. discriminate.
      * eexists. eexists. split; [apply V3|]. split; [apply V3|]. vm_compute. discriminate.
  - split; vm_compute; reflexivity.
Qed.
Lemma newer_text_refuted : exists E cs cs' low, components_compare cs cs' = Lt /\ components_compare low cs = Lt /\ length cs = 3%nat /\
  evaluate_boolean E (J "app > least") [(J "app", VStr (dotted cs)); (J "least", VStr (dotted low))] None = Ok true /\
  evaluate_boolean E (J "app > least") [(J "app", VStr (dotted cs')); (J "least", VStr (dotted low))] None = Ok false.
Proof. exists witness_env, [1; 9; 1]%N, [1; 10; 1]%N, [1; 2; 0]%N. split; [vm_compute; reflexivity|]. split; [vm_compute; reflexivity|]. split; [reflexivity|]. split; vm_compute; reflexivity. Qed.
Lemma newer_short_refuted : exists E cs cs', components_compare cs cs' = Lt /\ components_compare [1; 5]%N cs = Lt /\
  evaluate_boolean E (J "app >= 1.5") [(J "app", VStr (dotted cs))] None = Ok true /\ evaluate_boolean E (J "app >= 1.5") [(J "app", VStr (dotted cs'))] None = Ok false.
Proof. exists witness_env, [1; 9]%N, [1; 10]%N. split; [vm_compute; reflexivity|]. split; [vm_compute; reflexivity|]. split; vm_compute; reflexivity. Qed.
