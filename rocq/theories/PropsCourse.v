(** Properties of conditions when dates in the data move later and versions become newer. *)
From Coq Require Import QArith.
From Verif Require Import RecoverFacts.
From Verif Require Import Base JNum BigDec Dates Version Values Ops Funcs Ast Eval Lexer Grammar Api SpecNum SpecCompare SpecArith SpecDate SpecLex SpecPath SpecSyntax SpecText SpecChain SpecTrend SpecCourse
  LexCases TextCases TrendFacts CourseFacts CourseCases CompareWitness.
Local Open Scope Z_scope.

(** C93: where a condition with a course answers both before and after, the answer follows the course. *)
Theorem C93_course : forall E d d' up n, course E d d' up n -> forall b b', bool_eval E d n = Ok b -> bool_eval E d' n = Ok b' ->
  if up then b = true -> b' = true else b' = true -> b = true.
Proof. exact course_follows. Qed.
Print Assumptions C93_course.

(** C93: the same for texts of any length. *)
Theorem C93_text : forall E d d' dflt s ws n up b b', passage Nothing s ws n -> course E d d' up n ->
  evaluate_boolean E (unwords ws) d dflt = Ok b -> evaluate_boolean E (unwords ws) d' dflt = Ok b' -> if up then b = true -> b' = true else b' = true -> b = true.
Proof. exact course_text_both. Qed.
Print Assumptions C93_text.

(** C93: a condition made of comparisons of dates, date-times, versions and numbers stays true when all it looks at goes its way. *)
Theorem C93_stays_true : forall E d d' dflt s ws n, passage Nothing s ws n -> course E d d' true n -> certain E d' n ->
  evaluate_boolean E (unwords ws) d dflt = Ok true -> evaluate_boolean E (unwords ws) d' dflt = Ok true.
Proof. exact course_text. Qed.
Print Assumptions C93_stays_true.

(** C93: fields and literals stand where their values are, whichever way the values are held. *)
Theorem C93_field : forall E d f p v, to_lower f <> J "null" -> arith_eval E d (NField (Some f)) = Ok v ->
  match p with PDay a => denotes_date v a | PMoment x => denotes_datetime v x | PRelease cs => version_like v cs end -> at_point E d (NField (Some f)) p.
Proof. exact field_at. Qed.
Print Assumptions C93_field.
Theorem C93_literal : forall E d t v p, match p with PDay a => denotes_date v a | PMoment x => denotes_datetime v x | PRelease cs => version_like v cs end -> at_point E d (NUnary t v) p.
Proof. exact literal_at. Qed.
Print Assumptions C93_literal.

(** due <= 2024-03-01 AND NOT ( app < 2.10.0 ) : the due date stays the same day though held differently, the version text becomes newer. *)
Example C93_case : let ws := [J "due"; J "<="; J "2024-03-01"; J "AND"; J "NOT"] ++ bracketed [J "app"; J "<"; J "2.10.0"] in
  let n := NBool (NCmp (NField (Some (J "due"))) (NUnary DATE (VDate (Date 2024 3 1))) LESS_THAN_EQUAL DATE)
     (Some (NBool (NCmp (NField (Some (J "app"))) (NUnary VERSION (VVer (J "2.10.0"))) LESS_THAN VERSION) None NOT)) AND in
  let d := [(J "due", VStr (J "2024-02-30")); (J "app", VStr (J "2.9"))] in let d' := [(J "due", VDate (Date 2024 2 29)); (J "app", VStr (J "2.10"))] in
  passage Nothing Logic ws n /\ course witness_env d d' true n /\ certain witness_env d' n /\
  evaluate_boolean witness_env (unwords ws) d None = Ok false /\ evaluate_boolean witness_env (unwords ws) d' None = Ok true.
Proof. exact course_case. Qed.

(** C93, refuted for two versions held as texts: they are compared letter by letter, so a newer one makes the condition false. *)
Theorem C93_texts_refuted : exists E cs cs' low, components_compare cs cs' = Lt /\ components_compare low cs = Lt /\ length cs = 3%nat /\
  evaluate_boolean E (J "app > least") [(J "app", VStr (dotted cs)); (J "least", VStr (dotted low))] None = Ok true /\
  evaluate_boolean E (J "app > least") [(J "app", VStr (dotted cs')); (J "least", VStr (dotted low))] None = Ok false.
Proof. exact newer_text_refuted. Qed.
Print Assumptions C93_texts_refuted.
(** C93, refuted for versions with two parts written in the condition: they are decimals, and 1.10 is less than 1.5. *)
Theorem C93_two_parts_refuted : exists E cs cs', components_compare cs cs' = Lt /\ components_compare [1; 5]%N cs = Lt /\
  evaluate_boolean E (J "app >= 1.5") [(J "app", VStr (dotted cs))] None = Ok true /\ evaluate_boolean E (J "app >= 1.5") [(J "app", VStr (dotted cs'))] None = Ok false.
Proof. exact newer_short_refuted. Qed.
Print Assumptions C93_two_parts_refuted.
