(** Properties: where any text stands among the versions. *)
From Coq Require Import QArith Lia.
From Verif Require Import SpecRecover AnyText.
From Verif Require Import Base JNum Dates Version Values Ops Ast Eval Lexer Api SpecNum SpecBool SpecCompare SpecPath SpecLex SpecDate SpecMixed SpecSyntax SpecInsert SpecList SpecExact SpecLabel SpecPosition
  LexCases TextCases CompareWitness PositionFacts.
Local Open Scope Z_scope.

(** C79: every text, whatever its form, has a place among the dotted numeric versions: it stands at, just before or just
    after one of them, and that decides its order against all of them. *)
Theorem C79_position : forall s, exists cs p, forall E d l r v u b op x, version_text op v s -> begins u b [] -> yields E d l v -> yields E d r (VVer u) ->
  (accepts op (placed cs p b) = Some x -> bool_eval E d (SpecCompare.cond l op r) = Ok x) /\
  (accepts op (CompOpp (placed cs p b)) = Some x -> bool_eval E d (SpecCompare.cond r op l) = Ok x).
Proof. exact position_condition. Qed.
Print Assumptions C79_position.

(** C79: where that is: at the numbers the text begins with, on the side its first label puts it. *)
Theorem C79_side : forall E d l r v s cs rest p u b op x, begins s cs rest -> side rest p -> version_text op v s -> begins u b [] -> yields E d l v -> yields E d r (VVer u) ->
  (accepts op (placed cs p b) = Some x -> bool_eval E d (SpecCompare.cond l op r) = Ok x) /\
  (accepts op (CompOpp (placed cs p b)) = Some x -> bool_eval E d (SpecCompare.cond r op l) = Ok x).
Proof. exact side_condition. Qed.
Print Assumptions C79_side.

(** C79: in the text of a condition, against a version literal. *)
Theorem C79_written : forall E d dflt f m sym op v s cs rest p b x, operand f m -> In (sym, op) comparators -> begins s cs rest -> side rest p ->
  version_text op v s -> yields E d m v -> (3 <= length b)%nat -> (hd 10 b < 10)%N ->
  accepts op (placed cs p b) = Some x -> evaluate_boolean E (comparison_text f sym (dotted b)) d dflt = Ok x.
Proof. exact side_written. Qed.
Print Assumptions C79_written.

(** C79: whoever passes a bound passes every looser one, whatever the value (text, version, number, date, list, map ...). *)
Theorem C79_thresholds : forall E d l v op ra rb a b ua ub, yields E d l v -> SpecExact.genuine v -> begins ua a [] -> begins ub b [] ->
  (3 <= length a)%nat -> (3 <= length b)%nat -> yields E d ra (VVer ua) -> yields E d rb (VVer ub) -> looser op b a ->
  bool_eval E d (SpecCompare.cond l op rb) = Ok true -> bool_eval E d (SpecCompare.cond l op ra) = Ok true.
Proof. exact thresholds. Qed.
Print Assumptions C79_thresholds.

Theorem C79_thresholds_written : forall E d dflt f sym op a b, field_name f -> to_lower f <> J "null" -> proper_data d ->
  (forall v, yields E d (NField (Some f)) v -> SpecExact.genuine v) -> In (sym, op) comparators ->
  (3 <= length a)%nat -> (hd 10 a < 10)%N -> (3 <= length b)%nat -> (hd 10 b < 10)%N -> looser op b a ->
  evaluate_boolean E (comparison_text f sym (dotted b)) d dflt = Ok true -> evaluate_boolean E (comparison_text f sym (dotted a)) d dflt = Ok true.
Proof. exact thresholds_written. Qed.
Print Assumptions C79_thresholds_written.

(** C79: among versions with labels there is no such order: three of them, each before the next in a circle. *)
Theorem C79_transitive_refuted : forall E d, let holds s t := bool_eval E d (SpecCompare.cond (lit (VVer s)) LESS_THAN (lit (VVer t))) = Ok true in
  holds (J "1.0.rc1") (J "1.0") /\ holds (J "1.0") (J "1.0-1") /\ holds (J "1.0-1") (J "1.0.rc1").
Proof. exact circle. Qed.
Print Assumptions C79_transitive_refuted.

(** Cases: 1.2.3-hotfix and 1.2.3+b7 are just after 1.2.3, 1.2.3a too, but 1.2.3a1 is just before it; v1.2.3 is just after
    0 and so before 0.0.1. *)
Example C79_case :
  let holds s op t := evaluate_boolean witness_env (comparison_text (J "f") op t) [(J "f", VStr s)] None in
  begins (J "1.02.3-hotfix") [1; 2; 3]%N (J "-hotfix") /\ side (J "-hotfix") Gt /\ side (J "a1") Lt /\ side (J "-14-gabc") Gt /\ begins (J "v1.2.3") [] (J "v1.2.3") /\ side (J "v1.2.3") Gt /\
  holds (J "1.02.3-hotfix") (J ">") (J "1.2.3") = Ok true /\ holds (J "1.02.3-hotfix") (J "<") (J "1.2.4") = Ok true /\ holds (J "1.2.3+b7") (J ">") (J "1.2.3") = Ok true /\
  holds (J "1.2.3a") (J ">") (J "1.2.3") = Ok true /\ holds (J "1.2.3a1") (J "<") (J "1.2.3") = Ok true /\ holds (J "v1.2.3") (J "<") (J "0.0.1") = Ok true /\
  looser GREATER_THAN [1; 10; 0]%N [1; 9; 5]%N /\ begins (J "1.9.5") [1; 9; 5]%N [] /\ version_text LESS_THAN (VStr (J "v1.2.3")) (J "v1.2.3").
Proof.
  cbv zeta.
  assert (B : forall rest, ~ starts (fun c => is_digit c = true \/ c = ch ".") rest -> begins (J "1.02.3" ++ rest) [1; 2; 3]%N rest).
  { intros rest H. apply (b_more (J "1") 1 (J "02.3" ++ rest)); [apply digits_check; [discriminate|reflexivity]|reflexivity|]. apply (b_more (J "02") 2 (J "3" ++ rest)); [apply digits_check; [discriminate|reflexivity]|reflexivity|].
    apply (b_last (J "3") 3 rest); [apply digits_check; [discriminate|reflexivity]|reflexivity|exact H]. }
  split; [apply (B (J "-hotfix")), starts_check; reflexivity|].
  split; [apply (s_other (J "-") (J "hotfix") []); [cbn; tauto|apply word_check; [discriminate|reflexivity|reflexivity]|apply other_check; reflexivity]|].
  split; [apply (s_label [] (J "a") (J "1") (J "a") 0); [cbn; tauto|apply word_check; [discriminate|reflexivity|reflexivity]| |discriminate|repeat constructor]; right; split; [cbn; tauto|exists (ch "1"), []; split; reflexivity]|].
  split; [apply (s_number (J "14") (J "-gabc")); [apply digits_check; [discriminate|reflexivity]|reflexivity|]; intros [c [r [E D]]]; injection E as <- _; discriminate D|].
  split; [apply b_none, starts_check; reflexivity|].
  split; [apply (s_other [] (J "v") (J "1.2.3")); [cbn; tauto|apply word_check; [discriminate|reflexivity|reflexivity]|apply other_check; reflexivity]|].
  do 6 (split; [vm_compute; reflexivity|]). split; [discriminate|].
  split; [|left; split; [reflexivity|split; discriminate]].
  apply (b_more (J "1") 1 (J "9.5")); [apply digits_check; [discriminate|reflexivity]|reflexivity|]. apply (b_more (J "9") 9 (J "5")); [apply digits_check; [discriminate|reflexivity]|reflexivity|].
  apply (b_last (J "5") 5 []); [apply digits_check; [discriminate|reflexivity]|reflexivity|apply no_start].
Qed.
