(** Properties: versions with labels. *)
From Coq Require Import QArith.
From Verif Require Import SpecRecover AnyText.
From Verif Require Import Base JNum Dates Version Values Ops Ast Eval Lexer Api SpecNum SpecBool SpecCompare SpecPath SpecLex SpecDate SpecMixed SpecSyntax SpecInsert SpecLabel
  LexCases TextCases CompareWitness LabelFacts.
Local Open Scope Z_scope.

(** C70: a text or a version against a version, in either order. *)
Theorem C70_order : forall E d l r v s a p n t b p' n' op x, release s a p n -> release t b p' n' -> (v = VStr s /\ op <> EQUALS /\ op <> NOT_EQUAL) \/ v = VVer s ->
  yields E d l v -> yields E d r (VVer t) ->
  (accepts op (release_order a p n b p' n') = Some x -> bool_eval E d (SpecCompare.cond l op r) = Ok x) /\
  (accepts op (release_order b p' n' a p n) = Some x -> bool_eval E d (SpecCompare.cond r op l) = Ok x).
Proof. exact release_condition. Qed.
Print Assumptions C70_order.

(** C70: in the text of a condition, against a version literal. *)
Theorem C70_written : forall E d dflt f m sym op v s a p n b x, operand f m -> In (sym, op) comparators -> release s a p n ->
  (v = VStr s /\ op <> EQUALS /\ op <> NOT_EQUAL) \/ v = VVer s -> yields E d m v -> (3 <= length b)%nat -> (hd 10 b < 10)%N ->
  accepts op (release_order a p n b 5 0) = Some x -> evaluate_boolean E (comparison_text f sym (dotted b)) d dflt = Ok x.
Proof. exact release_written. Qed.
Print Assumptions C70_written.

(** C70: a label after a dot, against a version without one. *)
Theorem C70_dot : forall E d l r v cs lb p n b op x, cs <> [] -> label lb p n -> b <> [] -> let s := dotted cs ++ J "." ++ lb in
  (v = VStr s /\ op <> EQUALS /\ op <> NOT_EQUAL) \/ v = VVer s -> yields E d l v -> yields E d r (VVer (dotted b)) ->
  accepts op (match components_compare cs b with Eq => p ?= 5 | c => c end) = Some x -> bool_eval E d (SpecCompare.cond l op r) = Ok x.
Proof. exact dot_condition. Qed.
Print Assumptions C70_dot.

(** Cases: 1.2.3-SNAPSHOT is before 1.2.3 and after 1.2.2; 1.2.3-rc2 before 1.2.3-RC10; 1.2b3 before 1.2.0. *)
Example C70_case :
  let holds s op t := evaluate_boolean witness_env (comparison_text (J "f") op t) [(J "f", VStr s)] None in
  release (J "1.2.3-SNAPSHOT") [1; 2; 3]%N 4 0 /\ release (J "1.2b3") [1; 2]%N 1 3 /\ release (J "1.2.3-RC10") [1; 2; 3]%N 3 10 /\
  accepts LESS_THAN (release_order [1; 2; 3]%N 4 0 [1; 2; 3]%N 5 0) = Some true /\ accepts GREATER_THAN (release_order [1; 2; 3]%N 4 0 [1; 2; 2]%N 5 0) = Some true /\
  holds (J "1.2.3-SNAPSHOT") (J "<") (J "1.2.3") = Ok true /\ holds (J "1.2.3-SNAPSHOT") (J ">") (J "1.2.2") = Ok true /\
  holds (J "1.2b3") (J ">=") (J "1.2.0") = Ok false /\ holds (J "1.2-sp1") (J ">") (J "1.2.0") = Ok true /\ holds (J "1.2.0-ga") (J ">=") (J "1.2.0") = Ok true /\
  bool_eval witness_env [] (SpecCompare.cond (NUnary VERSION (VVer (J "1.2.3-rc2"))) LESS_THAN (NUnary VERSION (VVer (J "1.2.3-RC10")))) = Ok true /\
  bool_eval witness_env [] (SpecCompare.cond (NUnary VERSION (VVer (J "1.2.3-rc2"))) EQUALS (NUnary VERSION (VVer (J "1.2.3-CR2")))) = Ok true /\
  holds (J "1.0.RC1") (J "<") (J "1.0.0") = Ok true /\ label (J "RC1") 3 1 /\ operand (J "f") (NField (Some (J "f"))) /\ dotted [1; 2; 3]%N = J "1.2.3".
Proof.
  cbv zeta.
  assert (L : label (J "RC1") 3 1).
  { change (label (J "RC" ++ J "1") 3 (natural (J "1"))). apply (l_numbered _ (J "rc")); [cbn; tauto|discriminate| |split; [discriminate|repeat constructor]]. repeat constructor; right; split; reflexivity. }
  split; [apply (r_label [1; 2; 3]%N (J "-") (J "SNAPSHOT")); [discriminate|auto|]; apply (l_name _ (J "snapshot")); [cbn; tauto|]; repeat constructor; right; split; reflexivity|].
  split; [apply (r_label [1; 2]%N [] (J "b3")); [discriminate|auto|]; change (label (J "b" ++ J "3") 1 (natural (J "3"))); apply (l_numbered _ (J "b")); [cbn; tauto|discriminate|repeat constructor|split; [discriminate|repeat constructor]]|].
  split; [apply (r_label [1; 2; 3]%N (J "-") (J "RC10")); [discriminate|auto|]; change (label (J "RC" ++ J "10") 3 (natural (J "10"))); apply (l_numbered _ (J "rc")); [cbn; tauto|discriminate| |split; [discriminate|repeat constructor]]; repeat constructor; right; split; reflexivity|].
  do 10 (split; [vm_compute; reflexivity|]).
  split; [exact L|]. split; [apply o_field; field_name_tac|reflexivity].
Qed.
