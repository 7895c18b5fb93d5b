(** Cases of equal values that take each other's place. *)
From Coq Require Import QArith.
From Verif Require Import RecoverFacts.
From Verif Require Import Base JNum BigDec Dates Version Values Ops Funcs Ast Eval Api SpecNum SpecBool SpecCompare SpecArith SpecFunc SpecDate SpecMixed SpecStamp SpecPlace
  NumFacts BoolFacts CompareFacts OrderFacts VersionFacts MixedFacts DateFacts FormFacts CourseFacts StampFacts PlaceFacts CompareWitness.
Local Open Scope Z_scope.


Lemma mirror_case : stands (VVer (J "1.5")) VERSION /\ stands (VStr (J "abc")) STRING /\ stands (VDec (BD 150 2)) DECIMAL /\ mirrored LESS_THAN_EQUAL = GREATER_THAN_EQUAL /\
  bool_eval witness_env [] (cond (lit (VVer (J "1.5"))) LESS_THAN_EQUAL (lit (VDec (BD 150 2)))) = Ok true /\
  bool_eval witness_env [] (cond (lit (VDec (BD 150 2))) GREATER_THAN_EQUAL (lit (VVer (J "1.5")))) = Ok true /\
  bool_eval witness_env [] (cond (lit (VStr (J "abc"))) LESS_THAN (lit (VInt 3))) = Err InvalidDataType /\
  bool_eval witness_env [] (cond (lit (VInt 3)) GREATER_THAN (lit (VStr (J "abc")))) = Err InvalidDataType.
Proof.
  split; [constructor|]. split; [constructor; intros x H; first [apply parse_date_spec in H|apply parse_datetime_spec in H]; discriminate H|].
  split; [constructor|]. repeat split; vm_compute; reflexivity.
Qed.
Lemma place_case : one_family [VInt 5; VDec (BD 50 1); VLong 7] /\ one_family [VDate (Date 2024 1 31); VStr (J "2024-01-31"); VDate (Date 2024 3 1)] /\
  one_family [VVer (J "1.2"); VVer (J "1.2.0"); VVer (J "1.10")] /\
  bool_eval witness_env [] (cond (lit (VInt 5)) EQUALS (lit (VDec (BD 50 1)))) = Ok true /\
  bool_eval witness_env [] (cond (lit (VInt 5)) LESS_THAN (lit (VLong 7))) = Ok true /\
  bool_eval witness_env [] (cond (lit (VDec (BD 50 1))) LESS_THAN (lit (VLong 7))) = Ok true /\
  bool_eval witness_env [] (cond (lit (VDate (Date 2024 1 31))) EQUALS (lit (VStr (J "2024-01-31")))) = Ok true /\
  bool_eval witness_env [] (cond (lit (VVer (J "1.2"))) EQUALS (lit (VVer (J "1.2.0")))) = Ok true.
Proof.
  assert (A : ordinary (VInt 5)) by (eapply ordinary_number; constructor; [lia|reflexivity]).
  assert (B : ordinary (VLong 7)) by (eapply ordinary_number; constructor; [lia|reflexivity]).
  assert (D : ordinary (VDec (BD 50 1))) by (eapply ordinary_number; constructor; reflexivity).
  assert (K : forall a, calendar a -> ordinary (VDate a)) by (intros a Ca; apply (ordinary_date _ a); left; auto).
  assert (T : ordinary (VStr (J "2024-01-31"))) by (apply (ordinary_date _ (Date 2024 1 31)); right; eexists; split; [reflexivity|apply parse_date_spec; reflexivity]).
  split; [left; repeat (constructor; auto)|]. split; [left; repeat (constructor; auto); apply K; exists 31; (split; [apply days31; cbn; tauto|cbn; lia])|].
  split; [right; right; repeat constructor; [exists [1; 2]%N|exists [1; 2; 0]%N|exists [1; 10]%N]; (split; [discriminate|vm_compute; reflexivity])|].
  repeat split; vm_compute; reflexivity.
Qed.
(** A decimal equals its own text and equals the whole number, which does not equal the text. *)
Lemma text_between : exists E v w u, stands v STRING /\ ordinary w /\ ordinary u /\
  bool_eval E [] (cond (lit v) EQUALS (lit w)) = Ok true /\ bool_eval E [] (cond (lit w) EQUALS (lit u)) = Ok true /\ bool_eval E [] (cond (lit v) EQUALS (lit u)) = Ok false.
Proof.
  exists witness_env, (VStr (J "5.0")), (VDec (BD 50 1)), (VInt 5). split; [constructor; intros x H; first [apply parse_date_spec in H|apply parse_datetime_spec in H]; discriminate H|].
  split; [eapply ordinary_number; constructor; reflexivity|]. split; [eapply ordinary_number; constructor; [lia|reflexivity]|]. repeat split; vm_compute; reflexivity.
Qed.
(** Two different versions equal one decimal. *)
Lemma decimal_between : exists E v w u, of_kind Versions v /\ ordinary w /\ of_kind Versions u /\
  bool_eval E [] (cond (lit v) EQUALS (lit w)) = Ok true /\ bool_eval E [] (cond (lit w) EQUALS (lit u)) = Ok true /\ bool_eval E [] (cond (lit v) EQUALS (lit u)) = Ok false.
Proof.
  exists witness_env, (VVer (J "1.50")), (VDec (BD 15 1)), (VVer (J "1.5")). split; [exists [1; 50]%N; split; [discriminate|vm_compute; reflexivity]|].
  split; [eapply ordinary_number; constructor; reflexivity|]. split; [exists [1; 5]%N; split; [discriminate|vm_compute; reflexivity]|]. repeat split; vm_compute; reflexivity.
Qed.
