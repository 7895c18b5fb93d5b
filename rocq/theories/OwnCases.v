(** Cases of values and their own text. *)
From Coq Require Import QArith.
From Verif Require Import RecoverFacts.
From Verif Require Import Base JNum BigDec Dates Version Values Ops Funcs Ast Eval Api SpecNum SpecBool SpecCompare SpecArith SpecFunc SpecDate SpecMixed SpecPlace SpecOwn
  NumFacts BoolFacts CompareFacts OrderFacts MixedFacts DateFacts OwnFacts CompareWitness.
Local Open Scope Z_scope.

Definition equals_own (v : jval) : res bool := bool_eval witness_env [] (cond (lit v) EQUALS (lit (VStr (show v)))).
Lemma own_case :
  stands (VDec (BD 123 (-1))) DECIMAL /\ show (VDec (BD 123 (-1))) = J "1.23E+3" /\ jvm_decimal (VDec (BD 123 (-1))) /\ written_number (J "1.23E+3") (inject_Z 1230) /\ equals_own (VDec (BD 123 (-1))) = Ok true /\
  stands (VDate (Date 12020 1 31)) DATE /\ show (VDate (Date 12020 1 31)) = J "+12020-01-31" /\ equals_own (VDate (Date 12020 1 31)) = Ok true /\
  stands (VDate (Date (-5) 1 31)) DATE /\ show (VDate (Date (-5) 1 31)) = J "-0005-01-31" /\ equals_own (VDate (Date (-5) 1 31)) = Ok true /\
  stands (VDateTime (DateTime (Date 2024 1 31) 9 5 0 0)) DATETIME /\ show (VDateTime (DateTime (Date 2024 1 31) 9 5 0 0)) = J "2024-01-31T09:05" /\ equals_own (VDateTime (DateTime (Date 2024 1 31) 9 5 0 0)) = Ok true /\
  stands (VVer (J "1.10.2")) VERSION /\ equals_own (VVer (J "1.10.2")) = Ok true /\ stands (VBool true) BOOLEAN /\ equals_own (VBool true) = Ok true /\
  bool_eval witness_env [] (cond (lit (VDec (BD 123 (-1)))) LESS_THAN_EQUAL (lit (VStr (J "1.23E+3")))) = Ok true /\
  bool_eval witness_env [] (cond (lit (VStr (J "1.23E+3"))) LESS_THAN (lit (VDec (BD 12305 1)))) = Ok true.
Proof.
  assert (C : forall y, calendar (Date y 1 31)) by (intros y; exists 31; split; [apply days31; cbn; tauto|cbn; lia]).
  assert (Jd : jvm_decimal (VDec (BD 123 (-1)))) by (split; [cbn; lia|exists 3; split; [lia|reflexivity]]).
  split; [constructor|]. split; [vm_compute; reflexivity|]. split; [exact Jd|].
  split; [apply (number_written (VDec (BD 123 (-1))) (inject_Z 1230)); [constructor; reflexivity|exact Jd]|]. split; [vm_compute; reflexivity|].
  split; [apply (stands_date _ (Date 12020 1 31)); left; auto|]. split; [vm_compute; reflexivity|]. split; [vm_compute; reflexivity|].
  split; [apply (stands_date _ (Date (-5) 1 31)); left; auto|]. split; [vm_compute; reflexivity|]. split; [vm_compute; reflexivity|].
  split; [apply (stands_datetime _ (DateTime (Date 2024 1 31) 9 5 0 0)); left; split; [reflexivity|split; [apply C|cbn; lia]]|]. split; [vm_compute; reflexivity|]. split; [vm_compute; reflexivity|].
  split; [constructor|]. split; [vm_compute; reflexivity|]. split; [constructor|]. repeat split; vm_compute; reflexivity.
Qed.
(** Against a whole number the text of a decimal with a fraction is refused, the decimal is not. *)
Lemma own_against_whole : exists E v w, (exists q, number v q) /\ jvm_decimal v /\ (exists p, number w p) /\
  bool_eval E [] (cond (lit v) GREATER_THAN (lit w)) = Ok true /\ bool_eval E [] (cond (lit (VStr (show v))) GREATER_THAN (lit w)) = Err InvalidDataType.
Proof.
  exists witness_env, (VDec (BD 55 1)), (VInt 5). split; [eexists; constructor; reflexivity|]. split; [split; [cbn; lia|exists 2; split; [lia|reflexivity]]|].
  split; [eexists; constructor; [lia|reflexivity]|]. split; vm_compute; reflexivity.
Qed.
(** A value that equals the text of another value need not equal that value, and the text of an equal value need not be equal. *)
Lemma other_text : exists E v w, (exists q, number v q /\ number w q) /\
  bool_eval E [] (cond (lit v) EQUALS (lit w)) = Ok true /\ bool_eval E [] (cond (lit v) EQUALS (lit (VStr (show w)))) = Ok false.
Proof.
  exists witness_env, (VInt 5), (VDec (BD 50 1)). split; [exists (inject_Z 5); split; constructor; try lia; reflexivity|]. split; vm_compute; reflexivity.
Qed.
