(** C44, C75: the texts that + puts together. *)
From Coq Require Import QArith.
From Verif Require Import Base JNum BigDec Dates Values Ops Funcs Ast Eval SpecNum SpecCompare SpecArith SpecDate SpecScale CompareFacts CompareWitness SpecShown ShownFacts OneText ShownCases.
Local Open Scope Z_scope.

(** C44: the text of a value, for values of every type and nesting. *)
Theorem C44_shown : forall v, shown v (show v).
Proof. exact show_shown. Qed.
Print Assumptions C44_shown.
(** C44: and it is its only text. *)
Theorem C44_only_text : forall v s, settled v -> (show v = s <-> shown v s).
Proof. exact show_only. Qed.
Print Assumptions C44_only_text.
(** C44: + with a textual operand gives the two texts, left before right. *)
Theorem C44_texts : forall E d l r v w, arith_eval E d l = Ok v -> arith_eval E d r = Ok w -> textual v \/ textual w ->
  supported ADD (get_data_type v) -> supported ADD (get_data_type w) -> (forall b t, v = VFloat b t \/ w = VFloat b t -> exists q, float_text t q) ->
  exists s t, shown v s /\ shown w t /\ arith_eval E d (bin l ADD r) = Ok (VStr (s ++ t)).
Proof. exact texts_joined. Qed.
Print Assumptions C44_texts.

(** C75: how a decimal that is not printed in full is printed. *)
Theorem C75_exponent : forall b, ~ short b -> with_exponent b (show (VDec b)).
Proof. exact exponent_shown. Qed.
Print Assumptions C75_exponent.
Example C75_exponent_case : ~ short (BD (-125) 12) /\ show (VDec (BD (-125) 12)) = J "-1.25E-10" /\ ~ short (BD 7 (-3)) /\ show (VDec (BD 7 (-3))) = J "7E+3" /\
  short (BD (-125) 8) /\ show (VDec (BD (-125) 8)) = J "-0.00000125".
Proof. exact exponent_case. Qed.

(** Lists, maps, negative numbers and times; a list without the space after the comma is not its text. *)
Example C44_shown_case :
  let v := VColl true [VInt (-7); VNull; VBool true; VMap [(J "a", VStr (J "x")); (J "b", VColl false [])]] in
  let x := DateTime (Date 2024 2 29) 9 5 0 120000000 in
  show v = J "[-7, null, true, {a=x, b=[]}]" /\ (forall s, shown (VColl true [VInt 1; VInt 2]) s -> s <> J "[1,2]") /\
  settled v /\ wall_time x /\ show (VDateTime x) = J "2024-02-29T09:05:00.120" /\
  arith_eval witness_env [(J "d", v)] (bin (lit (VStr (J "is "))) ADD (NField (Some (J "d")))) = Ok (VStr (J "is [-7, null, true, {a=x, b=[]}]")).
Proof. exact shown_case. Qed.
