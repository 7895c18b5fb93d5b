(** C78: how many decimals the numbers of an evaluation can have. *)
From Coq Require Import QArith Lia.
From Verif Require Import Base JNum BigDec Dates Values Ops Funcs Ast Eval Lexer Grammar Listener Api SpecNum SpecCompare SpecArith SpecDate SpecMixed SpecScale SpecExact SpecPath SpecSize
  CompareWitness SpecMeaning MeaningFacts MeaningText SpecPlaces PlacesFacts.
Local Open Scope Z_scope.

(** C78: if no number of the data has more than [B] decimals, no part of an expression of up to [B] characters has a value with more than [B] decimals
    for each object of its tree; a double has up to 1074. *)
Theorem C78_places : forall E d s dflt n m v B, world E d -> true_doubles E -> data_places d B -> 1074 <= B -> Z.of_nat (length s) <= B ->
  parse_expression s dflt = Ok n -> lengths_fit E d n -> part m n -> arith_eval E d m = Ok v -> places (B * Z.of_nat (objects m)) v.
Proof. exact text_places. Qed.
Print Assumptions C78_places.

(** C78: so for texts of limited length the scale of every decimal is a 32-bit integer, as BigDecimal demands. *)
Theorem C78_fits : forall E d s dflt n m b k B, world E d -> true_doubles E -> data_places d B -> 1074 <= B -> Z.of_nat (length s) <= B -> words_in s k ->
  B * (Z.of_nat (2 * k + 1) * Z.of_nat (2 * k + 1)) <= 2147483647 ->
  parse_expression s dflt = Ok n -> lengths_fit E d n -> part m n -> arith_eval E d m = Ok (VDec b) -> fits32 (scale b).
Proof. exact text_fits. Qed.
Print Assumptions C78_fits.

Example C78_case : let E := Env (Date 2024 1 1) (fun m n => DFin (m ^ n) 0) (fun _ _ => DFin 1 (-1074)) in
  let d := [(J "a", VDec (BD 25 1))] in let s := J "((a * 0.125 * a) > 1)" in
  world E d /\ true_doubles E /\ data_places d 1200 /\ words_in s 11 /\
  exists n m, parse_expression s None = Ok n /\ lengths_fit E d n /\ part m n /\ arith_eval E d m = Ok (VDec (BD 78125 5)) /\ objects m = 5%nat /\ fits32 5.
Proof.
  cbv zeta. set (E := Env _ _ _). set (d := [(J "a", VDec (BD 25 1))]).
  assert (Fd : forall ks v, found d ks v -> v = VDec (BD 25 1)).
  { intros ks v H. inversion H as [? k ? In0 _|? k es ks' ? In0 H']; subst; destruct In0 as [X|[]]; [injection X as <- <-; reflexivity|discriminate X]. }
  assert (P : possible (VDec (BD 25 1))) by (split; [exists DECIMAL; left; apply stands_dec|discriminate]).
  assert (W : world E d).
  { split; [exists 31; split; [apply days31; cbn; tauto|cbn; lia]|]. split; [cbn; lia|]. split.
    - apply proper_map; [cbn; repeat (constructor; [cbn; intuition discriminate|]); constructor|]. intros k v [H|[]]; injection H as <- <-. apply proper_other; discriminate.
    - intros ks v H. rewrite (Fd ks v H). split; [exact P|]. apply Forall_cons; [exact P|apply Forall_nil]. }
  assert (T : true_doubles E) by (split; intros; match goal with H : _ = DFin _ _ |- _ => injection H as <- <- end; lia).
  assert (Pl : places 1200 (VDec (BD 25 1))) by (intros b Hb; inversion Hb; subst; cbn; lia).
  assert (D : data_places d 1200) by (intros ks v H; rewrite (Fd ks v H); split; [exact Pl|apply Forall_cons; [exact Pl|apply Forall_nil]]).
  split; [exact W|]. split; [exact T|]. split; [exact D|]. split; [eexists; split; [vm_compute; reflexivity|reflexivity]|].
  eexists. eexists. split; [vm_compute; reflexivity|]. split; [apply without_fit; cbn; intuition discriminate|]. split; [apply part_compared_left, part_self|].
  split; [vm_compute; reflexivity|]. split; [reflexivity|]. unfold fits32. lia.
Qed.
