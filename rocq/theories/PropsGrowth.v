(** C83: how large the values of an evaluation can be. *)
From Coq Require Import QArith Qabs Lia.
From Verif Require Import Base JNum BigDec Dates Values Ops Funcs Ast Eval Lexer Grammar Listener Api SpecNum SpecCompare SpecArith SpecDate SpecMixed SpecScale SpecExact SpecPath SpecSize
  CompareWitness SpecMeaning MeaningFacts MeaningText SpecPlaces PlacesFacts SpecGrowth GrowthFacts.
Local Open Scope Z_scope.

(** C83: if no number of the data exceeds 10^B, no text of the data [B] characters and no list of the data [B] members, no part of an expression of up to
    [B] characters has a value that exceeds 10^B for each object of its tree. *)
Theorem C83_magnitude : forall E d s dflt n m v B, world E d -> finite_doubles E -> data_size d B -> 1074 <= B -> Z.of_nat (length s) <= B ->
  parse_expression s dflt = Ok n -> lengths_fit E d n -> part m n -> arith_eval E d m = Ok v -> magnitude (B * Z.of_nat (objects m)) v.
Proof. exact text_magnitude. Qed.
Print Assumptions C83_magnitude.

(** C83: nor does a value print to more than 6 B characters for each object. *)
Theorem C83_length : forall E d s dflt n m v B, world E d -> finite_doubles E -> data_size d B -> 1074 <= B -> Z.of_nat (length s) <= B ->
  parse_expression s dflt = Ok n -> lengths_fit E d n -> part m n -> arith_eval E d m = Ok v -> print_length (6 * B * Z.of_nat (objects m)) v.
Proof. exact text_print. Qed.
Print Assumptions C83_length.

(** C83: nor does a decimal have more than 2 B digits for each object. *)
Theorem C83_digits : forall E d s dflt n m b B, world E d -> finite_doubles E -> data_size d B -> 1074 <= B -> Z.of_nat (length s) <= B ->
  parse_expression s dflt = Ok n -> lengths_fit E d n -> part m n -> arith_eval E d m = Ok (VDec b) -> Z.abs (unscaled b) <= 10 ^ (2 * B * Z.of_nat (objects m)).
Proof. exact text_digits. Qed.
Print Assumptions C83_digits.

(** C83: in terms of the number of words of the text. *)
Theorem C83_words : forall E d s dflt n m v k B, world E d -> finite_doubles E -> data_size d B -> 1074 <= B -> Z.of_nat (length s) <= B -> words_in s k ->
  parse_expression s dflt = Ok n -> lengths_fit E d n -> part m n -> arith_eval E d m = Ok v ->
  let j := Z.of_nat (2 * k + 1) in magnitude (B * (j * j)) v /\ print_length (6 * B * (j * j)) v.
Proof. exact text_words. Qed.
Print Assumptions C83_words.

Example C83_case : let E := Env (Date 2024 1 1) (fun m n => DFin 1 0) (fun _ _ => DFin 1 (-1074)) in
  let d := [(J "a", VDec (BD 25 1)); (J "s", VStr (J "ab"))] in let s := J "(((a * 0.125 * a) > 1) OR ((s + a + s) = 'x'))" in
  world E d /\ finite_doubles E /\ data_size d 1200 /\ words_in s 25 /\
  exists n m m', parse_expression s None = Ok n /\ lengths_fit E d n /\
    part m n /\ arith_eval E d m = Ok (VDec (BD 78125 5)) /\ objects m = 5%nat /\ part m' n /\ arith_eval E d m' = Ok (VStr (J "ab2.5ab")) /\ objects m' = 5%nat.
Proof.
  cbv zeta. set (E := Env _ _ _). set (d := [(J "a", VDec (BD 25 1)); (J "s", VStr (J "ab"))]).
  assert (Fd : forall ks v, found d ks v -> v = VDec (BD 25 1) \/ v = VStr (J "ab")).
  { intros ks v H. inversion H as [? k ? In0 _|? k es ks' ? In0 H']; subst; destruct In0 as [X|[X|[]]]; try discriminate X; injection X as <- <-; auto. }
  assert (P : possible (VDec (BD 25 1))) by apply dec_result. assert (P' : possible (VStr (J "ab"))) by apply text_result.
  assert (W : world E d).
  { split; [exists 31; split; [apply days31; cbn; tauto|cbn; lia]|]. split; [cbn; lia|]. split.
    - apply proper_map; [cbn; repeat (constructor; [cbn; intuition discriminate|]); constructor|]. intros k v [H|[H|[]]]; injection H as <- <-; apply proper_other; discriminate.
    - intros ks v H. destruct (Fd ks v H) as [-> | ->]; (split; [assumption|]); apply Forall_cons; try assumption; apply Forall_nil. }
  assert (T : finite_doubles E).
  { split; [split; intros; match goal with H : _ = DFin _ _ |- _ => injection H as <- <- end; lia|]. split; intros; match goal with H : _ = DFin _ _ |- _ => injection H as <- <- end; vm_compute; reflexivity. }
  assert (S1 : magnitude 1200 (VDec (BD 25 1)) /\ print_length 1200 (VDec (BD 25 1))).
  { split; [|vm_compute; discriminate]. intros b Hb. inversion Hb; subst. apply (within_le 2 1200); [lia|]. vm_compute. discriminate. }
  assert (S2 : magnitude 1200 (VStr (J "ab")) /\ print_length 1200 (VStr (J "ab"))) by (split; [intros b Hb; inversion Hb|vm_compute; discriminate]).
  assert (Pl : places 1200 (VDec (BD 25 1))) by (intros b Hb; inversion Hb; subst; cbn; lia). assert (Pl' : places 1200 (VStr (J "ab"))) by (intros b Hb; inversion Hb).
  assert (D : data_size d 1200).
  { split; intros ks v H; destruct (Fd ks v H) as [-> | ->].
    - split; [exact Pl|apply Forall_cons; [exact Pl|apply Forall_nil]].
    - split; [exact Pl'|apply Forall_cons; [exact Pl'|apply Forall_nil]].
    - destruct S1. split; [assumption|]. split; [assumption|]. split; [cbn; lia|]. apply Forall_cons; [split; assumption|apply Forall_nil].
    - destruct S2. split; [assumption|]. split; [assumption|]. split; [cbn; lia|]. apply Forall_cons; [split; assumption|apply Forall_nil]. }
  split; [exact W|]. split; [exact T|]. split; [exact D|]. split; [eexists; split; [vm_compute; reflexivity|reflexivity]|].
  eexists. eexists. eexists. split; [vm_compute; reflexivity|]. split; [apply without_fit; cbn; intuition discriminate|].
  split; [apply part_condition_left, part_compared_left, part_self|]. split; [vm_compute; reflexivity|]. split; [reflexivity|].
  split; [apply part_condition_right, part_compared_left, part_self|]. split; [vm_compute; reflexivity|reflexivity].
Qed.
