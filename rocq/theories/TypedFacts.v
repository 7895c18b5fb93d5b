(** Proofs about the type a value is taken for. *)
From Coq Require Import QArith.
From Verif Require Import Base JNum BigDec Dates Values SpecDate DateFacts SpecTyped.

Lemma taken v t : get_data_type v = t <-> taken_for v t.
Proof.
  destruct v; try (split; [intros <-; constructor|intros H; inversion H; reflexivity]). split.
  - intros E. destruct t; try (revert E; cbn; destruct (parse_datetime s), (parse_date s); discriminate).
    + apply taken_text; intros a W.
      * assert (get_data_type (VStr s) = DATE) by (apply written_type; exists a; exact W). congruence.
      * assert (get_data_type (VStr s) = DATETIME) by (apply written_datetime_type; exists a; exact W). congruence.
    + apply written_type in E as [a W]. exact (taken_date_text s a W).
    + apply written_datetime_type in E as [x W]. exact (taken_datetime_text s x W).
  - intros H. inversion H as [| | | | | | | |s' a W|s' x W|s' Nd Nt| | | | |]; subst.
    + apply written_type. exists a. exact W.
    + apply written_datetime_type. exists x. exact W.
    + cbn. destruct (parse_datetime s) as [x|] eqn:X; [destruct (Nt x); apply parse_datetime_spec, X|]. destruct (parse_date s) as [a|] eqn:A; [destruct (Nd a); apply parse_date_spec, A|reflexivity].
Qed.
