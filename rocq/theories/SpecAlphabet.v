(** Specification: the characters the other specifications speak of, one by one. *)
From Verif Require Import Base.

Definition numerals : jstr := J "0123456789".
Definition capitals : jstr := J "ABCDEFGHIJKLMNOPQRSTUVWXYZ".
Definition small_letters : jstr := J "abcdefghijklmnopqrstuvwxyz".

(** [d] is [c] in lower case: the small letter if [c] is a capital, else [c] itself. *)
Definition lowers (c d : jchar) : Prop :=
  (exists i, nth_error capitals i = Some c /\ nth_error small_letters i = Some d) \/ (~ In c capitals /\ d = c).
