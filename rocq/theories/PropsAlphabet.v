(** C11, C34, C52, C98: the characters, the lower case and the numerals that the specifications share with the model, pinned down character by character. *)
From Verif Require Import Base JNum SpecAlphabet AlphabetFacts.
Local Open Scope Z_scope.

(** C52: the digits and letters of the grammar are the ten digits and the two times 26 letters of ASCII. *)
Theorem C52_characters : forall c, (is_digit c = true <-> In c numerals) /\ (is_upper c = true <-> In c capitals) /\ (is_lower c = true <-> In c small_letters).
Proof. exact characters. Qed.
Print Assumptions C52_characters.

(** C11: in "null in any spelling" exactly the capitals are exchanged for their small letters. *)
Theorem C11_spelling : forall s t, to_lower s = t <-> Forall2 lowers s t.
Proof. exact lower_text. Qed.
Print Assumptions C11_spelling.

(** C34: digits denote their value in the decimal system. *)
Theorem C34_positional : digits_val [] = 0 /\ forall s i c, nth_error numerals i = Some c -> digits_val (s ++ [c]) = 10 * digits_val s + Z.of_nat i.
Proof. exact positional. Qed.
Print Assumptions C34_positional.
Theorem C34_numerals : forall s, all_digits s = true <-> Forall (fun c => In c numerals) s.
Proof. exact all_numerals. Qed.
Print Assumptions C34_numerals.

(** C98: a whole number is printed as a minus sign, if it is negative, and the digits of its magnitude without leading zeros. *)
Theorem C98_printed : forall z, exists ds, ds <> [] /\ Forall (fun c => In c numerals) ds /\ (ds = J "0" \/ nth_error ds 0 <> Some (ch "0")) /\ digits_val ds = Z.abs z /\
  print_Z z = (if z <? 0 then J "-" else []) ++ ds.
Proof. exact printed. Qed.
Print Assumptions C98_printed.

Example C52_characters_case : is_digit (ch "9") = true /\ is_upper (ch "Z") = true /\ is_lower (ch "a") = true /\ is_digit (ch "a") = false /\ is_lower (ch "[") = false /\
  to_lower (J "NuLL_[Z") = J "null_[z" /\ digits_val (J "0907") = 907 /\ nth_error numerals 7 = Some (ch "7") /\ print_Z (-120) = J "-120" /\ print_Z 0 = J "0".
Proof. repeat split. Qed.
