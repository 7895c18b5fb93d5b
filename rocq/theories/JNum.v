(** Java integers: two's complement wrap, printing, parsing, and the conversion long -> double. *)
From Coq Require Import Decimal DecimalN.
From Verif Require Import Base.
Local Open Scope Z_scope.

Definition int_min : Z := -2147483648.
Definition int_max : Z := 2147483647.
Definition long_min : Z := -9223372036854775808.
Definition long_max : Z := 9223372036854775807.

Definition in_int (z : Z) : bool := (int_min <=? z) && (z <=? int_max).
Definition in_long (z : Z) : bool := (long_min <=? z) && (z <=? long_max).

(** Two's complement wrap of an exact result to 32 / 64 bits (JLS 15.17, 15.18). *)
Definition wrap32 (z : Z) : Z := (z + 2147483648) mod 4294967296 - 2147483648.
Definition wrap64 (z : Z) : Z := (z + 9223372036854775808) mod 18446744073709551616 - 9223372036854775808.

(** Decimal digits, most significant first: Integer.toString / BigInteger.toString on non-negative numbers. *)
Fixpoint chars_of_uint (u : uint) : jstr :=
  match u with
  | Nil => []
  | D0 u => 48%N :: chars_of_uint u
  | D1 u => 49%N :: chars_of_uint u
  | D2 u => 50%N :: chars_of_uint u
  | D3 u => 51%N :: chars_of_uint u
  | D4 u => 52%N :: chars_of_uint u
  | D5 u => 53%N :: chars_of_uint u
  | D6 u => 54%N :: chars_of_uint u
  | D7 u => 55%N :: chars_of_uint u
  | D8 u => 56%N :: chars_of_uint u
  | D9 u => 57%N :: chars_of_uint u
  end.
Definition print_N (n : N) : jstr := chars_of_uint (N.to_uint n).

(** Integer.toString(int), Long.toString(long), BigInteger.toString(). *)
Definition print_Z (z : Z) : jstr :=
  if z <? 0 then ch "-" :: print_N (Z.to_N (- z)) else print_N (Z.to_N z).

(** Value of a digit sequence. *)
Definition digit_val (c : jchar) : Z := Z.of_N c - 48.
Definition digits_val (s : jstr) : Z := fold_left (fun acc c => acc * 10 + digit_val c) s 0.

Definition all_digits (s : jstr) : bool := forallb is_digit s.

(** Integer.parseInt / Long.parseLong without the range check: optional sign, at least one digit, nothing else. *)
Definition parse_integer (s : jstr) : option Z :=
  match s with
  | [] => None
  | c :: s' =>
      if (c =? ch "-")%N then
        match s' with [] => None | _ => if all_digits s' then Some (- digits_val s') else None end
      else if (c =? ch "+")%N then
        match s' with [] => None | _ => if all_digits s' then Some (digits_val s') else None end
      else if all_digits s then Some (digits_val s) else None
  end.

(** Integer.parseInt, Long.parseLong: None stands for NumberFormatException. *)
Definition parse_int (s : jstr) : option Z :=
  match parse_integer s with Some z => if in_int z then Some z else None | None => None end.
Definition parse_long (s : jstr) : option Z :=
  match parse_integer s with Some z => if in_long z then Some z else None | None => None end.

(** Widening primitive conversion long -> double (JLS 5.1.2): round to nearest, ties to even, 53 significant bits.
    The result is an integer again, so it is represented in [Z]. *)
Definition round_double (z : Z) : Z :=
  let a := Z.abs z in
  if a <? 9007199254740992 then z
  else
    let e := Z.log2 a - 52 in
    let q := a / 2 ^ e in
    let r := a mod 2 ^ e in
    let half := 2 ^ (e - 1) in
    let q' := if (half <? r) || ((r =? half) && Z.odd q) then q + 1 else q in
    Z.sgn z * (q' * 2 ^ e).
