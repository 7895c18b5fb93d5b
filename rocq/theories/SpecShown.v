(** Specification of the text of a value. *)
From Coq Require Import QArith.
From Verif Require Import Base JNum BigDec Dates Values SpecNum SpecDate SpecCompare SpecMixed SpecScale SpecAlphabet.
Local Open Scope Z_scope.

(** [n] in decimal digits, with zeros in front only to reach the width [w]. *)
Definition figures (w : nat) (n : Z) (s : jstr) : Prop :=
  Forall (fun c => In c numerals) s /\ digits_val s = n /\ (length s = w \/ ((w < length s)%nat /\ nth_error s 0 <> Some (ch "0"))).
(** A minus sign, if it is negative, and at least one digit. *)
Definition whole (z : Z) (s : jstr) : Prop := exists ds, figures 1 (Z.abs z) ds /\ s = (if z <? 0 then J "-" else []) ++ ds.

(** Year, month and day, 2024-02-29; years beyond 9999 have a sign. *)
Definition dated (d : date) (s : jstr) : Prop :=
  exists y m a, figures 4 (Z.abs (year d)) y /\ figures 2 (month d) m /\ figures 2 (day d) a /\
    s = (if year d <? 0 then J "-" else if 9999 <? year d then J "+" else []) ++ y ++ J "-" ++ m ++ J "-" ++ a.
(** The fraction of a second in as many groups of three digits as it takes. *)
Inductive fraction (n : Z) : jstr -> Prop :=
| no_fraction : n = 0 -> fraction n []
| milliseconds f k : n <> 0 -> n = k * 1000000 -> figures 3 k f -> fraction n (J "." ++ f)
| microseconds f k : n mod 1000000 <> 0 -> n = k * 1000 -> figures 6 k f -> fraction n (J "." ++ f)
| nanoseconds f : n mod 1000 <> 0 -> figures 9 n f -> fraction n (J "." ++ f).
(** Seconds are left out on the full minute. *)
Inductive seconds (x : datetime) : jstr -> Prop :=
| full_minute : second x = 0 -> nano x = 0 -> seconds x []
| some_seconds s f : second x <> 0 \/ nano x <> 0 -> figures 2 (second x) s -> fraction (nano x) f -> seconds x (J ":" ++ s ++ f).
Definition timed (x : datetime) (s : jstr) : Prop :=
  exists a h m r, dated (dt_date x) a /\ figures 2 (hour x) h /\ figures 2 (minute x) m /\ seconds x r /\ s = a ++ J "T" ++ h ++ J ":" ++ m ++ r.

(** One digit, the others after a point, and the power of ten by which that is to be multiplied. *)
Definition with_exponent (b : bigdec) (s : jstr) : Prop :=
  exists c ds e x, figures 1 (Z.abs (unscaled b)) (c :: ds) /\ e = Z.of_nat (length ds) - scale b /\ whole e x /\
    s = (if unscaled b <? 0 then J "-" else []) ++ [c] ++ match ds with [] => [] | _ => J "." ++ ds end ++ J "E" ++ (if 0 <? e then J "+" else []) ++ x.

(** Elements with a comma and a space between them. *)
Inductive listed {A} (one : A -> jstr -> Prop) : list A -> jstr -> Prop :=
| listed_none : listed one [] []
| listed_last x s : one x s -> listed one [x] s
| listed_more x s y xs t : one x s -> listed one (y :: xs) t -> listed one (x :: y :: xs) (s ++ J ", " ++ t).

(** Floating point numbers, versions, arrays and foreign objects carry their text with them. *)
Inductive shown : jval -> jstr -> Prop :=
| shown_null : shown VNull (J "null")
| shown_true : shown (VBool true) (J "true")
| shown_false : shown (VBool false) (J "false")
| shown_int z s : whole z s -> shown (VInt z) s
| shown_long z s : whole z s -> shown (VLong z) s
| shown_decimal b s : (short b -> in_full s (dec_value b) (scale b)) -> (~ short b -> with_exponent b s) -> shown (VDec b) s
| shown_text s : shown (VStr s) s
| shown_float dbl s : shown (VFloat dbl s) s
| shown_version s : shown (VVer s) s
| shown_date d s : (calendar d -> dated d s) -> shown (VDate d) s
| shown_datetime x s : (wall_time x -> timed x s) -> shown (VDateTime x) s
| shown_collection l items s : listed shown items s -> shown (VColl l items) (J "[" ++ s ++ J "]")
| shown_map es s : listed (fun e t => exists u, shown (snd e) u /\ t = fst e ++ J "=" ++ u) es s -> shown (VMap es) (J "{" ++ s ++ J "}")
| shown_array items s : shown (VArr items s) s
| shown_other s : shown (VOther s) s.

(** Values whose text these rules settle: those with proper dates and times inside. *)
Inductive settled : jval -> Prop :=
| settled_null : settled VNull
| settled_bool b : settled (VBool b)
| settled_int z : settled (VInt z)
| settled_long z : settled (VLong z)
| settled_decimal b : settled (VDec b)
| settled_text s : settled (VStr s)
| settled_float dbl s : settled (VFloat dbl s)
| settled_version s : settled (VVer s)
| settled_date d : calendar d -> settled (VDate d)
| settled_datetime x : wall_time x -> settled (VDateTime x)
| settled_collection l items : Forall settled items -> settled (VColl l items)
| settled_map es : Forall (fun e => settled (snd e)) es -> settled (VMap es)
| settled_array items s : settled (VArr items s)
| settled_other s : settled (VOther s).
