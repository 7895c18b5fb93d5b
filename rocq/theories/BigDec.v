(** java.math.BigDecimal: an unscaled integer and a scale; the value is unscaled * 10^(-scale).
    Simplification: a scale is an unbounded integer, i.e. the ArithmeticException that Java raises when an
    intermediate scale leaves the int range is not modelled (the range check of the String constructor is). *)
From Verif Require Import Base JNum.
Local Open Scope Z_scope.

Record bigdec := BD { unscaled : Z; scale : Z }.

Definition pow10 (n : Z) : Z := 10 ^ n.

(** new BigDecimal(int), new BigDecimal(long) *)
Definition bd_of_Z (z : Z) : bigdec := BD z 0.

(** Unscaled value after raising the scale to [s] (s >= scale). *)
Definition rescale (b : bigdec) (s : Z) : Z := unscaled b * pow10 (s - scale b).

(** BigDecimal.add / subtract / multiply / negate / compareTo / signum *)
Definition bd_add (a b : bigdec) : bigdec :=
  let s := Z.max (scale a) (scale b) in BD (rescale a s + rescale b s) s.
Definition bd_sub (a b : bigdec) : bigdec :=
  let s := Z.max (scale a) (scale b) in BD (rescale a s - rescale b s) s.
Definition bd_mul (a b : bigdec) : bigdec := BD (unscaled a * unscaled b) (scale a + scale b).
Definition bd_neg (a : bigdec) : bigdec := BD (- unscaled a) (scale a).
Definition bd_compare (a b : bigdec) : comparison :=
  let s := Z.max (scale a) (scale b) in rescale a s ?= rescale b s.

(** BigDecimal.equals: same unscaled value and same scale. *)
Definition bd_equals (a b : bigdec) : bool := (unscaled a =? unscaled b) && (scale a =? scale b).

Inductive rounding := RoundDown | RoundUnnecessary.

(** BigDecimal.divide(divisor, scale, roundingMode): the quotient a/b with the requested scale.
    With unscaled values u1, u2 and scales s1, s2 the scaled quotient is u1*10^(s+s2-s1) / u2. *)
Definition bd_divide (a b : bigdec) (s : Z) (m : rounding) : res bigdec :=
  if unscaled b =? 0 then Err ArithmeticExc
  else
    let k := s + scale b - scale a in
    let num := unscaled a * pow10 (Z.max k 0) in
    let den := unscaled b * pow10 (Z.max (- k) 0) in
    match m with
    | RoundDown => Ok (BD (Z.quot num den) s)
    | RoundUnnecessary => if Z.rem num den =? 0 then Ok (BD (Z.quot num den) s) else Err ArithmeticExc
    end.

(** BigDecimal.stripTrailingZeros: BigDecimal.ZERO for zero, otherwise all factors of ten removed.
    The fuel is the bit length of the unscaled value, which bounds the number of factors. *)
Fixpoint strip_zeros (fuel : nat) (u s : Z) : bigdec :=
  match fuel with
  | O => BD u s
  | S f => if Z.rem u 10 =? 0 then strip_zeros f (Z.quot u 10) (s - 1) else BD u s
  end.
Definition bd_strip (b : bigdec) : bigdec :=
  if unscaled b =? 0 then BD 0 0
  else strip_zeros (S (Z.to_nat (Z.log2 (Z.abs (unscaled b))))) (unscaled b) (scale b).

(** BigDecimal.toBigInteger: the integer part (truncation toward zero). *)
Definition bd_trunc (b : bigdec) : Z :=
  if scale b <=? 0 then unscaled b * pow10 (- scale b) else Z.quot (unscaled b) (pow10 (scale b)).

(** Digits of the unscaled magnitude with a decimal point [scale] digits from the right (scale > 0). *)
Definition insert_point (digits : jstr) (s : nat) : jstr :=
  let n := length digits in
  if (s <? n)%nat then firstn (n - s) digits ++ ch "." :: skipn (n - s) digits
  else J "0." ++ repeat (ch "0") (s - n) ++ digits.

Definition sign_str (z : Z) : jstr := if z <? 0 then [ch "-"] else [].

(** BigDecimal.toPlainString *)
Definition bd_to_plain (b : bigdec) : jstr :=
  let digits := print_N (Z.abs_N (unscaled b)) in
  if scale b =? 0 then sign_str (unscaled b) ++ digits
  else if scale b <? 0 then
    if unscaled b =? 0 then J "0"
    else sign_str (unscaled b) ++ digits ++ repeat (ch "0") (Z.to_nat (- scale b))
  else sign_str (unscaled b) ++ insert_point digits (Z.to_nat (scale b)).

(** BigDecimal.toString: plain for scale >= 0 and adjusted exponent >= -6, scientific otherwise. *)
Definition bd_to_string (b : bigdec) : jstr :=
  let digits := print_N (Z.abs_N (unscaled b)) in
  if scale b =? 0 then sign_str (unscaled b) ++ digits
  else
    let adjusted := - scale b + (Z.of_nat (length digits) - 1) in
    if (0 <=? scale b) && (-6 <=? adjusted) then
      sign_str (unscaled b) ++ insert_point digits (Z.to_nat (scale b))
    else
      sign_str (unscaled b) ++
      match digits with
      | [] => []
      | d :: [] => [d]
      | d :: ds => d :: ch "." :: ds
      end ++
      (if adjusted =? 0 then []
       else ch "E" :: (if 0 <? adjusted then [ch "+"] else []) ++ print_Z adjusted).

(** new BigDecimal(String); None stands for NumberFormatException.
    [sign] digits [. digits] [(e|E) [sign] digits], at least one mantissa digit, at most ten exponent digits after
    leading zeros, resulting scale within int range. *)
Definition drop_zeros (s : jstr) : jstr := snd (span (fun c => (c =? 48)%N) s).
Definition parse_exponent (s : jstr) : option Z :=
  let '(neg, ds) :=
    match s with
    | c :: s' => if (c =? ch "-")%N then (true, s') else if (c =? ch "+")%N then (false, s') else (false, s)
    | [] => (false, [])
    end in
  match ds with
  | [] => None
  | _ =>
      if all_digits ds then
        if (10 <? length (drop_zeros ds))%nat then None
        else Some (if neg : bool then - digits_val ds else digits_val ds)
      else None
  end.
Definition parse_unsigned_bigdec (s : jstr) : option bigdec :=
  let (ip, r1) := span is_digit s in
  let '(fp, r2) :=
    match r1 with
    | c :: r => if (c =? ch ".")%N then span is_digit r else ([], r1)
    | [] => ([], [])
    end in
  match ip ++ fp with
  | [] => None
  | ds =>
      match r2 with
      | [] => Some (BD (digits_val ds) (Z.of_nat (length fp)))
      | c :: r =>
          if (c =? ch "e")%N || (c =? ch "E")%N then
            match parse_exponent r with
            | Some e =>
                let sc := Z.of_nat (length fp) - e in
                if in_int sc then Some (BD (digits_val ds) sc) else None
            | None => None
            end
          else None
      end
  end.
Definition parse_bigdec (s : jstr) : option bigdec :=
  match s with
  | c :: s' =>
      if (c =? ch "-")%N then option_map bd_neg (parse_unsigned_bigdec s')
      else if (c =? ch "+")%N then parse_unsigned_bigdec s'
      else parse_unsigned_bigdec s
  | [] => None
  end.
