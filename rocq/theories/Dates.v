(** java.time.LocalDate / LocalDateTime and the two formatters "yyyy-MM-dd" and "yyyy-MM-dd HH:mm:ss"
    (B/util/ValueUtils.java:159-176, B/datatype/DateDataType.java:14, B/datatype/DateTimeDataType.java:14),
    plus DateTimeFormatter.ISO_LOCAL_DATE used by LocalDate.parse(String) (B/function/arithmetic/DaysElapsedFunction.java:37). *)
From Verif Require Import Base JNum.
Local Open Scope Z_scope.

Record date := Date { year : Z; month : Z; day : Z }.
Record datetime := DateTime { dt_date : date; hour : Z; minute : Z; second : Z; nano : Z }.

(** IsoChronology.isLeapYear *)
Definition is_leap (y : Z) : bool :=
  (y mod 4 =? 0) && (negb (y mod 100 =? 0) || (y mod 400 =? 0)).

(** Month.length *)
Definition month_length (y m : Z) : Z :=
  if m =? 2 then (if is_leap y then 29 else 28)
  else if (m =? 4) || (m =? 6) || (m =? 9) || (m =? 11) then 30
  else 31.

Definition max_year : Z := 999999999.

(** What LocalDate.of accepts. *)
Definition valid_date (d : date) : bool :=
  (- max_year <=? year d) && (year d <=? max_year) &&
  (1 <=? month d) && (month d <=? 12) &&
  (1 <=? day d) && (day d <=? month_length (year d) (month d)).

(** LocalDate.compareTo: year, then month, then day. *)
Definition date_compare (a b : date) : comparison :=
  match year a ?= year b with
  | Eq => match month a ?= month b with
          | Eq => day a ?= day b
          | c => c
          end
  | c => c
  end.

(** LocalDateTime.compareTo: the date, then LocalTime.compareTo (hour, minute, second, nano). *)
Definition datetime_compare (a b : datetime) : comparison :=
  match date_compare (dt_date a) (dt_date b) with
  | Eq => match hour a ?= hour b with
          | Eq => match minute a ?= minute b with
                  | Eq => match second a ?= second b with
                          | Eq => nano a ?= nano b
                          | c => c
                          end
                  | c => c
                  end
          | c => c
          end
  | c => c
  end.

(** LocalDate.toEpochDay *)
Definition to_epoch_day (d : date) : Z :=
  let y := year d in
  let m := month d in
  let total := 365 * y in
  let total := if 0 <=? y then total + ((y + 3) / 4 - (y + 99) / 100 + (y + 399) / 400)
               else total - (Z.quot y (-4) - Z.quot y (-100) + Z.quot y (-400)) in
  let total := total + (367 * m - 362) / 12 in
  let total := total + (day d - 1) in
  let total := if 2 <? m then (if is_leap y then total - 1 else total - 2) else total in
  total - 719528.

(** Two decimal digits at the front of the text, as DateTimeFormatter's two-digit fields MM, dd, HH, mm, ss. *)
Definition take2 (s : jstr) : option (Z * jstr) :=
  match s with
  | a :: b :: r => if is_digit a && is_digit b then Some (digit_val a * 10 + digit_val b, r) else None
  | _ => None
  end.

(** A literal character of the pattern. *)
Definition expect (c : jchar) (s : jstr) : option jstr :=
  match s with
  | x :: r => if (x =? c)%N then Some r else None
  | [] => None
  end.

(** The field yyyy / uuuu with sign style EXCEEDS_PAD in strict parsing: exactly four digits without a sign, or
    '+' and 5..[maxw] digits.  A '-' sign is accepted when [neg_ok] (then the value must not be zero); for the
    year-of-era pattern a negative value is out of range and rejected anyway. *)
Definition take_year (neg_ok : bool) (maxw : nat) (s : jstr) : option (Z * jstr) :=
  match s with
  | c :: r =>
      if (c =? ch "+")%N then
        let (ds, rest) := span is_digit r in
        if (4 <? length ds)%nat && (length ds <=? maxw)%nat then Some (digits_val ds, rest) else None
      else if (c =? ch "-")%N then
        if neg_ok then
          let (ds, rest) := span is_digit r in
          if (3 <? length ds)%nat && (length ds <=? maxw)%nat && negb (digits_val ds =? 0)
          then Some (- digits_val ds, rest) else None
        else None
      else
        let (ds, rest) := span is_digit s in
        if (length ds =? 4)%nat then Some (digits_val ds, rest) else None
  | [] => None
  end.

Definition obind {A B} (o : option A) (k : A -> option B) : option B :=
  match o with Some a => k a | None => None end.

(** The date part: three fields, no validation yet. *)
Definition parse_ymd (neg_ok : bool) (maxw : nat) (s : jstr) : option (Z * Z * Z * jstr) :=
  obind (take_year neg_ok maxw s) (fun '(y, r1) =>
  obind (expect (ch "-") r1) (fun r2 =>
  obind (take2 r2) (fun '(m, r3) =>
  obind (expect (ch "-") r3) (fun r4 =>
  obind (take2 r4) (fun '(d, r5) => Some (y, m, d, r5)))))).

(** IsoChronology.resolveYMD with ResolverStyle.SMART: month 1..12, day 1..31, then the day is clamped to the
    length of the month; year-of-era must be 1..999999999. *)
Definition smart_resolve (y m d : Z) : option date :=
  if (1 <=? y) && (y <=? max_year) && (1 <=? m) && (m <=? 12) && (1 <=? d) && (d <=? 31)
  then Some (Date y m (Z.min d (month_length y m)))
  else None.

(** LocalDate.parse(text, DateTimeFormatter.ofPattern("yyyy-MM-dd")); None stands for DateTimeParseException.
    B/util/ValueUtils.java:162-168, B/datatype/DateDataType.java:51-57. *)
Definition parse_date (s : jstr) : option date :=
  obind (parse_ymd false 19 s) (fun '(y, m, d, rest) =>
  match rest with [] => smart_resolve y m d | _ => None end).

(** LocalDate.plusDays(1) *)
Definition next_day (d : date) : date :=
  if day d <? month_length (year d) (month d) then Date (year d) (month d) (day d + 1)
  else if month d <? 12 then Date (year d) (month d + 1) 1
  else Date (year d + 1) 1 1.

(** Parsed.resolveTime, SMART: 24:00:00 is midnight of the following day. *)
Definition smart_time (d : date) (h mi s : Z) : option datetime :=
  if (h =? 24) && (mi =? 0) && (s =? 0) then
    let d' := next_day d in
    if year d' <=? max_year then Some (DateTime d' 0 0 0 0) else None
  else if (h <=? 23) && (mi <=? 59) && (s <=? 59) then Some (DateTime d h mi s 0)
  else None.

(** LocalDateTime.parse(text, DateTimeFormatter.ofPattern("yyyy-MM-dd HH:mm:ss")).
    B/util/ValueUtils.java:170-176, B/datatype/DateTimeDataType.java:51-57. *)
Definition parse_datetime (s : jstr) : option datetime :=
  obind (parse_ymd false 19 s) (fun '(y, m, d, r) =>
  obind (expect (ch " ") r) (fun r1 =>
  obind (take2 r1) (fun '(h, r2) =>
  obind (expect (ch ":") r2) (fun r3 =>
  obind (take2 r3) (fun '(mi, r4) =>
  obind (expect (ch ":") r4) (fun r5 =>
  obind (take2 r5) (fun '(se, r6) =>
  match r6 with
  | [] => obind (smart_resolve y m d) (fun dd => smart_time dd h mi se)
  | _ => None
  end))))))).

(** LocalDate.parse(text): ISO_LOCAL_DATE (year width 4..10, resolver STRICT).
    B/function/arithmetic/DaysElapsedFunction.java:37. *)
Definition parse_iso_date (s : jstr) : option date :=
  obind (parse_ymd true 10 s) (fun '(y, m, d, rest) =>
  match rest with
  | [] => if valid_date (Date y m d) then Some (Date y m d) else None
  | _ => None
  end).

(** [n] printed with at least [w] digits. *)
Definition pad (w : nat) (n : Z) : jstr :=
  let s := print_N (Z.to_N n) in repeat (ch "0") (w - length s) ++ s.

(** LocalDate.toString *)
Definition date_to_string (d : date) : jstr :=
  (if year d <? 0 then ch "-" :: pad 4 (- year d)
   else if 9999 <? year d then ch "+" :: pad 4 (year d) else pad 4 (year d))
  ++ ch "-" :: pad 2 (month d) ++ ch "-" :: pad 2 (day d).

(** LocalDateTime.toString: date 'T' HH:mm[:ss[.fraction]] *)
Definition datetime_to_string (t : datetime) : jstr :=
  date_to_string (dt_date t) ++ ch "T" :: pad 2 (hour t) ++ ch ":" :: pad 2 (minute t) ++
  (if (0 <? second t) || (0 <? nano t) then
     ch ":" :: pad 2 (second t) ++
     (if 0 <? nano t then
        ch "." :: (if nano t mod 1000000 =? 0 then pad 3 (nano t / 1000000)
                   else if nano t mod 1000 =? 0 then pad 6 (nano t / 1000)
                   else pad 9 (nano t))
      else [])
   else []).
