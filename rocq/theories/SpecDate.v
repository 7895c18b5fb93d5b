(** Specification of the calendar and of dates written as text. *)
From Verif Require Import Base JNum Dates Values.
Local Open Scope Z_scope.

(** The proleptic Gregorian calendar. *)
Definition leap (y : Z) : Prop := (4 | y) /\ (~ (100 | y) \/ (400 | y)).
Inductive month_days (y : Z) : Z -> Z -> Prop :=
| days31 m : In m [1; 3; 5; 7; 8; 10; 12] -> month_days y m 31
| days30 m : In m [4; 6; 9; 11] -> month_days y m 30
| days29 : leap y -> month_days y 2 29
| days28 : ~ leap y -> month_days y 2 28.
Definition calendar (a : date) : Prop := exists n, month_days (year a) (month a) n /\ 1 <= day a <= n.

(** The day after. *)
Inductive tomorrow : date -> date -> Prop :=
| same_month y m d n : month_days y m n -> 1 <= d < n -> tomorrow (Date y m d) (Date y m (d + 1))
| next_month y m n : month_days y m n -> m < 12 -> tomorrow (Date y m n) (Date y (m + 1) 1)
| next_year y : tomorrow (Date y 12 31) (Date (y + 1) 1 1).

Inductive steps : nat -> date -> date -> Prop :=
| no_step a : steps 0 a a
| one_step n a b c : tomorrow a b -> steps n b c -> steps (S n) a c.
(** [b] is [k] days after [a] (before it if [k] is negative). *)
Definition days_later (k : Z) (a b : date) : Prop :=
  (0 <= k /\ steps (Z.to_nat k) a b) \/ (k < 0 /\ steps (Z.to_nat (- k)) b a).

(** [s] is the number [n] written with [k] decimal digits. *)
Definition numeral (k : nat) (n : Z) (s : jstr) : Prop := length s = k /\ all_digits s = true /\ digits_val s = n.

(** yyyy-MM-dd: four digits, or a plus sign and five to nineteen digits; then two digits each. *)
Definition year_text (y : Z) (s : jstr) : Prop :=
  numeral 4 y s \/ exists ds, s = J "+" ++ ds /\ (5 <= length ds <= 19)%nat /\ numeral (length ds) y ds.
Definition ymd_text (y m d : Z) (s : jstr) : Prop :=
  exists a b c, year_text y a /\ numeral 2 m b /\ numeral 2 d c /\ s = a ++ J "-" ++ b ++ J "-" ++ c.

(** The date that the text [s] stands for: the day counts up to 31 in every month and is moved to the end of the month. *)
Definition written_date (s : jstr) (a : date) : Prop :=
  exists y m d n, ymd_text y m d s /\ 1 <= y <= 999999999 /\ month_days y m n /\ 1 <= d <= 31 /\ a = Date y m (Z.min d n).

(** A date object or a text that stands for a date. *)
Definition denotes_date (v : jval) (a : date) : Prop :=
  (v = VDate a /\ calendar a) \/ exists s, v = VStr s /\ written_date s a.

(** yyyy-MM-dd HH:mm:ss; 24:00:00 is the start of the next day. *)
Definition hms_text (h mi s : Z) (t : jstr) : Prop :=
  exists a b c, numeral 2 h a /\ numeral 2 mi b /\ numeral 2 s c /\ t = a ++ J ":" ++ b ++ J ":" ++ c.
Definition written_datetime (t : jstr) (x : datetime) : Prop :=
  exists p q a h mi s, t = p ++ J " " ++ q /\ written_date p a /\ hms_text h mi s q /\
    ((h <= 23 /\ mi <= 59 /\ s <= 59 /\ x = DateTime a h mi s 0) \/
     (h = 24 /\ mi = 0 /\ s = 0 /\ exists b, tomorrow a b /\ year b <= 999999999 /\ x = DateTime b 0 0 0 0)).

(** Nanoseconds since the start of the day. *)
Definition clock (x : datetime) : Z := ((hour x * 60 + minute x) * 60 + second x) * 1000000000 + nano x.
Definition wall_time (x : datetime) : Prop :=
  calendar (dt_date x) /\ 0 <= hour x <= 23 /\ 0 <= minute x <= 59 /\ 0 <= second x <= 59 /\ 0 <= nano x <= 999999999.
Definition denotes_datetime (v : jval) (x : datetime) : Prop :=
  (v = VDateTime x /\ wall_time x) \/ exists s, v = VStr s /\ written_datetime s x.
(** [y] is [k] nanoseconds after [x]. *)
Definition nanos_later (k : Z) (x y : datetime) : Prop :=
  exists days, days_later days (dt_date x) (dt_date y) /\ k = days * 86400000000000 + (clock y - clock x).

(** yyyy-MM-dd with a four-digit year. *)
Definition plain_text (y m d : Z) (s : jstr) : Prop :=
  exists a b c, numeral 4 y a /\ numeral 2 m b /\ numeral 2 d c /\ s = a ++ J "-" ++ b ++ J "-" ++ c.
