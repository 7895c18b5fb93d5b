(** C28, C30, C48: dates. *)
From Verif Require Import Base JNum BigDec Dates Values Ops Funcs Ast Eval SpecNum SpecCompare SpecArith SpecFunc SpecDate CompareFacts ArithFacts DateFacts.
Local Open Scope Z_scope.

(** C28: DAYS_ELAPSED of a date is the number of days from it to the current date. *)
Theorem C28_days_elapsed : forall E d n a, arith_eval E d n = Ok (VDate a) -> calendar a -> calendar (today E) ->
  exists k, arith_eval E d (NFunc F_DAYS_ELAPSED [n]) = Ok (VLong k) /\ days_later k a (today E) /\ (forall k', days_later k' a (today E) -> k' = k).
Proof. exact elapsed_date. Qed.
Print Assumptions C28_days_elapsed.

(** C28: text that is a valid calendar date gives the same number. *)
Theorem C28_text : forall E d n y m dd s, arith_eval E d n = Ok (VStr s) -> plain_text y m dd s -> 1 <= y -> calendar (Date y m dd) ->
  arith_eval E d (NFunc F_DAYS_ELAPSED [n]) = arith_eval E d (NFunc F_DAYS_ELAPSED [lit (VDate (Date y m dd))]).
Proof. exact elapsed_text. Qed.
Print Assumptions C28_text.

(** C28: text with a day beyond the end of a short month is a date for comparisons (C30) but not for DAYS_ELAPSED. *)
Theorem C28_clamped_text_fails : forall E d n y m dd s k, arith_eval E d n = Ok (VStr s) -> plain_text y m dd s -> 1 <= y -> month_days y m k -> k < dd <= 31 ->
  arith_eval E d (NFunc F_DAYS_ELAPSED [n]) = Err InvalidFunctionArgument.
Proof. exact elapsed_clamped. Qed.
Print Assumptions C28_clamped_text_fails.

(** C28: any single value that is no date is rejected. *)
Theorem C28_other : forall E d n v, arith_eval E d n = Ok v -> get_data_type v <> DATE -> (forall b l, v <> VColl b l) ->
  arith_eval E d (NFunc F_DAYS_ELAPSED [n]) = Err InvalidDataType.
Proof. exact elapsed_other. Qed.
Print Assumptions C28_other.

Example C28_case : calendar (Date 2024 2 28) /\ calendar (today dated_env) /\ plain_text 2024 2 28 (J "2024-02-28") /\
  arith_eval dated_env [] (NFunc F_DAYS_ELAPSED [lit (VDate (Date 2024 2 28))]) = Ok (VLong 2) /\
  arith_eval dated_env [] (NFunc F_DAYS_ELAPSED [lit (VStr (J "2024-02-28"))]) = Ok (VLong 2) /\
  arith_eval dated_env [] (NFunc F_DAYS_ELAPSED [lit (VStr (J "2024-02-30"))]) = Err InvalidFunctionArgument /\
  arith_eval dated_env [] (NFunc F_DAYS_ELAPSED [lit (VDate (Date 2024 3 5))]) = Ok (VLong (-4)).
Proof.
  split; [exists 29; split; [apply days29; split; [exists 506; reflexivity|left; intros [k K]; cbn in K; lia]|cbn; lia]|].
  split; [exists 31; split; [apply days31; cbn; tauto|cbn; lia]|]. split; [exists (J "2024"), (J "02"), (J "28"); repeat split|]. repeat split.
Qed.

(** C30: exactly which texts are dates, and which date each one is. *)
Theorem C30_text : forall s, get_data_type (VStr s) = DATE <-> exists a, written_date s a.
Proof. exact written_type. Qed.
Print Assumptions C30_text.
Theorem C30_value : forall s a, get_value DATE (VStr s) = Ok (Some (VDate a)) <-> written_date s a.
Proof. exact written_value. Qed.
Print Assumptions C30_value.

(** C30: comparisons of dates, held as date objects or as text, follow the calendar: the answer depends on the number of
    days from the left to the right one. *)
Theorem C30_order : forall E d l r op dt v w a b, yields E d l v -> yields E d r w -> denotes_date v a -> denotes_date w b ->
  exists k, days_later k a b /\ forall x, accepts op (0 ?= k) = Some x -> bool_eval E d (NCmp l r op dt) = Ok x.
Proof. exact date_order. Qed.
Print Assumptions C30_order.
Theorem C30_days_unique : forall k k' a b, days_later k a b -> days_later k' a b -> k = k'.
Proof. exact days_later_unique. Qed.
Print Assumptions C30_days_unique.

Example C30_case : written_date (J "2023-02-31") (Date 2023 2 28) /\ (forall a, ~ written_date (J "2023-13-01") a) /\
  bool_eval dated_env [] (cond (lit (VStr (J "2023-02-31"))) LESS_THAN (lit (VDate (Date 2023 3 1)))) = Ok true /\
  bool_eval dated_env [] (cond (lit (VStr (J "2023-02-31"))) EQUALS (lit (VStr (J "2023-02-28")))) = Ok true.
Proof.
  split; [apply written_value; reflexivity|]. split; [intros a H; apply written_value in H; discriminate H|]. split; reflexivity.
Qed.

(** C48: the same for date-times. *)
Theorem C48_text : forall s, get_data_type (VStr s) = DATETIME <-> exists x, written_datetime s x.
Proof. exact written_datetime_type. Qed.
Print Assumptions C48_text.
Theorem C48_value : forall s x, get_value DATETIME (VStr s) = Ok (Some (VDateTime x)) <-> written_datetime s x.
Proof. exact written_datetime_value. Qed.
Print Assumptions C48_value.
Theorem C48_order : forall E d l r op dt v w x y, yields E d l v -> yields E d r w -> denotes_datetime v x -> denotes_datetime w y ->
  exists k, nanos_later k x y /\ forall b, accepts op (0 ?= k) = Some b -> bool_eval E d (NCmp l r op dt) = Ok b.
Proof. exact datetime_order. Qed.
Print Assumptions C48_order.

(** C48: a date and a date-time can not be compared with each other. *)
Theorem C48_mixed_fails : forall E d l r op dt c v w a x, accepts op c <> None -> yields E d l v -> yields E d r w -> denotes_date v a -> denotes_datetime w x ->
  bool_eval E d (NCmp l r op dt) = Err InvalidDataType /\ bool_eval E d (NCmp r l op dt) = Err InvalidDataType.
Proof. exact mixed_fails. Qed.
Print Assumptions C48_mixed_fails.

Example C48_case : written_datetime (J "2023-12-31 24:00:00") (DateTime (Date 2024 1 1) 0 0 0 0) /\ wall_time (DateTime (Date 2024 1 1) 0 0 1 0) /\
  bool_eval dated_env [] (cond (lit (VStr (J "2023-12-31 24:00:00"))) LESS_THAN (lit (VDateTime (DateTime (Date 2024 1 1) 0 0 1 0)))) = Ok true /\
  bool_eval dated_env [] (cond (lit (VStr (J "2023-12-31 24:00:00"))) LESS_THAN (lit (VDate (Date 2024 1 1)))) = Err InvalidDataType.
Proof.
  split; [apply written_datetime_value; reflexivity|]. split; [|split; reflexivity]. split; [exists 31; split; [apply days31; cbn; tauto|cbn; lia]|cbn; lia].
Qed.
