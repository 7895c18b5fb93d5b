(** C21 - C27: functions. *)
From Coq Require Import QArith Permutation.
From Verif Require Import Base JNum BigDec Dates Values Ops Funcs Ast Eval SpecNum SpecCompare SpecArith SpecFunc CompareFacts ArithFacts FuncFacts FuncRound.
Local Open Scope Z_scope.

(** C21: MIN and MAX with a decimal among the arguments. *)
Theorem C21_min_decimal : forall E d items ms qs, arguments E d items ms -> Forall2 number ms qs -> (2 <= length ms)%nat -> Exists decimal ms ->
  exists q, least qs q /\ decimal_result (arith_eval E d (NFunc F_MIN items)) q.
Proof. exact min_decimal. Qed.
Print Assumptions C21_min_decimal.
Theorem C21_max_decimal : forall E d items ms qs, arguments E d items ms -> Forall2 number ms qs -> (2 <= length ms)%nat -> Exists decimal ms ->
  exists q, greatest qs q /\ decimal_result (arith_eval E d (NFunc F_MAX items)) q.
Proof. exact max_decimal. Qed.
Print Assumptions C21_max_decimal.

(** C21: MIN and MAX of whole numbers, as long as the extreme is within 2^53. *)
Theorem C21_min_whole : forall E d items ms zs, arguments E d items ms -> Forall2 whole ms zs -> (2 <= length ms)%nat ->
  exists z, In z zs /\ (forall z', In z' zs -> z <= z') /\ (Z.abs z <= 2 ^ 53 -> whole_result (arith_eval E d (NFunc F_MIN items)) z).
Proof. exact min_whole. Qed.
Print Assumptions C21_min_whole.
Theorem C21_max_whole : forall E d items ms zs, arguments E d items ms -> Forall2 whole ms zs -> (2 <= length ms)%nat ->
  exists z, In z zs /\ (forall z', In z' zs -> z' <= z) /\ (Z.abs z <= 2 ^ 53 -> whole_result (arith_eval E d (NFunc F_MAX items)) z).
Proof. exact max_whole. Qed.
Print Assumptions C21_max_whole.

(** C21: whatever the size, the result is the double nearest to the extreme, which is unique. *)
Theorem C21_min_long : forall E d items ms zs, arguments E d items ms -> Forall2 whole ms zs -> (2 <= length ms)%nat ->
  exists z y, In z zs /\ (forall z', In z' zs -> z <= z') /\ nearest_double z y /\ whole_result (arith_eval E d (NFunc F_MIN items)) y.
Proof. exact min_long. Qed.
Print Assumptions C21_min_long.
Theorem C21_max_long : forall E d items ms zs, arguments E d items ms -> Forall2 whole ms zs -> (2 <= length ms)%nat ->
  exists z y, In z zs /\ (forall z', In z' zs -> z' <= z) /\ nearest_double z y /\ whole_result (arith_eval E d (NFunc F_MAX items)) y.
Proof. exact max_long. Qed.
Print Assumptions C21_max_long.
Theorem C21_nearest_unique : forall z y w, nearest_double z y -> nearest_double z w -> y = w.
Proof. exact nearest_unique. Qed.
Print Assumptions C21_nearest_unique.

Example C21_long_case : nearest_double (2 ^ 53 + 1) (2 ^ 53) /\ nearest_double (2 ^ 53 + 3) (2 ^ 53 + 4) /\
  Forall2 whole [VLong 9007199254740995; VInt 5] [9007199254740995; 5] /\
  arith_eval exact_env [] (NFunc F_MAX [lit (VLong 9007199254740995); lit (VInt 5)]) = Ok (VDec (BD 9007199254740996 0)) /\
  arith_eval exact_env [] (NFunc F_MIN [lit (VLong (-9007199254740993)); lit (VInt 5)]) = Ok (VDec (BD (-9007199254740992) 0)).
Proof.
  split; [apply (round_nearest (2 ^ 53 + 1)); lia|]. split; [apply (round_nearest (2 ^ 53 + 3)); lia|].
  repeat split; repeat constructor; discriminate.
Qed.

(** C21: beyond 2^53 the result need not be one of the arguments. *)
Theorem C21_min_long_refuted : exists E d items zs x y, arguments E d items (map VLong zs) /\ Forall fits64 zs /\ (2 <= length zs)%nat /\
  arith_eval E d (NFunc F_MIN items) = Ok (VDec x) /\ (dec_value x == inject_Z y)%Q /\ ~ In y zs.
Proof. exact min_long_rounds. Qed.
Print Assumptions C21_min_long_refuted.

Example C21_case : exists ms qs, arguments exact_env [] [lit (VInt 7); lit (VColl true [VLong 3; VDec (BD 25 1)])] ms /\
  Forall2 number ms qs /\ (2 <= length ms)%nat /\ Exists decimal ms /\
  arith_eval exact_env [] (NFunc F_MIN [lit (VInt 7); lit (VColl true [VLong 3; VDec (BD 25 1)])]) = Ok (VDec (BD 25 1)) /\
  arith_eval exact_env [] (NFunc F_MAX [lit (VInt 7); lit (VColl true [VLong 3; VDec (BD 25 1)])]) = Ok (VInt 7) /\
  arith_eval exact_env [] (NFunc F_MAX [lit (VInt 7); lit (VLong 3000000000)]) = Ok (VDec (BD 3000000000 0)).
Proof.
  exists [VInt 7; VLong 3; VDec (BD 25 1)], [inject_Z 7; inject_Z 3; (5 # 2)%Q]. repeat split.
  - eexists. split; [repeat constructor|reflexivity].
  - repeat constructor; try discriminate; reflexivity.
  - cbn. auto.
  - right. right. left. reflexivity.
Qed.

(** C22: SUM. *)
Theorem C22_sum_decimal : forall E d items ms qs, arguments E d items ms -> Forall2 number ms qs -> (2 <= length ms)%nat -> Exists decimal ms ->
  decimal_result (arith_eval E d (NFunc F_SUM items)) (total qs).
Proof. exact sum_decimal. Qed.
Print Assumptions C22_sum_decimal.
Theorem C22_sum_whole : forall E d items ms zs, arguments E d items ms -> Forall2 whole ms zs -> (2 <= length ms)%nat ->
  Z.abs (whole_total zs) <= 2 ^ 53 -> whole_result (arith_eval E d (NFunc F_SUM items)) (whole_total zs).
Proof. exact sum_whole. Qed.
Print Assumptions C22_sum_whole.

(** C22: whatever the size, the sum is first reduced to 64 bits and then to the nearest double. *)
Theorem C22_sum_long : forall E d items ms zs, arguments E d items ms -> Forall2 whole ms zs -> (2 <= length ms)%nat ->
  exists z y, wraps 64 (whole_total zs) z /\ nearest_double z y /\ whole_result (arith_eval E d (NFunc F_SUM items)) y.
Proof. exact sum_long. Qed.
Print Assumptions C22_sum_long.
Example C22_long_case : wraps 64 (9223372036854775807 + 2) (-9223372036854775807) /\ nearest_double (-9223372036854775807) (- 2 ^ 63) /\
  arith_eval exact_env [] (NFunc F_SUM [lit (VLong 9223372036854775807); lit (VInt 2)]) = Ok (VDec (BD (-9223372036854775808) 0)).
Proof.
  split; [split; [lia|exists (-1); reflexivity]|]. split; [apply (round_nearest (-9223372036854775807)); lia|reflexivity].
Qed.

Example C22_case : Forall2 whole [VInt 2147483647; VInt 1; VLong (-5)] [2147483647; 1; -5] /\
  arith_eval exact_env [] (NFunc F_SUM [lit (VInt 2147483647); lit (VInt 1); lit (VLong (-5))]) = Ok (VInt 2147483643) /\
  arith_eval exact_env [] (NFunc F_SUM [lit (VInt 2147483647); lit (VInt 1)]) = Ok (VDec (BD 2147483648 0)) /\
  arith_eval exact_env [] (NFunc F_SUM [lit (VDec (BD 15 1)); lit (VInt 1)]) = Ok (VDec (BD 25 1)).
Proof. repeat split; repeat constructor; discriminate. Qed.

(** C23: AVG and MEAN are the same function. *)
Theorem C23_same : forall E d items, arith_eval E d (NFunc F_AVG items) = arith_eval E d (NFunc F_MEAN items).
Proof. exact avg_mean. Qed.
Print Assumptions C23_same.

(** C23: with a decimal, the mean truncated to three decimals. *)
Theorem C23_decimal : forall E d items ms qs, arguments E d items ms -> Forall2 number ms qs -> (2 <= length ms)%nat -> Exists decimal ms ->
  exists z, truncates (mean qs * inject_Z 1000) z /\ decimal_result (arith_eval E d (NFunc F_AVG items)) (inject_Z z / inject_Z 1000).
Proof. exact avg_decimal. Qed.
Print Assumptions C23_decimal.

(** C23: whole numbers: the exact mean if it has at most two decimals, failure otherwise. *)
Theorem C23_whole : forall E d items ms zs, arguments E d items ms -> Forall2 whole ms zs -> (2 <= length ms)%nat -> fits64 (whole_total zs) ->
  ((exists z, mean (map inject_Z zs) * inject_Z 100 == inject_Z z)%Q -> decimal_result (arith_eval E d (NFunc F_AVG items)) (mean (map inject_Z zs))) /\
  ((forall z, ~ mean (map inject_Z zs) * inject_Z 100 == inject_Z z)%Q -> arith_eval E d (NFunc F_AVG items) = Err ArithmeticExc).
Proof. exact avg_whole. Qed.
Print Assumptions C23_whole.

Example C23_case :
  arith_eval exact_env [] (NFunc F_AVG [lit (VInt 1); lit (VInt 2)]) = Ok (VDec (BD 150 2)) /\
  arith_eval exact_env [] (NFunc F_AVG [lit (VInt 1); lit (VInt 2); lit (VInt 2)]) = Err ArithmeticExc /\
  arith_eval exact_env [] (NFunc F_MEAN [lit (VDec (BD (-1) 1)); lit (VInt 0); lit (VInt 0)]) = Ok (VDec (BD (-33) 3)).
Proof. repeat split. Qed.

(** C24: MEDIAN. *)
Theorem C24_median : forall E d items ms qs, arguments E d items ms -> Forall2 number ms qs -> (2 <= length ms)%nat ->
  exists s, ascending qs s /\
    (Nat.odd (length ms) = true -> decimal_result (arith_eval E d (NFunc F_MEDIAN items)) (nth (length ms / 2) s 0%Q)) /\
    (Nat.even (length ms) = true -> exists z,
       truncates ((nth (length ms / 2 - 1) s 0 + nth (length ms / 2) s 0) / 2 * inject_Z 100)%Q z /\
       decimal_result (arith_eval E d (NFunc F_MEDIAN items)) (inject_Z z / inject_Z 100)%Q).
Proof. exact median_result. Qed.
Print Assumptions C24_median.

(** C24: the order of the arguments does not matter: both orders return the same number. *)
Theorem C24_order : forall E d items1 items2 ms1 ms2 qs1, arguments E d items1 ms1 -> arguments E d items2 ms2 -> Permutation ms1 ms2 ->
  Forall2 number ms1 qs1 -> (2 <= length ms1)%nat ->
  exists q, decimal_result (arith_eval E d (NFunc F_MEDIAN items1)) q /\ decimal_result (arith_eval E d (NFunc F_MEDIAN items2)) q.
Proof. exact median_permutation. Qed.
Print Assumptions C24_order.

Example C24_case :
  arith_eval exact_env [] (NFunc F_MEDIAN [lit (VInt 9); lit (VDec (BD 35 1)); lit (VInt 1)]) = Ok (VDec (BD 35 1)) /\
  arith_eval exact_env [] (NFunc F_MEDIAN [lit (VInt 9); lit (VInt 1); lit (VInt 4); lit (VInt 5)]) = Ok (VDec (BD 450 2)) /\
  arith_eval exact_env [] (NFunc F_MEDIAN [lit (VInt 4); lit (VInt 5); lit (VInt 9); lit (VInt 1)]) = Ok (VDec (BD 450 2)).
Proof. repeat split. Qed.

(** C25: MODE. *)
Theorem C25_mode : forall E d items ms qs, arguments E d items ms -> Forall2 number ms qs -> (2 <= length ms)%nat ->
  exists v, first_mode ms v /\ returned (arith_eval E d (NFunc F_MODE items)) v.
Proof. exact mode_result. Qed.
Print Assumptions C25_mode.

Example C25_case :
  arith_eval exact_env [] (NFunc F_MODE [lit (VInt 1); lit (VInt 2); lit (VInt 3); lit (VInt 2)]) = Ok (VInt 2) /\
  arith_eval exact_env [] (NFunc F_MODE [lit (VInt 1); lit (VInt 2); lit (VInt 2); lit (VInt 1)]) = Ok (VInt 2) /\
  arith_eval exact_env [] (NFunc F_MODE [lit (VInt 1); lit (VLong 1); lit (VLong 1)]) = Ok (VInt 1) /\
  arith_eval exact_env [] (NFunc F_MODE [lit (VDec (BD 15 1)); lit (VDec (BD 150 2)); lit (VInt 7); lit (VInt 7)]) = Ok (VInt 7).
Proof. repeat split. Qed.

(** C26: LEN of one text is its length, whether given directly or as the only member of a list. *)
Theorem C26_len_text : forall E d items s, arguments E d items [VStr s] -> arith_eval E d (NFunc F_LEN items) = Ok (VInt (Z.of_nat (length s))).
Proof. exact len_text. Qed.
Print Assumptions C26_len_text.

(** C26: LEN of two or more values is their number; LEN of one value that is no text is 1. *)
Theorem C26_len_list : forall E d items ms, arguments E d items ms -> (2 <= length ms)%nat -> Forall finite ms ->
  arith_eval E d (NFunc F_LEN items) = Ok (VInt (Z.of_nat (length ms))).
Proof. exact len_list. Qed.
Print Assumptions C26_len_list.
Theorem C26_len_single : forall E d items m, arguments E d items [m] -> finite m -> ~ text m -> arith_eval E d (NFunc F_LEN items) = Ok (VInt 1).
Proof. exact len_single. Qed.
Print Assumptions C26_len_single.

(** C26: LEN of an empty list fails, so LEN is not the number of members of every list. *)
Theorem C26_len_empty : forall E d items, arguments E d items [] -> arith_eval E d (NFunc F_LEN items) = Err InvalidExpression.
Proof. exact len_empty. Qed.
Print Assumptions C26_len_empty.
Theorem C26_len_members_refuted : exists E d n ms, arith_eval E d n = Ok (VColl true ms) /\ Forall finite ms /\ ms <> [] /\
  arith_eval E d (NFunc F_LEN [n]) <> Ok (VInt (Z.of_nat (length ms))).
Proof. exact len_singleton. Qed.
Print Assumptions C26_len_members_refuted.

Example C26_case :
  arith_eval exact_env [] (NFunc F_LEN [lit (VStr (J "hello"))]) = Ok (VInt 5) /\
  arith_eval exact_env [] (NFunc F_LEN [lit (VColl true [VStr (J "hello"); VInt 2; VNull])]) = Ok (VInt 3) /\
  arith_eval exact_env [] (NFunc F_LEN [lit (VColl true [])]) = Err InvalidExpression.
Proof. repeat split. Qed.

(** C27: INT. *)
Theorem C27_int : forall E d n v q, arith_eval E d n = Ok v -> number v q ->
  exists z y, truncates q z /\ arith_eval E d (NFunc F_INT [n]) = Ok (VInt y) /\ wraps 32 z y /\ (fits32 z -> y = z).
Proof. exact int_result. Qed.
Print Assumptions C27_int.

Example C27_case :
  arith_eval exact_env [] (NFunc F_INT [lit (VDec (BD (-29) 1))]) = Ok (VInt (-2)) /\
  arith_eval exact_env [] (NFunc F_INT [lit (VLong 4294967297)]) = Ok (VInt 1) /\
  arith_eval exact_env [] (NFunc F_INT [lit (VFloat true (J "1.25E1"))]) = Ok (VInt 12).
Proof. repeat split. Qed.
