(** C75: how many decimals a result has and how it is printed. *)
From Coq Require Import QArith Qabs Lia.
From Verif Require Import Base JNum BigDec Dates Version Values Ops Funcs Ast Eval SpecNum SpecDate SpecCompare SpecArith SpecFunc CompareWitness SpecMixed SpecScale ScaleFacts.
Local Open Scope Z_scope.

(** C75: every number has a number of decimals, and only one. *)
Theorem C75_decimals : forall v q, number v q -> exists b, held v b /\ (dec_value b == q)%Q /\ forall c, held v c -> c = b.
Proof. exact every_held. Qed.
Print Assumptions C75_decimals.

(** C75: with a decimal among the operands, a sum and a difference have the larger of the two numbers of decimals, a product has the
    sum of them. *)
Theorem C75_operators : forall E d l r v w x y op, arith_eval E d l = Ok v -> arith_eval E d r = Ok w -> held v x -> held w y -> decimal v \/ decimal w ->
  (op = ADD \/ op = SUBTRACT -> exists u, arith_eval E d (bin l op r) = Ok (VDec u) /\ scale u = Z.max (scale x) (scale y)) /\
  (op = MULTIPLY -> exists u, arith_eval E d (bin l op r) = Ok (VDec u) /\ scale u = scale x + scale y).
Proof. exact held_operator. Qed.
Print Assumptions C75_operators.

(** C75: a quotient that is a decimal has three decimals, superfluous zeros included; a power that is one has none of these. *)
Theorem C75_quotient : forall E d l r v w p q y, arith_eval E d l = Ok v -> arith_eval E d r = Ok w -> number v p -> number w q ->
  arith_eval E d (bin l DIVIDE r) = Ok (VDec y) -> scale y = 3.
Proof. exact held_divide. Qed.
Print Assumptions C75_quotient.
Theorem C75_power : forall E d l r v w p q y, arith_eval E d l = Ok v -> arith_eval E d r = Ok w -> number v p -> number w q ->
  arith_eval E d (bin l EXPONENT r) = Ok (VDec y) -> scale y = 0 \/ (0 < scale y /\ unscaled y mod 10 <> 0).
Proof. exact held_power. Qed.
Print Assumptions C75_power.

(** C75: negation keeps the number of decimals. *)
Theorem C75_negation : forall E d n b, arith_eval E d n = Ok (VDec b) -> arith_eval E d (neg n) = Ok (VDec (BD (- unscaled b) (scale b))).
Proof. exact held_negation. Qed.
Print Assumptions C75_negation.

Definition quarter : node := bin (lit (VInt 1)) DIVIDE (lit (VInt 4)).
Example C75_case : held (VFloat true (J "1.5")) (BD 15 1) /\ held (VFloat true (J "1.5E10")) (BD 15 (-9)) /\
  arith_eval witness_env [] (bin (lit (VDec (BD 125 2))) ADD (lit (VFloat true (J "1.5")))) = Ok (VDec (BD 275 2)) /\
  arith_eval witness_env [] (bin (lit (VDec (BD 125 2))) MULTIPLY (lit (VInt 4))) = Ok (VDec (BD 500 2)) /\
  arith_eval witness_env [] quarter = Ok (VDec (BD 250 3)) /\ arith_eval witness_env [] (neg quarter) = Ok (VDec (BD (-250) 3)).
Proof.
  split; [apply (held_float true false (J "1") (J "5")); try discriminate; cbn; auto with arith; lia|].
  split; [apply (held_float_exponent true false (J "1") (J "5") 10); try discriminate; cbn; auto with arith; lia|].
  repeat split; vm_compute; reflexivity.
Qed.

(** C75: MIN and MAX return the first argument with the extreme value, as it is held; the extreme of whole numbers has no decimals. *)
Theorem C75_extremes : forall E d f items ms bs y, f = F_MIN \/ f = F_MAX -> arguments E d items ms -> Forall2 held ms bs -> (2 <= length ms)%nat ->
  arith_eval E d (NFunc f items) = Ok (VDec y) ->
  (Exists decimal ms -> (f = F_MIN /\ first_best (fun p q => p <= q)%Q bs y) \/ (f = F_MAX /\ first_best (fun p q => q <= p)%Q bs y)) /\ (~ Exists decimal ms -> scale y = 0).
Proof. exact held_extreme. Qed.
Print Assumptions C75_extremes.

(** C75: SUM has the largest number of decimals of the arguments; AVG and MEAN have three if there is a decimal among the arguments and
    two otherwise. *)
Theorem C75_sum : forall E d items ms bs y, arguments E d items ms -> Forall2 held ms bs -> (2 <= length ms)%nat ->
  arith_eval E d (NFunc F_SUM items) = Ok (VDec y) -> scale y = most_decimals bs.
Proof. exact held_sum. Qed.
Print Assumptions C75_sum.
Theorem C75_average : forall E d f items ms bs y, f = F_AVG \/ f = F_MEAN -> arguments E d items ms -> Forall2 held ms bs -> (2 <= length ms)%nat ->
  arith_eval E d (NFunc f items) = Ok (VDec y) -> (Exists decimal ms -> scale y = 3) /\ (~ Exists decimal ms -> scale y = 2).
Proof. exact held_average. Qed.
Print Assumptions C75_average.

(** C75: MEDIAN of an even number of arguments has two decimals; of an odd number it is the argument in the middle place, where
    arguments of equal value keep their order. MODE is one of the arguments. *)
Theorem C75_median : forall E d items ms bs y, arguments E d items ms -> Forall2 held ms bs -> (2 <= length ms)%nat ->
  arith_eval E d (NFunc F_MEDIAN items) = Ok (VDec y) ->
  (Nat.even (length ms) = true -> scale y = 2) /\ (Nat.odd (length ms) = true -> in_place (length ms / 2) bs y).
Proof. exact held_median. Qed.
Print Assumptions C75_median.
Theorem C75_mode : forall E d items ms bs y, arguments E d items ms -> Forall2 held ms bs -> (2 <= length ms)%nat ->
  arith_eval E d (NFunc F_MODE items) = Ok (VDec y) -> In (VDec y) ms.
Proof. exact held_mode. Qed.
Print Assumptions C75_mode.

Definition three : list node := [lit (VDec (BD 150 2)); lit (VInt 2); lit (VDec (BD 15 1))].
Example C75_function_case : arguments witness_env [] three [VDec (BD 150 2); VInt 2; VDec (BD 15 1)] /\
  Forall2 held [VDec (BD 150 2); VInt 2; VDec (BD 15 1)] [BD 150 2; BD 2 0; BD 15 1] /\
  first_best Qle [BD 150 2; BD 2 0; BD 15 1] (BD 150 2) /\ in_place 1 [BD 150 2; BD 2 0; BD 15 1] (BD 15 1) /\ most_decimals [BD 150 2; BD 2 0; BD 15 1] = 2 /\
  arith_eval witness_env [] (NFunc F_MIN three) = Ok (VDec (BD 150 2)) /\
  arith_eval witness_env [] (NFunc F_MEDIAN three) = Ok (VDec (BD 15 1)) /\
  arith_eval witness_env [] (NFunc F_AVG three) = Ok (VDec (BD 1666 3)) /\
  arith_eval witness_env [] (NFunc F_SUM [lit (VDec (BD 150 2)); lit (VDec (BD 11 1))]) = Ok (VDec (BD 260 2)) /\
  arith_eval witness_env [] (NFunc F_AVG [lit (VInt 1); lit (VInt 2)]) = Ok (VDec (BD 150 2)) /\
  arith_eval witness_env [] (NFunc F_MEDIAN [lit (VInt 1); lit (VInt 2)]) = Ok (VDec (BD 150 2)) /\
  arith_eval witness_env [] (NFunc F_MODE [lit (VDec (BD 150 2)); lit (VDec (BD 15 1)); lit (VDec (BD 15 1))]) = Ok (VDec (BD 15 1)).
Proof.
  split; [exists [VDec (BD 150 2); VInt 2; VDec (BD 15 1)]; split; [repeat constructor|reflexivity]|].
  split; [apply Forall2_cons; [constructor|]; apply Forall2_cons; [constructor; lia|]; apply Forall2_cons; [constructor|]; constructor|].
  split; [exists [], [BD 2 0; BD 15 1]; split; [reflexivity|]; split; [intros b [<-|[<-|[<-|[]]]]; vm_compute; discriminate|intros b []]|].
  split; [exists [BD 150 2; BD 2 0], []; split; reflexivity|].
  repeat split; vm_compute; reflexivity.
Qed.

(** C75: a decimal is printed in full, with exactly its number of decimals, if it has at most six decimals or is at least a
    millionth; otherwise the printed form has an exponent. *)
Theorem C75_printed : forall b, (short b -> in_full (show (VDec b)) (dec_value b) (scale b)) /\ (scale b <> 0 -> ~ short b -> In (ch "E") (show (VDec b))).
Proof. exact printed. Qed.
Print Assumptions C75_printed.

(** C75: a text is equal to a decimal result exactly if it is its printed form; a text with another number of decimals is not equal to it,
    even if it denotes the same number. *)
Theorem C75_text_equal : forall E d l r s q b, yields E d l (VStr s) -> yields E d r (VDec b) -> written_number s q ->
  (s = show (VDec b) -> bool_eval E d (cond l EQUALS r) = Ok true /\ bool_eval E d (cond r EQUALS l) = Ok true) /\
  (s <> show (VDec b) -> bool_eval E d (cond l EQUALS r) = Ok false /\ bool_eval E d (cond r EQUALS l) = Ok false).
Proof. exact text_equal. Qed.
Print Assumptions C75_text_equal.
Theorem C75_text_refuted : forall E d l r s q b n, yields E d l (VStr s) -> yields E d r (VDec b) -> short b -> in_full s q n -> n <> scale b ->
  bool_eval E d (cond l EQUALS r) = Ok false /\ bool_eval E d (cond r EQUALS l) = Ok false.
Proof. exact text_decimals_differ. Qed.
Print Assumptions C75_text_refuted.

Example C75_text_case : short (BD 250 3) /\ ~ short (BD 1 7) /\ ~ short (BD 15 (-9)) /\ in_full (J "0.25") (1 # 4) 2 /\ in_full (J "0.250") (1 # 4) 3 /\
  show (VDec (BD 250 3)) = J "0.250" /\ show (VDec (BD (-1234567) 7)) = J "-0.1234567" /\ show (VDec (BD 1 7)) = J "1E-7" /\ show (VDec (BD 15 (-9))) = J "1.5E+10" /\
  bool_eval witness_env [] (cond (lit (VStr (J "0.25"))) EQUALS quarter) = Ok false /\
  bool_eval witness_env [] (cond (lit (VStr (J "0.250"))) EQUALS quarter) = Ok true /\
  bool_eval witness_env [] (cond (lit (VStr (J "0.25"))) GREATER_THAN_EQUAL quarter) = Ok true.
Proof.
  split; [split; cbn; lia|]. split; [intros [_ [H|H]]; vm_compute in H; auto|]. split; [intros [H _]; vm_compute in H; auto|].
  split; [exists false, (J "0"), (J "25"); repeat split; try discriminate; left; reflexivity|].
  split; [exists false, (J "0"), (J "250"); repeat split; try discriminate; left; reflexivity|].
  repeat split; vm_compute; reflexivity.
Qed.
