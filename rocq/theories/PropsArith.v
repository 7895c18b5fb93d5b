(** C15 - C20, C29, C44, C45: arithmetic operators. *)
From Coq Require Import QArith.
From Verif Require Import Base JNum BigDec Dates Values Ops Funcs Ast Eval SpecNum SpecCompare SpecArith CompareFacts ArithFacts.
Local Open Scope Z_scope.

(** C15: adding and multiplying whole numbers is exact if the result fits 64 bits and wraps otherwise; the result has the
    smallest type that holds it. *)
Theorem C15_add_multiply : forall E d l r v w a b op, arith_eval E d l = Ok v -> arith_eval E d r = Ok w -> whole v a -> whole w b ->
  op = ADD \/ op = MULTIPLY ->
  exists y x, arith_eval E d (bin l op r) = Ok x /\ smallest y x /\ wraps 64 (exact_op op a b) y /\
              (fits64 (exact_op op a b) -> y = exact_op op a b).
Proof. exact add_multiply. Qed.
Print Assumptions C15_add_multiply.

(** C15: the exact result of two 32-bit operands always fits. *)
Theorem C15_small_operands : forall a b op, fits32 a -> fits32 b -> op = ADD \/ op = MULTIPLY -> fits64 (exact_op op a b).
Proof. exact small_exact. Qed.
Print Assumptions C15_small_operands.

Example C15_case : whole (VInt 2147483647) 2147483647 /\ whole (VLong 9223372036854775807) 9223372036854775807 /\
  arith_eval exact_env [] (bin (lit (VInt 2147483647)) ADD (lit (VInt 1))) = Ok (VLong 2147483648) /\
  arith_eval exact_env [] (bin (lit (VLong 9223372036854775807)) ADD (lit (VInt 1))) = Ok (VLong (-9223372036854775808)) /\
  arith_eval exact_env [] (bin (lit (VLong 5)) MULTIPLY (lit (VInt 3))) = Ok (VInt 15).
Proof. repeat split; try reflexivity; constructor; split; discriminate. Qed.

(** C16: subtracting 32-bit numbers is exact or wraps to 32 bits. *)
Theorem C16_subtract_32 : forall E d l r a b, arith_eval E d l = Ok (VInt a) -> arith_eval E d r = Ok (VInt b) -> fits32 a -> fits32 b ->
  exists y, arith_eval E d (bin l SUBTRACT r) = Ok (VInt y) /\ wraps 32 (a - b) y /\ (fits32 (a - b) -> y = a - b).
Proof. exact subtract_ints. Qed.
Print Assumptions C16_subtract_32.

(** C16: with a 64-bit operand it is exact or wraps to 64 bits. *)
Theorem C16_subtract_64 : forall E d l r v w a b, arith_eval E d l = Ok v -> arith_eval E d r = Ok w -> whole v a -> whole w b ->
  get_data_type v = LONG \/ get_data_type w = LONG ->
  exists y, arith_eval E d (bin l SUBTRACT r) = Ok (VLong y) /\ wraps 64 (a - b) y /\ (fits64 (a - b) -> y = a - b).
Proof. exact subtract_longs. Qed.
Print Assumptions C16_subtract_64.

(** C16: negation likewise, within the type of the operand. *)
Theorem C16_negate : forall E d n a,
  (arith_eval E d n = Ok (VInt a) -> fits32 a -> exists y, arith_eval E d (neg n) = Ok (VInt y) /\ wraps 32 (- a) y /\ (fits32 (- a) -> y = - a)) /\
  (arith_eval E d n = Ok (VLong a) -> fits64 a -> exists y, arith_eval E d (neg n) = Ok (VLong y) /\ wraps 64 (- a) y /\ (fits64 (- a) -> y = - a)).
Proof. exact negate_whole. Qed.
Print Assumptions C16_negate.

(** C16: a - b = a + (-b) away from the boundary, and not at it. *)
Theorem C16_subtract_add_negate : forall E d l r a b, arith_eval E d l = Ok (VInt a) -> arith_eval E d r = Ok (VInt b) -> fits32 a -> fits32 b ->
  fits32 (a - b) -> fits32 (- b) -> arith_eval E d (bin l SUBTRACT r) = arith_eval E d (bin l ADD (neg r)).
Proof. exact subtract_is_add_neg. Qed.
Print Assumptions C16_subtract_add_negate.
Theorem C16_subtract_add_negate_refuted : exists E d a b, fits32 a /\ fits32 b /\
  arith_eval E d (bin (lit (VInt a)) SUBTRACT (lit (VInt b))) <> arith_eval E d (bin (lit (VInt a)) ADD (neg (lit (VInt b)))).
Proof. exact subtraction_identity_fails. Qed.
Print Assumptions C16_subtract_add_negate_refuted.

Example C16_case :
  arith_eval exact_env [] (bin (lit (VInt (-2147483648))) SUBTRACT (lit (VInt 1))) = Ok (VInt 2147483647) /\
  arith_eval exact_env [] (bin (lit (VInt (-2147483648))) SUBTRACT (lit (VLong 1))) = Ok (VLong (-2147483649)) /\
  arith_eval exact_env [] (neg (lit (VInt (-2147483648)))) = Ok (VInt (-2147483648)).
Proof. repeat split. Qed.

(** C17: with a decimal operand + - * are exact. *)
Theorem C17_decimal_exact : forall E d l r v w p q op, arith_eval E d l = Ok v -> arith_eval E d r = Ok w -> number v p -> number w q ->
  decimal v \/ decimal w -> op = ADD \/ op = SUBTRACT \/ op = MULTIPLY ->
  exists x, arith_eval E d (bin l op r) = Ok (VDec x) /\ (dec_value x == rational_op op p q)%Q.
Proof. exact decimal_exact. Qed.
Print Assumptions C17_decimal_exact.

Example C17_case : number (VDec (BD 1 1)) (1#10) /\ number (VInt 3) 3 /\ decimal (VDec (BD 1 1)) /\
  arith_eval exact_env [] (bin (lit (VDec (BD 1 1))) ADD (lit (VDec (BD 2 1)))) = Ok (VDec (BD 3 1)).
Proof. repeat split; try reflexivity. - apply number_dec. reflexivity. - apply number_int; [split; discriminate|reflexivity]. Qed.

(** C18: a / b is the quotient truncated toward zero to thousandths: an integer if that is integral (a failure if it then
    does not fit 32 bits), a decimal otherwise. *)
Theorem C18_divide : forall E d l r v w p q, arith_eval E d l = Ok v -> arith_eval E d r = Ok w -> number v p -> number w q -> ~ (q == 0)%Q ->
  exists z, truncates (p / q * inject_Z 1000) z /\
    (forall n, z = 1000 * n -> arith_eval E d (bin l DIVIDE r) = if in_int n then Ok (VInt n) else Err ArithmeticExc) /\
    ((forall n, z <> 1000 * n) -> exists x, arith_eval E d (bin l DIVIDE r) = Ok (VDec x) /\ (dec_value x == inject_Z z / inject_Z 1000)%Q).
Proof. exact divide_numbers. Qed.
Print Assumptions C18_divide.

(** C18: division by zero fails. *)
Theorem C18_divide_by_zero : forall E d l r v w p q, arith_eval E d l = Ok v -> arith_eval E d r = Ok w -> number v p -> number w q -> (q == 0)%Q ->
  arith_eval E d (bin l DIVIDE r) = Err ArithmeticExc.
Proof. exact divide_zero. Qed.
Print Assumptions C18_divide_by_zero.

Example C18_case :
  arith_eval exact_env [] (bin (lit (VInt (-2))) DIVIDE (lit (VInt 3))) = Ok (VDec (BD (-666) 3)) /\
  arith_eval exact_env [] (bin (lit (VInt 6)) DIVIDE (lit (VDec (BD 15 1)))) = Ok (VInt 4) /\
  arith_eval exact_env [] (bin (lit (VLong 4294967296)) DIVIDE (lit (VInt 1))) = Err ArithmeticExc /\
  arith_eval exact_env [] (bin (lit (VInt 1)) DIVIDE (lit (VDec (BD 0 3)))) = Err ArithmeticExc.
Proof. repeat split. Qed.

(** C19: modulus. *)
Theorem C19_modulus : forall E d l r v w a b, arith_eval E d l = Ok v -> arith_eval E d r = Ok w -> whole v a -> whole w b -> b <> 0 ->
  exists x q m, arith_eval E d (bin l MODULUS r) = Ok x /\ whole x m /\ a = b * q + m /\ Z.abs m < Z.abs b /\ 0 <= a * m /\
    (get_data_type x = INTEGER <-> get_data_type v = INTEGER /\ get_data_type w = INTEGER).
Proof. exact modulus_whole. Qed.
Print Assumptions C19_modulus.
Theorem C19_modulus_zero : forall E d l r v w a, arith_eval E d l = Ok v -> arith_eval E d r = Ok w -> whole v a -> whole w 0 ->
  arith_eval E d (bin l MODULUS r) = Err ArithmeticExc.
Proof. exact modulus_zero. Qed.
Print Assumptions C19_modulus_zero.
Theorem C19_modulus_decimal : forall E d l r v w, arith_eval E d l = Ok v -> arith_eval E d r = Ok w ->
  decimal v \/ (decimal w /\ exists a, whole v a) -> arith_eval E d (bin l MODULUS r) = Err InvalidDataType.
Proof. exact modulus_decimal. Qed.
Print Assumptions C19_modulus_decimal.

Example C19_case :
  arith_eval exact_env [] (bin (lit (VInt (-7))) MODULUS (lit (VLong 3))) = Ok (VLong (-1)) /\
  arith_eval exact_env [] (bin (lit (VInt 7)) MODULUS (lit (VInt (-3)))) = Ok (VInt 1).
Proof. repeat split. Qed.

(** C20: exponentiation is exact where Math.pow is documented to be. *)
Theorem C20_power_exact : forall E d l r v w a b, pow_documented E -> arith_eval E d l = Ok v -> arith_eval E d r = Ok w -> whole v a -> whole w b ->
  Z.abs a <= 2 ^ 53 -> 0 <= b <= 2 ^ 53 -> representable (a ^ b) ->
  (fits32 (a ^ b) -> arith_eval E d (bin l EXPONENT r) = Ok (VInt (a ^ b))) /\
  (~ fits32 (a ^ b) -> exists x, arith_eval E d (bin l EXPONENT r) = Ok (VDec x) /\ (dec_value x == inject_Z (a ^ b))%Q).
Proof. exact power_exact. Qed.
Print Assumptions C20_power_exact.

Example C20_case : pow_documented exact_env /\ representable ((-3) ^ 5) /\ representable (10 ^ 15) /\
  arith_eval exact_env [] (bin (lit (VInt (-3))) EXPONENT (lit (VInt 5))) = Ok (VInt (-243)) /\
  arith_eval exact_env [] (bin (lit (VInt 10)) EXPONENT (lit (VInt 15))) = Ok (VDec (BD 1000000000000000 0)).
Proof.
  split; [exact exact_env_documented|]. split; [apply representable_small; reflexivity|]. split; [apply representable_small; reflexivity|].
  split; reflexivity.
Qed.

(** C29: an operand of an unsupported type makes the operator or function fail. *)
Theorem C29_reject_left : forall E d l r op v w, arithmetic op -> arith_eval E d l = Ok v -> arith_eval E d r = Ok w ->
  ~ supported op (get_data_type v) -> arith_eval E d (bin l op r) = Err InvalidDataType.
Proof. exact reject_left. Qed.
Print Assumptions C29_reject_left.
Theorem C29_reject_right : forall E d l r op v w, arithmetic op -> arith_eval E d l = Ok v -> arith_eval E d r = Ok w ->
  ~ supported op (get_data_type w) -> arith_eval E d (bin l op r) = Err InvalidDataType.
Proof. exact reject_right. Qed.
Print Assumptions C29_reject_right.
Theorem C29_reject_negation : forall E d n v, arith_eval E d n = Ok v -> ~ supported UNARY (get_data_type v) ->
  arith_eval E d (neg n) = Err InvalidDataType.
Proof. exact reject_unary. Qed.
Print Assumptions C29_reject_negation.
(** C29: the arguments of a function are the members of its operands. *)
Theorem C29_reject_function : forall E d f items vs m, Forall2 (fun i v => arith_eval E d i = Ok v) items vs -> In m (flat_map members vs) ->
  ~ func_supported f (get_data_type m) ->
  arith_eval E d (NFunc f items) = Err InvalidDataType \/ arith_eval E d (NFunc f items) = Err InvalidContainerType.
Proof. exact reject_function. Qed.
Print Assumptions C29_reject_function.

Example C29_case : ~ supported MULTIPLY (get_data_type (VStr (J "x"))) /\ ~ supported ADD (get_data_type (VStr (J "2024-01-31"))) /\
  ~ func_supported F_MIN (get_data_type (VBool true)).
Proof. cbn. repeat split; intuition discriminate. Qed.

(** C44: the result of an operator is a number, or for + with a textual operand the concatenation of both texts. *)
Theorem C44_result_type : forall E d l op r v w x, arithmetic op -> arith_eval E d l = Ok v -> arith_eval E d r = Ok w -> java_value v -> java_value w ->
  arith_eval E d (bin l op r) = Ok x ->
  number_result x \/ (op = ADD /\ (textual v \/ textual w) /\ x = VStr (show v ++ show w)).
Proof. exact result_type. Qed.
Print Assumptions C44_result_type.
Theorem C44_negate_type : forall E d n x, arith_eval E d (neg n) = Ok x -> number_result x.
Proof. exact negate_result. Qed.
Print Assumptions C44_negate_type.
Theorem C44_concatenation : forall E d l r v w, arith_eval E d l = Ok v -> arith_eval E d r = Ok w -> textual v \/ textual w ->
  supported ADD (get_data_type v) -> supported ADD (get_data_type w) ->
  (forall b t, v = VFloat b t \/ w = VFloat b t -> exists q, float_text t q) ->
  arith_eval E d (bin l ADD r) = Ok (VStr (show v ++ show w)).
Proof. exact concat_text. Qed.
Print Assumptions C44_concatenation.

Example C44_case : textual (VStr (J "a")) /\ textual (VBool true) /\ supported ADD (get_data_type (VDec (BD 15 1))) /\
  arith_eval exact_env [] (bin (lit (VDec (BD 15 1))) ADD (lit (VBool true))) = Ok (VStr (J "1.5true")).
Proof. cbn. repeat split; auto 10. Qed.

(** C45: negation is exact on BigDecimals but fails on every floating point field. *)
Theorem C45_negate_decimal : forall E d n b, arith_eval E d n = Ok (VDec b) ->
  exists c, arith_eval E d (neg n) = Ok (VDec c) /\ (dec_value c == - dec_value b)%Q.
Proof. exact negate_decimal. Qed.
Print Assumptions C45_negate_decimal.
Theorem C45_negate_float_refuted : forall E d n dbl t q, arith_eval E d n = Ok (VFloat dbl t) -> float_text t q ->
  arith_eval E d (neg n) = Err ClassCast.
Proof. exact negate_float. Qed.
Print Assumptions C45_negate_float_refuted.

Example C45_case : float_text (J "1.5") (3#2) /\ arith_eval exact_env [(J "x", VFloat true (J "1.5"))] (NField (Some (J "x"))) = Ok (VFloat true (J "1.5")).
Proof.
  split; [|reflexivity]. exists false, (J "1"), (J "5"), None. repeat split; try discriminate; try reflexivity; cbn; auto. apply le_n_S, Nat.le_0_l.
Qed.
