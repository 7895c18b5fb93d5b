(** C63: comparisons between values of any two types; the order of texts (C08). *)
From Coq Require Import QArith Lia.
From Verif Require Import Base JNum BigDec Dates Version Values Ops Funcs Ast Eval SpecNum SpecDate SpecCompare CompareFacts CompareWitness SpecMixed MixedFacts.

(** C08: texts are ordered by the first UTF-16 unit in which they differ, a proper prefix coming first. *)
Theorem C08_text_order : forall E d l r op s t c x, yields E d l (VStr s) -> yields E d r (VStr t) -> of_kind Texts (VStr s) -> of_kind Texts (VStr t) ->
  text_order s t c -> accepts op c = Some x -> bool_eval E d (cond l op r) = Ok x.
Proof. exact texts_by_units. Qed.
Print Assumptions C08_text_order.
Theorem C08_text_order_total : forall s t, exists c, text_order s t c /\ forall c', text_order s t c' -> c' = c.
Proof. exact text_order_total. Qed.
Print Assumptions C08_text_order_total.

Example C08_text_case : text_order (J "Zebra") (J "apple") Lt /\ text_order (J "app") (J "apple") Lt /\ text_order (J "10") (J "9") Lt /\
  of_kind Texts (VStr (J "Zebra")) /\ of_kind Texts (VStr (J "apple")).
Proof.
  repeat split; try (eexists; repeat split; reflexivity).
  - right. exists [], (ch "Z"), (J "ebra"), (ch "a"), (J "pple"). repeat split; reflexivity.
  - left. exists (ch "l"), (J "e"). reflexivity.
  - right. exists [], (ch "1"), (J "0"), (ch "9"), []. repeat split; reflexivity.
Qed.

(** C63: the outcome of every comparison between two values. The types of the two values determine the type they are
    compared as; if both can be read as that type, the answer is the comparison of the readings; if one can not, the
    comparison is refused; one of the two is always the case. *)
Theorem C63_comparison : forall E d l r op c0 v w a b, accepts op c0 <> None -> yields E d l v -> yields E d r w -> stands v a -> stands w b ->
  (forall t m m' c x, meeting op a b = Some t -> read_as v t m -> read_as w t m' -> compared m m' c -> accepts op c = Some x ->
     bool_eval E d (cond l op r) = Ok x) /\
  (incomparable op v w a b -> bool_eval E d (cond l op r) = Err InvalidDataType) /\
  (incomparable op v w a b \/ exists t m m' c x, meeting op a b = Some t /\ read_as v t m /\ read_as w t m' /\ compared m m' c /\ accepts op c = Some x).
Proof. exact mixed_comparison. Qed.
Print Assumptions C63_comparison.

Example C63_case : stands (VStr (J "5.0")) STRING /\ stands (VInt 5) INTEGER /\ stands (VStr (J "2024-02-30")) DATE /\
  meeting EQUALS STRING INTEGER = Some STRING /\ meeting LESS_THAN STRING INTEGER = Some INTEGER /\ meeting EQUALS DATE STRING = Some STRING /\
  read_as (VStr (J "5.0")) INTEGER (ANumber (inject_Z 5)) /\ read_as (VInt 5) STRING (AText (J "5")) /\
  bool_eval witness_env [] (cond (lit (VStr (J "5.0"))) EQUALS (lit (VInt 5))) = Ok false /\
  bool_eval witness_env [] (cond (lit (VStr (J "5.0"))) GREATER_THAN_EQUAL (lit (VInt 5))) = Ok true /\
  bool_eval witness_env [] (cond (lit (VBool true)) EQUALS (lit (VStr (J "true")))) = Ok true.
Proof.
  assert (W : written_number (J "5.0") (inject_Z 5)).
  { exists false, [], (J "5"), (J "0"), (J ".0"), 0%Z, []. repeat split; try constructor; try reflexivity. discriminate. }
  split; [exact (stands_number_text _ _ W)|]. split; [constructor; lia|]. split; [apply stands_date with (Date 2024 2 29); right; eexists; split; [reflexivity|apply DateFacts.parse_date_spec; reflexivity]|].
  split; [reflexivity|]. split; [reflexivity|]. split; [reflexivity|]. split; [constructor; [exact W|lia]|]. split; [exact (read_text (VInt 5))|]. repeat split; reflexivity.
Qed.

(** C63: a number and a date, a number and a boolean, a boolean and a date, a date and a date-time are never compared: not
    even = and != give an answer. *)
Theorem C63_unrelated_fail : forall E d l r op c0 v w a b, accepts op c0 <> None -> yields E d l v -> yields E d r w -> stands v a -> stands w b -> unrelated a b ->
  bool_eval E d (cond l op r) = Err InvalidDataType /\ bool_eval E d (cond r op l) = Err InvalidDataType.
Proof. exact unrelated_fail. Qed.
Print Assumptions C63_unrelated_fail.

Example C63_unrelated_case : unrelated DECIMAL DATE /\ unrelated BOOLEAN DATETIME /\ stands (VDec (BD 20240101 0)) DECIMAL /\ stands (VDate (Date 2024 1 1)) DATE /\
  bool_eval witness_env [] (cond (lit (VDec (BD 20240101 0))) NOT_EQUAL (lit (VDate (Date 2024 1 1)))) = Err InvalidDataType.
Proof.
  repeat split.
  - left. auto.
  - right. left. auto.
  - constructor.
  - apply stands_date with (Date 2024 1 1). left. split; [reflexivity|]. exists 31%Z. split; [apply days31; cbn; tauto|cbn; lia].
Qed.

(** C63: text denoting a number that is no whole number of 32 bits can not be ordered against a whole number of 32 bits ... *)
Theorem C63_text_beyond_int : forall E d l r op c0 s z q, accepts op c0 <> None -> op <> EQUALS -> op <> NOT_EQUAL ->
  yields E d l (VStr s) -> yields E d r (VInt z) -> (-2147483648 <= z <= 2147483647)%Z -> written_number s q ->
  (forall y, (-2147483648 <= y <= 2147483647)%Z -> ~ (q == inject_Z y)%Q) ->
  bool_eval E d (cond l op r) = Err InvalidDataType /\ bool_eval E d (cond r op l) = Err InvalidDataType.
Proof. exact text_beyond_int. Qed.
Print Assumptions C63_text_beyond_int.

(** ... although against a decimal all texts denoting numbers are ordered by their value. *)
Theorem C63_text_decimal : forall E d l r op x s b q p, question op q p = Some x ->
  op <> EQUALS -> op <> NOT_EQUAL -> yields E d l (VStr s) -> yields E d r (VDec b) -> written_number s q -> (p == dec_value b)%Q ->
  bool_eval E d (cond l op r) = Ok x.
Proof. exact text_decimal. Qed.
Print Assumptions C63_text_decimal.

Example C63_text_case : written_number (J "5.5") (11 # 2) /\ (forall y, ~ ((11 # 2) == inject_Z y)%Q) /\ written_number (J "-3E+2") (inject_Z (-300)) /\
  bool_eval witness_env [] (cond (lit (VStr (J "5.5"))) GREATER_THAN (lit (VInt 5))) = Err InvalidDataType /\
  bool_eval witness_env [] (cond (lit (VStr (J "5.5"))) GREATER_THAN (lit (VDec (BD 50 1)))) = Ok true /\
  bool_eval witness_env [] (cond (lit (VStr (J "3000000000"))) GREATER_THAN (lit (VInt 5))) = Err InvalidDataType.
Proof.
  split; [exists false, [], (J "5"), (J "5"), (J ".5"), 0%Z, []; repeat split; try constructor; try reflexivity; discriminate|].
  split; [intros y H; unfold Qeq in H; cbn in H; lia|].
  split; [|repeat split; reflexivity].
  exists true, (J "-"), (J "3"), [], [], 2%Z, (J "E+2"). split; [reflexivity|]. split; [constructor|]. split; [reflexivity|]. split; [constructor|]. split; [discriminate|].
  split; [apply (exponent 0 false (J "E") (J "+") (J "2")); auto; try discriminate; try constructor; try reflexivity; discriminate|reflexivity].
Qed.

(** C63: NaN and the infinities (Double and Float fields) fail in every comparison, except on the right of = and != with
    text on the left, which compare texts. *)
Theorem C63_not_finite_left : forall E d l r op c0 dbl t w, accepts op c0 <> None -> not_finite t -> yields E d l (VFloat dbl t) -> yields E d r w ->
  bool_eval E d (cond l op r) = Err InvalidDataType.
Proof. exact not_finite_left. Qed.
Print Assumptions C63_not_finite_left.
Theorem C63_not_finite_right : forall E d l r op c0 dbl t v a, accepts op c0 <> None -> not_finite t -> yields E d l v -> yields E d r (VFloat dbl t) -> stands v a ->
  bool_eval E d (cond l op r) = match op, a with
    | EQUALS, STRING => Ok (jstr_eqb (show v) t)
    | NOT_EQUAL, STRING => Ok (negb (jstr_eqb (show v) t))
    | _, _ => Err InvalidDataType
    end.
Proof. exact not_finite_right. Qed.
Print Assumptions C63_not_finite_right.

Example C63_not_finite_case : not_finite (J "NaN") /\
  bool_eval witness_env [] (cond (lit (VStr (J "NaN"))) EQUALS (lit (VFloat true (J "NaN")))) = Ok true /\
  bool_eval witness_env [] (cond (lit (VFloat true (J "NaN"))) EQUALS (lit (VStr (J "NaN")))) = Err InvalidDataType.
Proof. repeat split; [left|..]; reflexivity. Qed.
