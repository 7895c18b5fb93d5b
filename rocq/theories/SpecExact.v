(** Specification of the exact outcome of one operation and of one call: the value as in C67 and C71, the number of decimals as in C75. *)
From Coq Require Import QArith.
From Verif Require Import Base JNum BigDec Dates Values Ops Funcs Ast Eval SpecNum SpecCompare SpecArith SpecFunc SpecDate SpecMixed SpecCompute SpecCall SpecList SpecScale.
Local Open Scope Z_scope.

(** The number of decimals that the result of an operator has if it is a decimal. *)
Definition operator_decimals (op : operator) (s t : bigdec) (x : res jval) : Prop :=
  forall y, x = Ok (VDec y) ->
  match op with
  | ADD | SUBTRACT => scale y = Z.max (scale s) (scale t)
  | MULTIPLY => scale y = scale s + scale t
  | DIVIDE => scale y = 3
  | EXPONENT => scale y = 0 \/ (0 < scale y /\ unscaled y mod 10 <> 0)
  | _ => True
  end.

(** [operation E op v w x]: applied to the values [v] and [w] the operator [op] gives [x]; a null counts as text. *)
Definition operation (E : env) (op : operator) (v w : jval) (x : res jval) : Prop :=
  (forall dbl t, not_finite t -> v = VFloat dbl t \/ w = VFloat dbl t -> x = Err InvalidDataType) /\
  forall a b, argument_type v a -> argument_type w b ->
  (~ (supported op a /\ supported op b) -> x = Err InvalidDataType) /\
  (supported op a -> supported op b -> wordy a \/ wordy b -> x = Ok (VStr (show v ++ show w))) /\
  (supported op a -> supported op b -> ~ wordy a -> ~ wordy b ->
     exists s t, held v s /\ held w t /\ computes E op a b (dec_value s) (dec_value t) x /\ operator_decimals op s t x /\
       (op = EXPONENT -> a = DECIMAL \/ b = DECIMAL -> SpecCompute.returned (pow_dec E s t) x)).

(** [negation v x]: the negative of [v] is [x]. *)
Definition negation (v : jval) (x : res jval) : Prop :=
  (forall dbl t, not_finite t -> v = VFloat dbl t -> x = Err InvalidDataType) /\
  forall a, argument_type v a -> negates v x /\ forall b y, v = VDec b -> x = Ok (VDec y) -> scale y = scale b.

(** The decimal that a function returns for arguments that are held as [bs]. *)
Definition function_decimals (f : func) (ms : list jval) (bs : list bigdec) (x : res jval) : Prop :=
  let fraction := Exists decimal ms in
  forall y, x = Ok (VDec y) ->
  match f with
  | F_MIN => (fraction -> first_best (fun p q => p <= q)%Q bs y) /\ (~ fraction -> scale y = 0)
  | F_MAX => (fraction -> first_best (fun p q => q <= p)%Q bs y) /\ (~ fraction -> scale y = 0)
  | F_SUM => scale y = most_decimals bs
  | F_AVG | F_MEAN => (fraction -> scale y = 3) /\ (~ fraction -> scale y = 2)
  | F_MEDIAN => (Nat.even (length ms) = true -> scale y = 2) /\ (Nat.odd (length ms) = true -> in_place (length ms / 2) bs y)
  | F_MODE => first_mode ms (VDec y)
  | _ => True
  end.

(** [call E f ms x]: called with the arguments [ms] the function [f] gives [x]. *)
Definition call (E : env) (f : func) (ms : list jval) (x : res jval) : Prop :=
  (forall dbl t, not_finite t -> In (VFloat dbl t) ms ->
     (takes f (length ms) -> x = Err InvalidDataType) /\ (~ takes f (length ms) -> x = Err InvalidContainerType)) /\
  forall ts, Forall2 argument_type ms ts -> call_outcome E f ms ts x /\ forall bs, Forall2 held ms bs -> (2 <= length ms)%nat -> function_decimals f ms bs x.

(** Every value a Java program can put into the data: integers within their ranges, real calendar dates and wall-clock times,
    floats as Float.toString and Double.toString print them. *)
Definition genuine (v : jval) : Prop := exists t, member_type v t.
