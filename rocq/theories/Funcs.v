(** The ten functions: B/function/FunctionEvaluatorService.java, B/function/arithmetic/*.java. *)
From Verif Require Import Base JNum BigDec Dates Values Ops.
Local Open Scope Z_scope.

(** B/constant/FunctionType.java:10-20 *)
Inductive func := F_MIN | F_MAX | F_AVG | F_SUM | F_MEAN | F_MODE | F_MEDIAN | F_INT | F_LEN | F_DAYS_ELAPSED.

(** getAllowedContainerTypes of the functions *)
Definition func_containers (f : func) : list container :=
  match f with
  | F_LEN => [PRIMITIVE; LIST]
  | F_INT | F_DAYS_ELAPSED => [PRIMITIVE]
  | _ => [LIST]
  end.

(** getAllowedDataTypes of the functions *)
Definition func_types (f : func) : list dtype :=
  match f with
  | F_LEN => all_types
  | F_DAYS_ELAPSED => [DATE]
  | _ => [INTEGER; LONG; DECIMAL]
  end.

Definition has_type (d : dtype) (items : list evaluated) : bool := existsb (fun i => dtype_eqb (snd i) d) items.

(** items.stream().map(item -> decimalDataType.getValue(item.getValue())).map(Optional::get) *)
Definition decimals (items : list evaluated) : res (list bigdec) := mapM (fun i => opt_get (decimal_value (fst i))) items.
Definition longs (items : list evaluated) : res (list Z) := mapM (fun i => opt_get (long_value (fst i))) items.
Definition ints (items : list evaluated) : res (list Z) := mapM (fun i => opt_get (integer_value (fst i))) items.

(** Stream.min / max with Comparator.naturalOrder: BinaryOperator.minBy / maxBy keep the earlier of equal elements. *)
Definition bd_min2 (a b : bigdec) : bigdec := match bd_compare a b with Gt => b | _ => a end.
Definition bd_max2 (a b : bigdec) : bigdec := match bd_compare a b with Lt => b | _ => a end.

(** Stream.reduce without identity, then Optional.get. *)
Definition reduce1 {A} (f : A -> A -> A) (l : list A) : res A :=
  match l with [] => Err NoSuchElement | x :: l' => Ok (fold_left f l' x) end.

(** BigDecimal sum: reduce(BigDecimal.ZERO, BigDecimal::add) *)
Definition bd_sum (l : list bigdec) : bigdec := fold_left bd_add l (BD 0 0).

(** LongStream.sum: wrapping addition. *)
Definition long_sum (l : list Z) : Z := fold_left (fun a b => wrap64 (a + b)) l 0.

(** MinFunction.evaluate, B/function/arithmetic/MinFunction.java:25-48 *)
Definition eval_min (items : list evaluated) : res jval :=
  if has_type DECIMAL items then ds <- decimals items ;; m <- reduce1 bd_min2 ds ;; cast_decimal m
  else if has_type LONG items then zs <- longs items ;; m <- reduce1 Z.min zs ;; cast_long_as_double m
  else zs <- ints items ;; m <- reduce1 Z.min zs ;; cast_long_as_double m.

(** MaxFunction.evaluate, B/function/arithmetic/MaxFunction.java:25-48 *)
Definition eval_max (items : list evaluated) : res jval :=
  if has_type DECIMAL items then ds <- decimals items ;; m <- reduce1 bd_max2 ds ;; cast_decimal m
  else if has_type LONG items then zs <- longs items ;; m <- reduce1 Z.max zs ;; cast_long_as_double m
  else zs <- ints items ;; m <- reduce1 Z.max zs ;; cast_long_as_double m.

(** SumFunction.evaluate, B/function/arithmetic/SumFunction.java:23-41 *)
Definition eval_sum (items : list evaluated) : res jval :=
  if has_type DECIMAL items then ds <- decimals items ;; cast_decimal (bd_sum ds)
  else zs <- longs items ;; cast_long_as_double (long_sum zs).

(** AvgFunction.evaluate, B/function/arithmetic/AvgFunction.java:24-42; MeanFunction.evaluate delegates to it
    (B/function/arithmetic/MeanFunction.java:17-20). *)
Definition eval_avg (items : list evaluated) : res jval :=
  let n := bd_of_Z (Z.of_nat (length items)) in
  if has_type DECIMAL items then
    ds <- decimals items ;; q <- bd_divide (bd_sum ds) n 3 RoundDown ;; cast_decimal q
  else
    zs <- longs items ;; q <- bd_divide (bd_of_Z (long_sum zs)) n 2 RoundUnnecessary ;; cast_decimal q.

(** Collections.sort on BigDecimals: stable. *)
Fixpoint insert_sorted (x : bigdec) (l : list bigdec) : list bigdec :=
  match l with
  | [] => [x]
  | y :: l' => match bd_compare x y with Gt => y :: insert_sorted x l' | _ => x :: l end
  end.
Fixpoint sort_decimals (l : list bigdec) : list bigdec :=
  match l with [] => [] | x :: l' => insert_sorted x (sort_decimals l') end.

Definition list_get {A} (l : list A) (i : nat) : res A :=
  match nth_error l i with Some a => Ok a | None => Err ArrayIndexOutOfBounds end.

(** MedianFunction.evaluate, B/function/arithmetic/MedianFunction.java:25-41 *)
Definition eval_median (items : list evaluated) : res jval :=
  ds <- decimals items ;;
  let sorted := sort_decimals ds in
  let n := length items in
  if Nat.even n then
    a <- list_get sorted (Nat.div2 n) ;; b <- list_get sorted (Nat.div2 n - 1) ;;
    q <- bd_divide (bd_add a b) (BD 2 0) 2 RoundDown ;; cast_decimal q
  else
    a <- list_get sorted (Nat.div2 n) ;; cast_decimal a.

(** Object.equals / hashCode of the number classes, as HashMap keys: same class and equal; BigDecimal.equals
    compares unscaled value and scale.  (Only numbers reach MODE.) *)
Definition key_equals (a b : jval) : bool :=
  match a, b with
  | VInt x, VInt y => x =? y
  | VLong x, VLong y => x =? y
  | VDec x, VDec y => bd_equals x y
  | VFloat d x, VFloat e y => Bool.eqb d e && jstr_eqb x y
  | VStr x, VStr y => jstr_eqb x y
  | _, _ => false
  end.
Fixpoint hm_get (k : jval) (m : list (jval * Z)) : option Z :=
  match m with
  | [] => None
  | (k', n) :: m' => if key_equals k k' then Some n else hm_get k m'
  end.
Definition hm_put (k : jval) (n : Z) (m : list (jval * Z)) : list (jval * Z) := (k, n) :: m.

(** ModeFunction.evaluate's loop, B/function/arithmetic/ModeFunction.java:26-42; state: hm, max, temp. *)
Fixpoint mode_loop (values : list jval) (hm : list (jval * Z)) (max : Z) (temp : jval) : jval :=
  match values with
  | [] => temp
  | v :: vs =>
      match hm_get v hm with
      | Some n =>
          let count := n + 1 in
          let hm' := hm_put v count hm in
          if max <? count then mode_loop vs hm' count v else mode_loop vs hm' max temp
      | None => mode_loop vs (hm_put v 1 hm) max temp
      end
  end.

(** ModeFunction.evaluate, B/function/arithmetic/ModeFunction.java:20-50 *)
Definition eval_mode (items : list evaluated) : res jval :=
  match items with
  | [] => Err ArrayIndexOutOfBounds
  | (v0, _) :: _ =>
      match mode_loop (map fst items) [] 1 v0 with
      | VDec d => cast_decimal d
      | VLong z => Ok (cast_long z)
      | v => Ok v
      end
  end.

(** IntFunction.evaluate, B/function/arithmetic/IntFunction.java:18-28; intValue keeps the low 32 bits. *)
Definition eval_int (items : list evaluated) : res jval :=
  match items with
  | [] => Err ArrayIndexOutOfBounds
  | (v, t) :: _ =>
      match t with
      | DECIMAL => d <- opt_get (decimal_value v) ;; Ok (VInt (wrap32 (bd_trunc d)))
      | LONG => match v with VLong z => Ok (VInt (wrap32 z)) | VNull => Err NullPointer | _ => Err ClassCast end
      | _ => Ok v
      end
  end.

(** LenFunction.evaluate, B/function/arithmetic/LenFunction.java:15-21 *)
Definition eval_len (items : list evaluated) : res jval :=
  match items with
  | [(VStr s, _)] => Ok (VInt (Z.of_nat (length s)))
  | _ => Ok (VInt (Z.of_nat (length items)))
  end.

(** DaysElapsedFunction.evaluate, B/function/arithmetic/DaysElapsedFunction.java:22-47; ChronoUnit.DAYS.between is the
    difference of the epoch days. *)
Definition eval_days_elapsed (E : env) (items : list evaluated) : res jval :=
  match items with
  | [(v, _)] =>
      match v with
      | VDate d => Ok (VLong (to_epoch_day (today E) - to_epoch_day d))
      | VStr s =>
          match parse_iso_date s with
          | Some d => Ok (VLong (to_epoch_day (today E) - to_epoch_day d))
          | None => Err InvalidFunctionArgument
          end
      | VNull => Err NullPointer
      | _ => Err InvalidFunctionArgument
      end
  | _ => Err InvalidFunctionArgument
  end.

(** AbstractFunction.evaluate, dispatched (B/function/FunctionFactory.java:28-43) *)
Definition func_evaluate (E : env) (f : func) (items : list evaluated) : res jval :=
  match f with
  | F_MIN => eval_min items
  | F_MAX => eval_max items
  | F_SUM => eval_sum items
  | F_AVG | F_MEAN => eval_avg items
  | F_MEDIAN => eval_median items
  | F_MODE => eval_mode items
  | F_INT => eval_int items
  | F_LEN => eval_len items
  | F_DAYS_ELAPSED => eval_days_elapsed E items
  end.

(** items.forEach(item -> if (!PRIMITIVE.isValid(type, value)) throw) *)
Fixpoint validate_items (items : list evaluated) : res unit :=
  match items with
  | [] => Ok tt
  | (v, t) :: l => b <- is_valid t v ;; if b then validate_items l else Err InvalidDataType
  end.

(** FunctionEvaluatorService.evaluateArithmeticFunction, B/function/FunctionEvaluatorService.java:23-46 *)
Definition evaluate_function (E : env) (f : func) (items : list evaluated) : res jval :=
  match items with
  | [] => Err InvalidExpression
  | _ =>
      let c := if (1 <? length items)%nat then LIST else PRIMITIVE in
      if negb (existsb (container_eqb c) (func_containers f)) then Err InvalidContainerType
      else if negb (forallb (fun i : evaluated => mem_type (snd i) (func_types f)) items) then Err InvalidDataType
      else _ <- validate_items items ;; func_evaluate E f items
  end.
