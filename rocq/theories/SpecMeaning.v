(** Reference semantics: what an expression means, rule by rule.  The rules for single operations are the specifications of the other
    files (C12, C63, C74, C76); no function of the model computes anything here. *)
From Coq Require Import QArith.
From Verif Require Import Base JNum BigDec Dates Values Ops Funcs Ast Eval SpecNum SpecCompare SpecArith SpecFunc SpecDate SpecMixed SpecCompute SpecCall SpecList SpecScale SpecExact SpecPath SpecName.
Local Open Scope Z_scope.

(** Looking up a field. *)
Inductive looked_up (d : data) : option jstr -> res jval -> Prop :=
| lookup_found s ks v : leads_to s ks -> found d ks v -> looked_up d (Some s) (Ok v)
| lookup_missing s ks : leads_to s ks -> (forall v, ~ found d ks v) -> looked_up d (Some s) (Err DataNotFound)
| lookup_dots n : looked_up d (Some (dots (S n))) (Err ArrayIndexOutOfBounds)
| lookup_nameless : looked_up d None (Err NullPointer).

(** The value of an arithmetic expression.  Operands are evaluated from left to right, the first failure is the outcome. *)
Inductive value_of (E : env) (d : data) : node -> res jval -> Prop :=
| value_literal t v : value_of E d (NUnary t v) (Ok v)
| value_field f x : looked_up d f x -> value_of E d (NField f) x
| value_left_fails l r op e : value_of E d l (Err e) -> value_of E d (NArith l r op) (Err e)
| value_right_fails l r op v e : value_of E d l (Ok v) -> value_of E d r (Err e) -> value_of E d (NArith l (Some r) op) (Err e)
| value_operation l r op v w x : value_of E d l (Ok v) -> value_of E d r (Ok w) -> operation E op v w x -> value_of E d (NArith l (Some r) op) x
| value_negation l v x : value_of E d l (Ok v) -> negation v x -> value_of E d (NArith l None UNARY) x
| value_argument_fails f items e : values_of E d items (Err e) -> value_of E d (NFunc f items) (Err e)
| value_call f items vs x : values_of E d items (Ok vs) -> call E f (flat_map members vs) x -> value_of E d (NFunc f items) x
| value_condition n : is_arith_base n = false -> value_of E d n (Err UnsupportedToken)
with values_of (E : env) (d : data) : list node -> res (list jval) -> Prop :=
| values_none : values_of E d [] (Ok [])
| values_fail n ns e : value_of E d n (Err e) -> values_of E d (n :: ns) (Err e)
| values_fail_later n ns v e : value_of E d n (Ok v) -> values_of E d ns (Err e) -> values_of E d (n :: ns) (Err e)
| values_more n ns v vs : value_of E d n (Ok v) -> values_of E d ns (Ok vs) -> values_of E d (n :: ns) (Ok (v :: vs)).

(** Comparing two values (C63). *)
Inductive compares (op : operator) (v w : jval) : res bool -> Prop :=
| compares_read a b t m m' c x : stands v a -> stands w b -> meeting op a b = Some t -> read_as v t m -> read_as w t m' -> compared m m' c -> accepts op c = Some x ->
    compares op v w (Ok x)
| compares_refused a b : stands v a -> stands w b -> incomparable op v w a b -> compares op v w (Err InvalidDataType)
| compares_nan_left dbl t : v = VFloat dbl t -> not_finite t -> compares op v w (Err InvalidDataType)
| compares_nan_text dbl t : stands v STRING -> w = VFloat dbl t -> not_finite t -> op = EQUALS -> compares op v w (Ok (jstr_eqb (show v) t))
| compares_nan_other_text dbl t : stands v STRING -> w = VFloat dbl t -> not_finite t -> op = NOT_EQUAL -> compares op v w (Ok (negb (jstr_eqb (show v) t)))
| compares_nan_right dbl t a : stands v a -> w = VFloat dbl t -> not_finite t -> ~ (a = STRING /\ (op = EQUALS \/ op = NOT_EQUAL)) -> compares op v w (Err InvalidDataType).

(** Is the value among the members (C74)? *)
Inductive among (v : jval) (ms : list jval) : res bool -> Prop :=
| among_nan dbl t : v = VFloat dbl t -> not_finite t -> among v ms (Err InvalidDataType)
| among_asked a x : stands v a -> some_of (equal_to v) ms x -> among v ms x.

(** Does the value contain all (or any) of the members (C74)? *)
Inductive contains (all : bool) (v : jval) (ms : list jval) : res bool -> Prop :=
| contains_mixed ts : Forall2 member_type ms ts -> ~ of_one_type ts -> contains all v ms (Err HeterogeneousArray)
| contains_asked ts have x : Forall2 member_type ms ts -> of_one_type ts -> v = VColl true have ->
    (if all then every_of (fun m => some_of (prints_as m) have) ms x else some_of (fun m => some_of (prints_as m) have) ms x) -> contains all v ms x
| contains_no_list ts l t : Forall2 member_type ms ts -> of_one_type ts -> v = VColl false l \/ v = VArr l t -> contains all v ms (Err ClassCast)
| contains_single ts : Forall2 member_type ms ts -> of_one_type ts -> (forall b l, v <> VColl b l) -> (forall l t, v <> VArr l t) -> contains all v ms (Err InvalidDataType).

(** = and != with an operand left out and no default field. *)
Definition nameless (r : node) (op : operator) : Prop := r = NField None /\ (op = EQUALS \/ op = NOT_EQUAL).
Definition or_null (o : option jval) : jval := match o with Some v => v | None => VStr (J "null") end.

(** The answer of a condition, the value of its operands (None: the field is missing), the elements of a list. *)
Inductive answer (E : env) (d : data) : node -> res bool -> Prop :=
| answer_constant b : answer E d (NUnary BOOLEAN (VBool b)) (Ok b)
| answer_name t v b : t <> BOOLEAN -> v <> VNull -> looked_up d (Some (show v)) (Ok (VBool b)) -> answer E d (NUnary t v) (Ok b)
| answer_name_other t v w : t <> BOOLEAN -> v <> VNull -> looked_up d (Some (show v)) (Ok w) -> (forall b, w <> VBool b) -> answer E d (NUnary t v) (Err InvalidUnaryOperand)
| answer_name_fails t v e : t <> BOOLEAN -> v <> VNull -> looked_up d (Some (show v)) (Err e) -> answer E d (NUnary t v) (Err e)
| answer_null t : t <> BOOLEAN -> answer E d (NUnary t VNull) (Err NullPointer)
| answer_field f : answer E d (NField f) (Ok false)
| answer_arithmetic l r op : answer E d (NArith l r op) (Ok false)
| answer_call f items : answer E d (NFunc f items) (Ok false)
| answer_left_fails l r op e : answer E d l (Err e) -> answer E d (NBool l r op) (Err e)
| answer_not l r b : answer E d l (Ok b) -> answer E d (NBool l r NOT) (Ok (negb b))
| answer_and_no l r : answer E d l (Ok false) -> answer E d (NBool l r AND) (Ok false)
| answer_and_yes l r x : answer E d l (Ok true) -> answer E d r x -> answer E d (NBool l (Some r) AND) x
| answer_or_yes l r : answer E d l (Ok true) -> answer E d (NBool l r OR) (Ok true)
| answer_or_no l r x : answer E d l (Ok false) -> answer E d r x -> answer E d (NBool l (Some r) OR) x
| answer_operand_fails l r op t e : operand E d l (Err e) -> answer E d (NCmp l r op t) (Err e)
| answer_nameless l r op t o : operand E d l (Ok o) -> nameless r op -> answer E d (NCmp l r op t) (Err NullPointer)
| answer_null_check l r op t o x : operand E d l (Ok o) -> ~ nameless r op -> null_check l r op -> compares op (or_null o) (VStr (J "null")) x ->
    answer E d (NCmp l r op t) x
| answer_left_missing l r op t : operand E d l (Ok None) -> ~ nameless r op -> ~ null_check l r op -> answer E d (NCmp l r op t) (Err DataNotFound)
| answer_right_fails l r op t v e : operand E d l (Ok (Some v)) -> ~ nameless r op -> ~ null_check l r op -> operand E d r (Err e) -> answer E d (NCmp l r op t) (Err e)
| answer_right_missing l r op t v : operand E d l (Ok (Some v)) -> ~ nameless r op -> ~ null_check l r op -> operand E d r (Ok None) -> answer E d (NCmp l r op t) (Err NoSuchElement)
| answer_compared l r op t v w x : operand E d l (Ok (Some v)) -> ~ nameless r op -> ~ null_check l r op -> operand E d r (Ok (Some w)) -> compares op v w x ->
    answer E d (NCmp l r op t) x
| answer_range_fails f lo hi t u e : looked_up d f (Err e) -> answer E d (NRange f lo hi t u) (Err e)
| answer_range f lo hi t u v x y : looked_up d f (Ok v) -> compares GREATER_THAN_EQUAL v lo x -> compares LESS_THAN_EQUAL v hi y -> answer E d (NRange f lo hi t u) (both x y)
| answer_in_fails f items e : looked_up d f (Err e) -> answer E d (NIn f items) (Err e)
| answer_in_element_fails f items v e : looked_up d f (Ok v) -> elements_of E d items (Err e) -> answer E d (NIn f items) (Err e)
| answer_in f items v vs x : looked_up d f (Ok v) -> elements_of E d items (Ok vs) -> among v (flat_map members vs) x -> answer E d (NIn f items) x
| answer_contains_fails f op items e : looked_up d f (Err e) -> answer E d (NArray f op items) (Err e)
| answer_contains_element_fails f op items v e : looked_up d f (Ok v) -> elements_of E d items (Err e) -> answer E d (NArray f op items) (Err e)
| answer_contains_all f items v vs x : looked_up d f (Ok v) -> elements_of E d items (Ok vs) -> contains true v (flat_map members vs) x -> answer E d (NArray f CONTAINS_ALL items) x
| answer_contains_any f items v vs x : looked_up d f (Ok v) -> elements_of E d items (Ok vs) -> contains false v (flat_map members vs) x -> answer E d (NArray f CONTAINS_ANY items) x
with operand (E : env) (d : data) : node -> res (option jval) -> Prop :=
| operand_computed n v : is_arith_base n = true -> value_of E d n (Ok v) -> v <> VNull -> operand E d n (Ok (Some v))
| operand_null n : is_arith_base n = true -> value_of E d n (Ok VNull) -> operand E d n (Err NullPointer)
| operand_missing f : value_of E d (NField f) (Err DataNotFound) -> operand E d (NField f) (Ok None)
| operand_fails n e : is_arith_base n = true -> value_of E d n (Err e) -> (forall f, n = NField f -> e <> DataNotFound) -> operand E d n (Err e)
| operand_answer n b : is_arith_base n = false -> answer E d n (Ok b) -> operand E d n (Ok (Some (VBool b)))
| operand_answer_fails n e : is_arith_base n = false -> answer E d n (Err e) -> operand E d n (Err e)
with elements_of (E : env) (d : data) : list node -> res (list jval) -> Prop :=
| elements_none : elements_of E d [] (Ok [])
| elements_fail n ns e : element_of E d n (Err e) -> elements_of E d (n :: ns) (Err e)
| elements_fail_later n ns v e : element_of E d n (Ok v) -> elements_of E d ns (Err e) -> elements_of E d (n :: ns) (Err e)
| elements_more n ns v vs : element_of E d n (Ok v) -> elements_of E d ns (Ok vs) -> elements_of E d (n :: ns) (Ok (v :: vs))
with element_of (E : env) (d : data) : node -> res jval -> Prop :=
| element_value n x : is_arith_base n = true -> value_of E d n x -> element_of E d n x
| element_answer n b : is_arith_base n = false -> answer E d n (Ok b) -> element_of E d n (Ok (VBool b))
| element_answer_fails n e : is_arith_base n = false -> answer E d n (Err e) -> element_of E d n (Err e).

(** The literals a text can hold, with the type they are recorded with.  A date that is none is a null. *)
Inductive literal : dtype -> jval -> Prop :=
| literal_bool b : literal BOOLEAN (VBool b)
| literal_int z : -2147483648 <= z <= 2147483647 -> literal INTEGER (VInt z)
| literal_long z : -9223372036854775808 <= z <= 9223372036854775807 -> literal LONG (VLong z)
| literal_decimal b : literal DECIMAL (VDec b)
| literal_version t : literal VERSION (VVer t)
| literal_date a : calendar a -> -999999999 <= year a <= 999999999 -> literal DATE (VDate a)
| literal_no_date : literal DATE VNull
| literal_datetime x : wall_time x -> literal DATETIME (VDateTime x)
| literal_no_datetime : literal DATETIME VNull
| literal_text s : literal STRING (VStr s).
Definition number_bound (v : jval) (t : dtype) : Prop := exists q, bound v t q.

(** The trees of texts: operators of the right sort with the right number of operands, literals as above. *)
Fixpoint sensible (n : node) : Prop :=
  let all := fix all (l : list node) : Prop := match l with [] => True | i :: l' => sensible i /\ all l' end in
  match n with
  | NField _ | NRange _ _ _ _ _ => True
  | NUnary t v => literal t v
  | NArith l r op => sensible l /\ match r with Some r' => arithmetic op /\ sensible r' | None => op = UNARY end
  | NFunc _ items | NIn _ items => all items
  | NCmp l r op _ => (exists x, accepts op Eq = Some x) /\ sensible l /\ sensible r
  | NArray _ op items => (op = CONTAINS_ALL \/ op = CONTAINS_ANY) /\ all items
  | NBool l r op => sensible l /\ match r with Some r' => sensible r' | None => op = NOT end
  end.

(** The ranges are between numbers, recorded with their types.  (Malformed texts can give other ranges.) *)
Fixpoint numeric_ranges (n : node) : Prop :=
  let all := fix all (l : list node) : Prop := match l with [] => True | i :: l' => numeric_ranges i /\ all l' end in
  match n with
  | NField _ | NUnary _ _ => True
  | NArith l r _ | NBool l r _ => numeric_ranges l /\ match r with Some r' => numeric_ranges r' | None => True end
  | NCmp l r _ _ => numeric_ranges l /\ numeric_ranges r
  | NRange _ lo hi t u => number_bound lo t /\ number_bound hi u
  | NFunc _ items | NIn _ items | NArray _ _ items => all items
  end.

(** Values a Java program can put into the data; dates as far as java.time goes. *)
Definition possible (v : jval) : Prop := genuine v /\ forall a, v = VDate a -> -999999999 <= year a <= 999999999.
Definition world (E : env) (d : data) : Prop :=
  calendar (today E) /\ -999999999 <= year (today E) <= 999999999 /\ proper_data d /\ forall ks v, found d ks v -> possible v /\ Forall possible (members v).
(** No text or list of which the length is asked is longer than Java texts and lists can be. *)
Fixpoint lengths_fit (E : env) (d : data) (n : node) : Prop :=
  let all := fix all (l : list node) : Prop := match l with [] => True | i :: l' => lengths_fit E d i /\ all l' end in
  match n with
  | NField _ | NUnary _ _ | NRange _ _ _ _ _ => True
  | NArith l r _ | NBool l r _ => lengths_fit E d l /\ match r with Some r' => lengths_fit E d r' | None => True end
  | NCmp l r _ _ => lengths_fit E d l /\ lengths_fit E d r
  | NFunc f items => (f = F_LEN -> forall vs, values_of E d items (Ok vs) -> Z.of_nat (length (flat_map members vs)) <= 2147483647 /\
                       forall s, flat_map members vs = [VStr s] -> Z.of_nat (length s) <= 2147483647) /\ all items
  | NIn _ items | NArray _ _ items => all items
  end.
(** No call of LEN: then the previous condition holds anyway. *)
Fixpoint without_len (n : node) : Prop :=
  let all := fix all (l : list node) : Prop := match l with [] => True | i :: l' => without_len i /\ all l' end in
  match n with
  | NField _ | NUnary _ _ | NRange _ _ _ _ _ => True
  | NArith l r _ | NBool l r _ => without_len l /\ match r with Some r' => without_len r' | None => True end
  | NCmp l r _ _ => without_len l /\ without_len r
  | NFunc f items => f <> F_LEN /\ all items
  | NIn _ items | NArray _ _ items => all items
  end.
