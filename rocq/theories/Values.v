(** Runtime values, data type detection and conversion: B/util/ValueUtils.java, B/datatype/*.java,
    B/constant/DataType.java, B/constant/ContainerDataType.java. *)
From Verif Require Import Base JNum BigDec Dates Version.
Local Open Scope Z_scope.

(** The Java objects the evaluators can meet.  [VFloat] is a Float or Double, represented by the text its toString
    produces.  [VColl true] is a java.util.List, [VColl false] any other java.util.Collection (in iteration order).
    [VArr] is an Object[] with its (identity based) toString text.  [VMap] is a java.util.Map with String keys.
    [VOther] is any other object, reduced to its toString text. *)
Inductive jval :=
| VNull
| VBool (b : bool)
| VInt (z : Z)
| VLong (z : Z)
| VDec (d : bigdec)
| VFloat (is_double : bool) (text : jstr)
| VStr (s : jstr)
| VVer (text : jstr)
| VDate (d : date)
| VDateTime (t : datetime)
| VColl (is_list : bool) (items : list jval)
| VArr (items : list jval) (text : jstr)
| VMap (entries : list (jstr * jval))
| VOther (text : jstr).

(** The data map handed to the evaluators (Map<String, Object>). *)
Definition data := list (jstr * jval).

(** B/constant/DataType.java:10-18 *)
Inductive dtype := STRING | INTEGER | LONG | DECIMAL | VERSION | BOOLEAN | DATE | DATETIME.

Definition dtype_eqb (a b : dtype) : bool :=
  match a, b with
  | STRING, STRING | INTEGER, INTEGER | LONG, LONG | DECIMAL, DECIMAL | VERSION, VERSION
  | BOOLEAN, BOOLEAN | DATE, DATE | DATETIME, DATETIME => true
  | _, _ => false
  end.

(** DataType.priority, B/constant/DataType.java:11-18 *)
Definition priority (d : dtype) : Z :=
  match d with
  | STRING => 8 | INTEGER => 3 | LONG => 4 | DECIMAL => 5 | VERSION => 2 | BOOLEAN => 1 | DATE => 6 | DATETIME => 7
  end.

(** DataType.numeric, B/constant/DataType.java:11-18 *)
Definition numeric (d : dtype) : bool :=
  match d with INTEGER | LONG | DECIMAL | VERSION => true | _ => false end.

(** B/constant/ContainerDataType.java:20-36 *)
Inductive container := PRIMITIVE | LIST.
Definition container_eqb (a b : container) : bool :=
  match a, b with PRIMITIVE, PRIMITIVE | LIST, LIST => true | _, _ => false end.

(** Object.toString as used by String.valueOf (null prints as "null"): java.util.AbstractCollection.toString,
    java.util.AbstractMap.toString and the value classes' own. *)
Fixpoint join (sep : jstr) (l : list jstr) : jstr :=
  match l with
  | [] => []
  | [x] => x
  | x :: l' => x ++ sep ++ join sep l'
  end.

Fixpoint show (v : jval) : jstr :=
  match v with
  | VNull => J "null"
  | VBool b => if b then J "true" else J "false"
  | VInt z | VLong z => print_Z z
  | VDec d => bd_to_string d
  | VFloat _ t => t
  | VStr s => s
  | VVer t => t
  | VDate d => date_to_string d
  | VDateTime t => datetime_to_string t
  | VColl _ items => J "[" ++ join (J ", ") (map show items) ++ J "]"
  | VArr _ t => t
  | VMap es => J "{" ++ join (J ", ") (map (fun e => fst e ++ J "=" ++ show (snd e)) es) ++ J "}"
  | VOther t => t
  end.

(** value.toString(): throws on null. *)
Definition to_string (v : jval) : res jstr :=
  match v with VNull => Err NullPointer | _ => Ok (show v) end.

(** ValueUtils.getDataType, B/util/ValueUtils.java:123-157 *)
Definition get_data_type (v : jval) : dtype :=
  match v with
  | VBool _ => BOOLEAN
  | VFloat _ _ | VDec _ => DECIMAL
  | VInt _ => INTEGER
  | VLong _ => LONG
  | VVer _ => VERSION
  | VDate _ => DATE
  | VDateTime _ => DATETIME
  | VStr s =>
      match parse_datetime s with
      | Some _ => DATETIME
      | None => match parse_date s with Some _ => DATE | None => STRING end
      end
  | _ => STRING
  end.

(** BooleanDataType.getValue / isValid, B/datatype/BooleanDataType.java:21-48 *)
Definition get_boolean (v : jval) : res (option jval) :=
  match v with
  | VBool b => Ok (Some (VBool b))
  | _ =>
      s <- to_string v ;;
      let l := to_lower s in
      if jstr_eqb l (J "true") then Ok (Some (VBool true))
      else if jstr_eqb l (J "false") then Ok (Some (VBool false)) else Ok None
  end.

(** DateDataType, B/datatype/DateDataType.java:26-57 *)
Definition get_date (v : jval) : res (option jval) :=
  match v with
  | VDate d => Ok (Some (VDate d))
  | _ => s <- to_string v ;; Ok (option_map VDate (parse_date s))
  end.

(** DateTimeDataType, B/datatype/DateTimeDataType.java:26-57 *)
Definition get_datetime (v : jval) : res (option jval) :=
  match v with
  | VDateTime t => Ok (Some (VDateTime t))
  | _ => s <- to_string v ;; Ok (option_map VDateTime (parse_datetime s))
  end.

(** new BigDecimal(value.toString()) with every exception (also the NullPointerException) swallowed. *)
Definition number_of (v : jval) : option bigdec :=
  match v with VNull => None | _ => parse_bigdec (show v) end.

(** DecimalDataType.getValue, B/datatype/DecimalDataType.java:43-54 *)
Definition decimal_value (v : jval) : option bigdec :=
  match v with VDec d => Some d | _ => number_of v end.

(** IntegerDataType.getValue, B/datatype/IntegerDataType.java:44-56:
    Integer.parseInt(number.stripTrailingZeros().toPlainString()) *)
Definition integer_value (v : jval) : option Z :=
  match v with
  | VInt z => Some z
  | _ => match number_of v with Some d => parse_int (bd_to_plain (bd_strip d)) | None => None end
  end.

(** LongDataType.getValue, B/datatype/LongDataType.java:44-56 *)
Definition long_value (v : jval) : option Z :=
  match v with
  | VLong z => Some z
  | _ => match number_of v with Some d => parse_long (bd_to_plain (bd_strip d)) | None => None end
  end.

(** VersionDataType.getValue, B/datatype/VersionDataType.java:43-54 (ComparableVersion's constructor never throws
    on a non-null text). *)
Definition version_value (v : jval) : option jstr :=
  match v with VVer t => Some t | VNull => None | _ => Some (show v) end.

(** StringDataType.getValue, B/datatype/StringDataType.java:33-40 *)
Definition get_string (v : jval) : res (option jval) := s <- to_string v ;; Ok (Some (VStr s)).

(** DataTypeFactory.getDataType(dataType).getValue(value), B/datatype/DataTypeFactory.java:29-31 *)
Definition get_value (d : dtype) (v : jval) : res (option jval) :=
  match d with
  | STRING => get_string v
  | INTEGER => Ok (option_map VInt (integer_value v))
  | LONG => Ok (option_map VLong (long_value v))
  | DECIMAL => Ok (option_map VDec (decimal_value v))
  | VERSION => Ok (option_map VVer (version_value v))
  | BOOLEAN => get_boolean v
  | DATE => get_date v
  | DATETIME => get_datetime v
  end.

(** DataTypeFactory.getDataType(dataType).isValid(value): true for every value for STRING
    (B/datatype/StringDataType.java:21-23), otherwise exactly when getValue finds something (the isValid methods of
    the other classes repeat the code of getValue). *)
Definition is_valid (d : dtype) (v : jval) : res bool :=
  match d with
  | STRING => Ok true
  | _ => o <- get_value d v ;; Ok (match o with Some _ => true | None => false end)
  end.

(** ContainerDataType.isValid, B/constant/ContainerDataType.java:31-34 and 57-67 *)
Definition container_is_valid (c : container) (d : dtype) (v : jval) : res bool :=
  match c with
  | PRIMITIVE => is_valid d v
  | LIST =>
      match v with
      | VColl _ items | VArr items _ => allM (is_valid d) items
      | _ => Ok false
      end
  end.

(** ContainerDataType.PRIMITIVE.getValue, B/constant/ContainerDataType.java:22-29: never empty, throws instead.
    (LIST.getValue, 37-55, has no caller: the only operators used with LIST never call it.) *)
Definition primitive_value (d : dtype) (v : jval) : res jval :=
  o <- get_value d v ;; match o with Some x => Ok x | None => Err InvalidDataType end.

(** Comparable.compareTo of two values of the same class; a mix of classes is a ClassCastException. *)
Definition bool_compare (a b : bool) : comparison :=
  match a, b with true, false => Gt | false, true => Lt | _, _ => Eq end.
Definition compare_to (a b : jval) : res comparison :=
  match a, b with
  | VStr s, VStr t => Ok (jstr_compare s t)
  | VInt x, VInt y => Ok (x ?= y)
  | VLong x, VLong y => Ok (x ?= y)
  | VDec x, VDec y => Ok (bd_compare x y)
  | VVer x, VVer y => Ok (version_compare x y)
  | VBool x, VBool y => Ok (bool_compare x y)
  | VDate x, VDate y => Ok (date_compare x y)
  | VDateTime x, VDateTime y => Ok (datetime_compare x y)
  | _, _ => Err ClassCast
  end.

(** String.split("\\."): the pieces between dots, trailing empty pieces removed; a text without a dot is one piece
    (also the empty text). *)
Fixpoint split_dots (s cur : jstr) : list jstr :=
  match s with
  | [] => [rev cur]
  | c :: s' => if (c =? ch ".")%N then rev cur :: split_dots s' [] else split_dots s' (c :: cur)
  end.
Fixpoint drop_trailing_empty (l : list jstr) : list jstr :=
  match l with
  | [] => []
  | x :: l' =>
      match drop_trailing_empty l' with
      | [] => match x with [] => [] | _ => [x] end
      | r => x :: r
      end
  end.
Definition split_path (s : jstr) : list jstr :=
  match split_dots s [] with
  | [x] => [x]
  | l => drop_trailing_empty l
  end.

(** data.get(key), null standing for an absent key: Optional.ofNullable *)
Fixpoint map_get (k : jstr) (d : data) : option jval :=
  match d with
  | [] => None
  | (k', v) :: d' => if jstr_eqb k' k then (match v with VNull => None | _ => Some v end) else map_get k d'
  end.

(** ValueUtils.getValueFromMap, B/util/ValueUtils.java:20-38, on the split key.  The Java code joins the remaining
    keys with dots and splits again in the recursive call; that is the identity on the pieces of a split key
    (lemma [split_path_join] in ValuesFacts.v). *)
Fixpoint get_path (keys : list jstr) (d : data) : res (option jval) :=
  match keys with
  | [] => Err ArrayIndexOutOfBounds
  | [k] => Ok (map_get k d)
  | k :: keys' =>
      match map_get k d with
      | Some (VMap es) => get_path keys' es
      | _ => Ok None
      end
  end.
Definition get_value_from_map (key : jstr) (d : data) : res (option jval) := get_path (split_path key) d.

(** ValueUtils.mapToEvaluatedNodes, B/util/ValueUtils.java:40-60: collections are flattened one level and every
    item is paired with its data type.  (No caller passes an EvaluatedNode, so lines 43-51 are dead.) *)
Definition evaluated := (jval * dtype)%type.
Definition flatten_one (v : jval) : list jval := match v with VColl _ items => items | _ => [v] end.
Definition map_to_evaluated (items : list jval) : list evaluated :=
  map (fun v => (v, get_data_type v)) (flat_map flatten_one items).

(** ValueUtils.castLong, B/util/ValueUtils.java:96-101 *)
Definition cast_long (z : Z) : jval := if in_int z then VInt z else VLong z.

(** ValueUtils.castDecimal(BigDecimal), B/util/ValueUtils.java:103-108; intValueExact throws outside int. *)
Definition int_value_exact (b : bigdec) : res jval :=
  let z := bd_trunc b in
  match bd_compare b (bd_of_Z z) with
  | Eq => if in_int z then Ok (VInt z) else Err ArithmeticExc
  | _ => Err ArithmeticExc
  end.
Definition cast_decimal (b : bigdec) : res jval :=
  if (unscaled b =? 0) || (scale b <=? 0) || (scale (bd_strip b) <=? 0) then int_value_exact b else Ok (VDec b).

(** A double: NaN, an infinity, or the number m * 2^e. *)
Inductive dbl := DNaN | DInf (negative : bool) | DFin (m e : Z).

Fixpoint odd_part (p : positive) (e : Z) : positive * Z :=
  match p with
  | xO p' => odd_part p' (e + 1)
  | _ => (p, e)
  end.

(** new BigDecimal(double) *)
Definition bd_of_double (d : dbl) : res bigdec :=
  match d with
  | DFin m e =>
      match m with
      | Z0 => Ok (BD 0 0)
      | Zpos p => let (q, e') := odd_part p e in
                  Ok (if e' <? 0 then BD (Zpos q * 5 ^ (- e')) (- e') else BD (Zpos q * 2 ^ e') 0)
      | Zneg p => let (q, e') := odd_part p e in
                  Ok (if e' <? 0 then BD (Zneg q * 5 ^ (- e')) (- e') else BD (Zneg q * 2 ^ e') 0)
      end
  | _ => Err NumberFormat
  end.

(** ValueUtils.castDecimal(double), B/util/ValueUtils.java:89-94: an int when the double is one, else the exact
    BigDecimal. *)
Definition cast_double (d : dbl) : res jval :=
  b <- bd_of_double d ;;
  Ok (if (scale b =? 0) && in_int (unscaled b) then VInt (unscaled b) else VDec b).

(** ValueUtils.castDecimal applied to a long (overload resolution widens it to double):
    B/function/arithmetic/SumFunction.java:40, MinFunction.java:42, MaxFunction.java:42. *)
Definition cast_long_as_double (z : Z) : res jval := cast_double (DFin (round_double z) 0).

(** ValueUtils.getNumericDataType, B/util/ValueUtils.java:110-113 *)
Definition numeric_data_type (s : jstr) : dtype := match parse_int s with Some _ => INTEGER | None => LONG end.

(** value.startsWith(q) && value.endsWith(q), then value.substring(1, value.length() - 1) *)
Definition quoted_by (q : jchar) (s : jstr) : bool :=
  match s with
  | [] => false
  | c :: _ => (c =? q)%N && (last s 0%N =? q)%N
  end.
Definition strip_ends (s : jstr) : res jval :=
  if (length s <? 2)%nat then Err StringIndexOutOfBounds else Ok (VStr (removelast (tl s))).

(** ValueUtils.convertValue, B/util/ValueUtils.java:62-87 *)
Definition convert_value (s : jstr) (d : dtype) : res jval :=
  match d with
  | INTEGER => match parse_int s with Some z => Ok (VInt z) | None => Err NumberFormat end
  | LONG => match parse_long s with Some z => Ok (VLong z) | None => Err NumberFormat end
  | DECIMAL => match parse_bigdec s with Some b => Ok (VDec b) | None => Err NumberFormat end
  | BOOLEAN => Ok (VBool (equals_ignore_case s (J "true")))
  | VERSION => Ok (VVer s)
  | DATE => Ok (match parse_date s with Some x => VDate x | None => VNull end)
  | DATETIME => Ok (match parse_datetime s with Some x => VDateTime x | None => VNull end)
  | STRING =>
      if quoted_by (ch "'") s then strip_ends s
      else if quoted_by 34%N s then strip_ends s
      else Ok (VStr s)
  end.
