(** The repository's own tests, replayed on the model (src/test/java/.../application/*Test.java and parser/antlr/*Test.java).
    These are tests of the model's faithfulness, not proofs of properties. *)
From Verif Require Import Base JNum BigDec Dates Values Ops Funcs Ast Eval Api.
Local Open Scope Z_scope.

(** Math.pow for the small non-negative integer exponents the tests use. *)
Definition test_env : env :=
  Env (Date 2024 6 1) (fun x y => DFin (x ^ y) 0) (fun x y => DNaN).

Inductive expectation := EBool (b : bool) | EVal (v : jval) | ENum (text : jstr) | EErr (e : exn).
Definition exn_dec (a b : exn) : {a = b} + {a <> b}.
Proof. decide equality. Defined.
Definition check_bool (expr : jstr) (d : data) (dflt : option jstr) (x : expectation) : bool :=
  match evaluate_boolean test_env expr d dflt, x with
  | Ok b, EBool c => Bool.eqb b c
  | Err e, EErr f => if exn_dec e f then true else false
  | _, _ => false
  end.
Definition check_arith (expr : jstr) (d : data) (x : expectation) : bool :=
  match evaluate_arith test_env expr d, x with
  | Ok (VInt a), EVal (VInt b) => a =? b
  | Ok (VBool a), EVal (VBool b) => Bool.eqb a b
  | Ok (VStr a), EVal (VStr b) => jstr_eqb a b
  | Ok (VDec a), ENum t => match parse_bigdec t with Some b => (match bd_compare a b with Eq => true | _ => false end) | None => false end
  | Err e, EErr f => if exn_dec e f then true else false
  | _, _ => false
  end.

Definition suite : list bool :=
  [ check_bool (J "not is_allowed") [((J "is_allowed"), VBool true)] None (EBool false);
    check_bool (J "not false") [((J "is_allowed"), VBool true)] None (EBool true);
    check_bool (J "not is_allowed") [((J "is_allowed"), VInt (123))] None (EErr InvalidUnaryOperand);
    check_bool (J "name = 'abc'") [((J "name"), VStr (J "abc"))] None (EBool true);
    check_bool (J "name = 'abc-'") [((J "name"), VStr (J "abc-"))] None (EBool true);
    check_bool (J "name > 123") [((J "name"), VStr (J "abc-"))] None (EErr InvalidDataType);
    check_bool (J "name = 'abc'") [((J "name"), VStr (J "def"))] None (EBool false);
    check_bool (J "age = 24") [((J "age"), VInt (24))] None (EBool true);
    check_bool (J "age = 24") [((J "age"), VInt (26))] None (EBool false);
    check_bool (J "age > 20") [((J "age"), VInt (24))] None (EBool true);
    check_bool (J "20 < age") [((J "age"), VInt (24))] None (EBool true);
    check_bool (J "age > b") [((J "age"), VInt (24)); ((J "b"), VInt (20))] None (EBool true);
    check_bool (J "person.age > 20") [((J "person"), VMap [((J "age"), VInt (24))])] None (EBool true);
    check_bool (J "person.details.age > 20") [((J "person"), VMap [((J "details"), VMap [((J "age"), VInt (24))])])] None (EBool true);
    check_bool (J "person.agee > 20") [((J "person"), VMap [((J "age"), VInt (24))])] None (EErr DataNotFound);
    check_bool (J "age > 27") [((J "age"), VInt (26))] None (EBool false);
    check_bool (J "age > 20") [((J "age"), VFloat true (J "26.6"))] None (EBool true);
    check_bool (J "age >= 20") [((J "age"), VInt (24))] None (EBool true);
    check_bool (J "age >= 27") [((J "age"), VInt (26))] None (EBool false);
    check_bool (J "age < 30") [((J "age"), VInt (24))] None (EBool true);
    check_bool (J "age <= 20") [((J "age"), VInt (26))] None (EBool false);
    check_bool (J "age != 30") [((J "age"), VInt (24))] None (EBool true);
    check_bool (J "age != 26") [((J "age"), VInt (26))] None (EBool false);
    check_bool (J "NOT (name = 'abc')") [((J "name"), VStr (J "abc"))] None (EBool false);
    check_bool (J "NOT (age = 24)") [((J "age"), VInt (24))] None (EBool false);
    check_bool (J "name = 'sid' AND age = 25") [((J "age"), VInt (25)); ((J "name"), VStr (J "sid"))] None (EBool true);
    check_bool (J "name = 'sid' AND age = 23") [((J "age"), VInt (25)); ((J "name"), VStr (J "sid"))] None (EBool false);
    check_bool (J "name = 'sid' OR age = 23") [((J "age"), VInt (25)); ((J "name"), VStr (J "sid"))] None (EBool true);
    check_bool (J "name = 'sid' OR age = 23") [((J "age"), VInt (25)); ((J "name"), VStr (J "sidh"))] None (EBool false);
    check_bool (J "name = 'sid' AND (age = 25 OR num = 44)") [((J "age"), VInt (25)); ((J "name"), VStr (J "sid")); ((J "num"), VInt (45))] None (EBool true);
    check_bool (J "age in (26,56,34)") [((J "age"), VInt (25))] None (EBool false);
    check_bool (J "age in (26,56,34,a)") [((J "age"), VInt (25)); ((J "a"), VInt (25))] None (EBool true);
    check_bool (J "age not in (26,56,34)") [((J "age"), VInt (30))] None (EBool true);
    check_bool (J "age in (26,25,34)") [((J "age"), VInt (25))] None (EBool true);
    check_bool (J "num in (26,25,34, 25.3)") [((J "num"), VFloat true (J "25.3"))] None (EBool true);
    check_bool (J "name in ('tes', 'abc')") [((J "name"), VStr (J "test"))] None (EBool false);
    check_bool (J "name in ('abc', 'test')") [((J "name"), VStr (J "test"))] None (EBool true);
    check_bool (J "name = 'sidh' OR (age = 25 AND num = 45)") [((J "age"), VInt (25)); ((J "name"), VStr (J "sid")); ((J "num"), VInt (45))] None (EBool true);
    check_bool (J "name = 'sid' AND (age = 23 OR num = 44)") [((J "age"), VInt (25)); ((J "name"), VStr (J "sid")); ((J "num"), VInt (45))] None (EBool false);
    check_bool (J "age = 'dsf'") [((J "age"), VInt (24))] None (EBool false);
    check_bool (J "age = 24") [((J "age"), VStr (J "sf"))] None (EBool false);
    check_bool (J "age = 24") [((J "agee"), VInt (34))] None (EErr DataNotFound);
    check_bool (J "app_version > 1.0.5") [((J "app_version"), VStr (J "1.0.6"))] None (EBool true);
    check_bool (J "app_version > 1.0.6.14") [((J "app_version"), VStr (J "1.0.6.15"))] None (EBool true);
    check_bool (J "app_version > 1.53") [((J "app_version"), VStr (J "1.54"))] None (EBool true);
    check_bool (J "app_version >= 1.0.6") [((J "app_version"), VStr (J "1.0.6"))] None (EBool true);
    check_bool (J "app_version < 1.5.10") [((J "app_version"), VStr (J "1.5.9"))] None (EBool true);
    check_bool (J "app_version <= 1.5.9") [((J "app_version"), VStr (J "1.5.9"))] None (EBool true);
    check_bool (J "name = 'sidhant aggarwal'") [((J "name"), VStr (J "sidhant aggarwal"))] None (EBool true);
    check_bool (J ">= 18 AND < 20") [((J "age"), VInt (19))] (Some (J "age")) (EBool true);
    check_bool (J ">= 18 AND < 20") [((J "age"), VInt (17))] (Some (J "age")) (EBool false);
    check_bool (J "age contains_any (2)") [((J "age"), VColl true [VInt (1); VInt (2); VInt (3)])] None (EBool true);
    check_bool (J "age contains_any (12)") [((J "age"), VColl true [VInt (1); VInt (2); VInt (3)])] None (EBool false);
    check_bool (J "age contains_all (1,2)") [((J "age"), VColl true [VInt (1); VInt (2); VInt (3)])] None (EBool true);
    check_bool (J "age contains_all (2,5)") [((J "age"), VColl true [VInt (1); VInt (2); VInt (3)])] None (EBool false);
    check_bool (J "age > (5 + 10)") [((J "age"), VStr (J "20"))] None (EBool true);
    check_bool (J "(5 + 10) < age") [((J "age"), VStr (J "20"))] None (EBool true);
    check_bool (J "age > min (18, 25, 30)") [((J "age"), VStr (J "20"))] None (EBool true);
    check_bool (J "age > max (numbers)") [((J "age"), VStr (J "20")); ((J "numbers"), VColl true [VInt (1); VInt (1); VInt (2); VInt (30)])] None (EBool false);
    check_bool (J "age > (5 + 20)") [((J "age"), VStr (J "20"))] None (EBool false);
    check_bool (J "age > (5 + a)") [((J "age"), VStr (J "20")); ((J "a"), VInt (20))] None (EBool false);
    check_bool (J "age = (5 > 3)") [((J "age"), VBool true); ((J "a"), VInt (20))] None (EBool true);
    check_bool (J "a > -10 AND a < -2") [((J "a"), VInt (-6))] None (EBool true);
    check_bool (J "b = null") [((J "a"), VFloat true (J "2.7"))] None (EBool true);
    check_bool (J "null = b") [((J "a"), VFloat true (J "2.7"))] None (EBool true);
    check_bool (J "a = null") [((J "a"), VFloat true (J "2.7"))] None (EBool false);
    check_bool (J "a != null") [((J "a"), VFloat true (J "2.7"))] None (EBool true);
    check_bool (J "b = null && a > 2") [((J "a"), VInt (3))] None (EBool true);
    check_bool (J "len(a) = 4") [((J "a"), VStr (J "test"))] None (EBool true);
    check_bool (J "created_date = 2023-03-05") [((J "created_date"), VDate (Date 2023 3 5))] None (EBool true);
    check_bool (J "created_date = 2023-03-06") [((J "created_date"), VDate (Date 2023 3 5))] None (EBool false);
    check_bool (J "event_date > 2023-03-05") [((J "event_date"), VDate (Date 2023 6 15))] None (EBool true);
    check_bool (J "birth_date < 2000-01-01") [((J "birth_date"), VDate (Date 1990 1 1))] None (EBool true);
    check_bool (J "timestamp = 2023-03-05 14:30:00") [((J "timestamp"), VDateTime (DateTime (Date 2023 3 5) 14 30 0 0))] None (EBool true);
    check_bool (J "timestamp = 2023-03-05 14:31:00") [((J "timestamp"), VDateTime (DateTime (Date 2023 3 5) 14 30 0 0))] None (EBool false);
    check_bool (J "last_modified > 2023-03-05 14:30:00") [((J "last_modified"), VDateTime (DateTime (Date 2023 6 15) 10 30 0 0))] None (EBool true);
    check_bool (J "created_at < 2023-03-05 14:30:00") [((J "created_at"), VDateTime (DateTime (Date 2023 1 1) 9 0 0 0))] None (EBool true);
    check_bool (J "holiday in (2023-12-24, 2023-12-25, 2023-12-26)") [((J "holiday"), VDate (Date 2023 12 25))] None (EBool true);
    check_bool (J "meeting_time in (2023-03-05 13:30:00, 2023-03-05 14:30:00, 2023-03-05 15:30:00)") [((J "meeting_time"), VDateTime (DateTime (Date 2023 3 5) 14 30 0 0))] None (EBool true);
    check_bool (J "current_date >= start_date AND current_date <= end_date") [((J "start_date"), VDate (Date 2023 1 1)); ((J "end_date"), VDate (Date 2023 12 31)); ((J "current_date"), VDate (Date 2023 6 15))] None (EBool true);
    check_bool (J "created_date = 2023-03-05") [((J "created_date"), VStr (J "2023-03-05"))] None (EBool true);
    check_bool (J "event_date > 2023-03-05") [((J "event_date"), VStr (J "2023-06-15"))] None (EBool true);
    check_bool (J "timestamp = 2023-03-05 14:30:00") [((J "timestamp"), VStr (J "2023-03-05 14:30:00"))] None (EBool true);
    check_bool (J "last_modified > 2023-03-05 14:30:00") [((J "last_modified"), VStr (J "2023-06-15 10:30:00"))] None (EBool true);
    check_bool (J "string_date > object_date") [((J "string_date"), VStr (J "2023-06-15")); ((J "object_date"), VDate (Date 2023 3 5))] None (EBool true);
    check_bool (J "string_datetime > object_datetime") [((J "string_datetime"), VStr (J "2023-06-15 10:30:00")); ((J "object_datetime"), VDateTime (DateTime (Date 2023 3 5) 14 30 0 0))] None (EBool true);
    check_bool (J "bad_date = 2023-03-05") [((J "bad_date"), VStr (J "03/05/2023"))] None (EBool false);
    check_bool (J "bad_datetime = 2023-03-05 14:30:00") [((J "bad_datetime"), VStr (J "2023-03-05T14:30:00"))] None (EBool false);
    check_bool (J "date_string > 2023-01-01") [((J "date_string"), VStr (J "2023-03-05")); ((J "regular_string"), VStr (J "hello world"))] None (EBool true);
    check_bool (J "datetime_string > 2023-01-01 10:00:00") [((J "datetime_string"), VStr (J "2023-03-05 14:30:00")); ((J "regular_string"), VStr (J "hello world"))] None (EBool true);
    check_bool (J "current_date_str >= start_date_str AND current_date_str <= end_date_str") [((J "start_date_str"), VStr (J "2023-01-01")); ((J "end_date_str"), VStr (J "2023-12-31")); ((J "current_date_str"), VStr (J "2023-06-15"))] None (EBool true);
    check_bool (J "days_elapsed(created_date) > 0") [((J "created_date"), VDate (Date 2023 1 1))] None (EBool true);
    check_bool (J "days_elapsed(created_date) > 300") [((J "created_date"), VStr (J "2023-01-01"))] None (EBool true);
    check_bool (J "days_elapsed(2023-01-01) > 300") [] None (EBool true);
    check_arith (J "5 + 5") [] (EVal (VInt (10)));
    check_arith (J "5 - 4") [] (EVal (VInt (1)));
    check_arith (J "5 * 5") [] (EVal (VInt (25)));
    check_arith (J "5 / 5") [] (EVal (VInt (1)));
    check_arith (J "5 / 4") [] (ENum (J "1.25"));
    check_arith (J "10 % 4") [] (EVal (VInt (2)));
    check_arith (J "2 ^ 4") [] (EVal (VInt (16)));
    check_arith (J "a + 5") [((J "a"), VInt (10))] (EVal (VInt (15)));
    check_arith (J "a - 5") [((J "a"), VInt (10))] (EVal (VInt (5)));
    check_arith (J "a-b") [((J "a"), VInt (10)); ((J "b"), VInt (5))] (EVal (VInt (5)));
    check_arith (J """a-b""") [((J "a"), VInt (10)); ((J "b"), VInt (5))] (EVal (VStr (J "a-b")));
    check_arith (J "a * 5") [((J "a"), VInt (10))] (EVal (VInt (50)));
    check_arith (J "a / 5") [((J "a"), VInt (10))] (EVal (VInt (2)));
    check_arith (J "a % 5") [((J "a"), VInt (10))] (EVal (VInt (0)));
    check_arith (J "a ^ 5") [((J "a"), VInt (10))] (EVal (VInt (100000)));
    check_arith (J "a + "" "" + b") [((J "a"), VStr (J "first")); ((J "b"), VStr (J "second"))] (EVal (VStr (J "first second")));
    check_arith (J "((5 * 2) + 10) * 2 + (1 + 3 * (10 / 2))") [((J "a"), VInt (10))] (EVal (VInt (56)));
    check_arith (J "((5 * 2) + a) * 2 + (1 + 3 * (a / 2))") [((J "a"), VInt (10))] (EVal (VInt (56)));
    check_arith (J "(a > (4 + 1))") [((J "a"), VInt (10))] (EErr UnsupportedToken);
    check_arith (J "- a") [((J "a"), VInt (10))] (EVal (VInt (-10)));
    check_arith (J "- (a + 5)") [((J "a"), VInt (10))] (EVal (VInt (-15)));
    check_arith (J "a") [((J "a"), VStr (J "test"))] (EVal (VStr (J "test")));
    check_arith (J "-a") [((J "a"), VInt (10))] (EVal (VInt (-10)));
    check_arith (J "--a") [((J "a"), VInt (10))] (EVal (VInt (10)));
    check_arith (J "min (1,2,3)") [((J "a"), VInt (10))] (EVal (VInt (1)));
    check_arith (J "min (1,2,3,4.5)") [((J "a"), VInt (10))] (EVal (VInt (1)));
    check_arith (J "max (1,2,3)") [((J "a"), VInt (10))] (EVal (VInt (3)));
    check_arith (J "max (1,2,3,4.5)") [((J "a"), VInt (10))] (ENum (J "4.5"));
    check_arith (J "avg (1,2,3)") [((J "a"), VInt (10))] (EVal (VInt (2)));
    check_arith (J "avg (1,2,3,4.5)") [((J "a"), VInt (10))] (ENum (J "2.625"));
    check_arith (J "sum (1,2,3)") [((J "a"), VInt (10))] (EVal (VInt (6)));
    check_arith (J "sum (1,2,3,4.5)") [((J "a"), VInt (10))] (ENum (J "10.5"));
    check_arith (J "mean (1,2,3)") [((J "a"), VInt (10))] (EVal (VInt (2)));
    check_arith (J "mean (1,2,3,4.5)") [((J "a"), VInt (10))] (ENum (J "2.625"));
    check_arith (J "mode (a)") [((J "a"), VColl true [VInt (1); VInt (1); VInt (2); VInt (3)])] (EVal (VInt (1)));
    check_arith (J "mode (1,2,3,4.5)") [((J "a"), VInt (10))] (EVal (VInt (1)));
    check_arith (J "median (3, 13, 2, 34, 11, 17, 27, 47)") [((J "a"), VInt (10))] (EVal (VInt (15)));
    check_arith (J "int (2.7)") [((J "a"), VInt (10))] (EVal (VInt (2)));
    check_arith (J "int (a)") [((J "a"), VFloat true (J "2.7"))] (EVal (VInt (2)));
    check_arith (J "len (a)") [((J "a"), VStr (J "lorem"))] (EVal (VInt (5)));
    check_arith (J "len (a)") [((J "a"), VColl true [VInt (1); VInt (1); VInt (2); VInt (3)])] (EVal (VInt (4)));
    check_arith (J "max(1,2,min(5,7,87))") [((J "a"), VFloat true (J "2.7"))] (EVal (VInt (5)));
    check_arith (J "max(1,2,min(5,7,87,min(1,2)))") [((J "a"), VFloat true (J "2.7"))] (EVal (VInt (2))) ].

Example suite_passes : forallb (fun b => b) suite = true.
Proof. vm_compute. reflexivity. Qed.

(** BooleanFilterBoolParserTest.java:34-490: the text of each test and the tree its assertions describe. *)
Definition parser_suite : list (jstr * node) :=
  [ (J "not false", NBool (NUnary BOOLEAN (VBool false)) None NOT);
    (J "not abc", NBool (NUnary STRING (VStr (J "abc"))) None NOT);
    (J "name = 'test'", NCmp (NField (Some (J "name"))) (NUnary STRING (VStr (J "test"))) EQUALS STRING);
    (J "name = ""te'st""", NCmp (NField (Some (J "name"))) (NUnary STRING (VStr (J "te'st"))) EQUALS STRING);
    (J "name = 'te""st'", NCmp (NField (Some (J "name"))) (NUnary STRING (VStr (J "te""st"))) EQUALS STRING);
    (J "name = ""first second""", NCmp (NField (Some (J "name"))) (NUnary STRING (VStr (J "first second"))) EQUALS STRING);
    (J "age=44", NCmp (NField (Some (J "age"))) (NUnary INTEGER (VInt 44)) EQUALS INTEGER);
    (J "age=1611473334114", NCmp (NField (Some (J "age"))) (NUnary LONG (VLong 1611473334114)) EQUALS LONG);
    (J "age=44.34", NCmp (NField (Some (J "age"))) (NUnary DECIMAL (VDec (BD 4434 2))) EQUALS DECIMAL);
    (J "age 18 TO 44", NRange (Some (J "age")) (VInt 18) (VInt 44) INTEGER INTEGER);
    (J "age > 18", NCmp (NField (Some (J "age"))) (NUnary INTEGER (VInt 18)) GREATER_THAN INTEGER);
    (J "age > a", NCmp (NField (Some (J "age"))) (NField (Some (J "a"))) GREATER_THAN STRING);
    (J "age 18.4 TO 44.2", NRange (Some (J "age")) (VDec (BD 184 1)) (VDec (BD 442 1)) DECIMAL DECIMAL);
    (J "name = 'test' OR age=33", NBool (NCmp (NField (Some (J "name"))) (NUnary STRING (VStr (J "test"))) EQUALS STRING) (Some (NCmp (NField (Some (J "age"))) (NUnary INTEGER (VInt 33)) EQUALS INTEGER)) OR);
    (J "name = 'test' AND age=33", NBool (NCmp (NField (Some (J "name"))) (NUnary STRING (VStr (J "test"))) EQUALS STRING) (Some (NCmp (NField (Some (J "age"))) (NUnary INTEGER (VInt 33)) EQUALS INTEGER)) AND);
    (J "NOT (name = 'test')", NBool (NCmp (NField (Some (J "name"))) (NUnary STRING (VStr (J "test"))) EQUALS STRING) None NOT);
    (J "name = 'test' OR (age=33 AND city = 'dummy')", NBool (NCmp (NField (Some (J "name"))) (NUnary STRING (VStr (J "test"))) EQUALS STRING) (Some (NBool (NCmp (NField (Some (J "age"))) (NUnary INTEGER (VInt 33)) EQUALS INTEGER) (Some (NCmp (NField (Some (J "city"))) (NUnary STRING (VStr (J "dummy"))) EQUALS STRING)) AND)) OR);
    (J "(agel=44 AND cityl = 'abc') OR (ager=33 AND cityr = 'dummy')", NBool (NBool (NCmp (NField (Some (J "agel"))) (NUnary INTEGER (VInt 44)) EQUALS INTEGER) (Some (NCmp (NField (Some (J "cityl"))) (NUnary STRING (VStr (J "abc"))) EQUALS STRING)) AND) (Some (NBool (NCmp (NField (Some (J "ager"))) (NUnary INTEGER (VInt 33)) EQUALS INTEGER) (Some (NCmp (NField (Some (J "cityr"))) (NUnary STRING (VStr (J "dummy"))) EQUALS STRING)) AND)) OR);
    (J "name = 'test' AND (age=33 OR city = 'dummy')", NBool (NCmp (NField (Some (J "name"))) (NUnary STRING (VStr (J "test"))) EQUALS STRING) (Some (NBool (NCmp (NField (Some (J "age"))) (NUnary INTEGER (VInt 33)) EQUALS INTEGER) (Some (NCmp (NField (Some (J "city"))) (NUnary STRING (VStr (J "dummy"))) EQUALS STRING)) OR)) AND);
    (J "age IN (12,45)", NIn (Some (J "age")) [NUnary INTEGER (VInt 12); NUnary INTEGER (VInt 45)]);
    (J "age not IN (12,45)", NBool (NIn (Some (J "age")) [NUnary INTEGER (VInt 12); NUnary INTEGER (VInt 45)]) None NOT);
    (J "name IN ('abc', 'def', 'abc def')", NIn (Some (J "name")) [NUnary STRING (VStr (J "abc")); NUnary STRING (VStr (J "def")); NUnary STRING (VStr (J "abc def"))]);
    (J "name IN ('abc', 'def', 'abc, def')", NIn (Some (J "name")) [NUnary STRING (VStr (J "abc")); NUnary STRING (VStr (J "def")); NUnary STRING (VStr (J "abc, def"))]);
    (J "name IN ('abc', 'def', 'ab""c')", NIn (Some (J "name")) [NUnary STRING (VStr (J "abc")); NUnary STRING (VStr (J "def")); NUnary STRING (VStr (J "ab""c"))]);
    (J "a", NField (Some (J "a")));
    (J "a contains_any (1,2,3)", NArray (Some (J "a")) CONTAINS_ANY [NUnary INTEGER (VInt 1); NUnary INTEGER (VInt 2); NUnary INTEGER (VInt 3)]);
    (J "a contains_all (""a"", ""b""", NArray (Some (J "a")) CONTAINS_ALL [NUnary STRING (VStr (J "a")); NUnary STRING (VStr (J "b"))]);
    (J "a + b", NArith (NField (Some (J "a"))) (Some (NField (Some (J "b")))) ADD);
    (J "20 + 5", NArith (NUnary INTEGER (VInt 20)) (Some (NUnary INTEGER (VInt 5))) ADD);
    (J "20.5 + 5", NArith (NUnary DECIMAL (VDec (BD 205 1))) (Some (NUnary INTEGER (VInt 5))) ADD);
    (J "min (1,2,3)", NFunc F_MIN [NUnary INTEGER (VInt 1); NUnary INTEGER (VInt 2); NUnary INTEGER (VInt 3)]);
    (J "min(abc)", NFunc F_MIN [NField (Some (J "abc"))]);
    (J "false + 5", NArith (NUnary BOOLEAN (VBool false)) (Some (NUnary INTEGER (VInt 5))) ADD);
    (J "a > (10 + 20)", NCmp (NField (Some (J "a"))) (NArith (NUnary INTEGER (VInt 10)) (Some (NUnary INTEGER (VInt 20))) ADD) GREATER_THAN STRING);
    (J "created_date = 2023-03-05", NCmp (NField (Some (J "created_date"))) (NUnary DATE (VDate (Date 2023 3 5))) EQUALS DATE);
    (J "timestamp = 2023-03-05 14:30:00", NCmp (NField (Some (J "timestamp"))) (NUnary DATETIME (VDateTime (DateTime (Date 2023 3 5) 14 30 0 0))) EQUALS DATETIME);
    (J "start_date > 2023-01-01", NCmp (NField (Some (J "start_date"))) (NUnary DATE (VDate (Date 2023 1 1))) GREATER_THAN DATE);
    (J "last_login < 2023-12-31 23:59:59", NCmp (NField (Some (J "last_login"))) (NUnary DATETIME (VDateTime (DateTime (Date 2023 12 31) 23 59 59 0))) LESS_THAN DATETIME) ].

Example parser_suite_passes : map (fun c => parse_expression (fst c) None) parser_suite = map (fun c => Ok (snd c)) parser_suite.
Proof. vm_compute. reflexivity. Qed.
(** BooleanFilterBoolParserTest.java:429-433, testArithmeticArrayFunctionWithError *)
Example parser_failure : exists e, parse_expression (J "min abc") None = Err e.
Proof. eexists. vm_compute. reflexivity. Qed.
