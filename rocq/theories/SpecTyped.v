(** Specification of the type a value is taken for. *)
From Coq Require Import QArith.
From Verif Require Import Base JNum BigDec Dates Values SpecDate.

(** Texts that are dates or date-times count as such; lists, maps, arrays, foreign objects and null count as texts. *)
Inductive taken_for : jval -> dtype -> Prop :=
| taken_bool b : taken_for (VBool b) BOOLEAN
| taken_int z : taken_for (VInt z) INTEGER
| taken_long z : taken_for (VLong z) LONG
| taken_float dbl t : taken_for (VFloat dbl t) DECIMAL
| taken_decimal d : taken_for (VDec d) DECIMAL
| taken_version t : taken_for (VVer t) VERSION
| taken_date d : taken_for (VDate d) DATE
| taken_datetime x : taken_for (VDateTime x) DATETIME
| taken_date_text s a : written_date s a -> taken_for (VStr s) DATE
| taken_datetime_text s x : written_datetime s x -> taken_for (VStr s) DATETIME
| taken_text s : (forall a, ~ written_date s a) -> (forall x, ~ written_datetime s x) -> taken_for (VStr s) STRING
| taken_list l items : taken_for (VColl l items) STRING
| taken_array items t : taken_for (VArr items t) STRING
| taken_map es : taken_for (VMap es) STRING
| taken_other t : taken_for (VOther t) STRING
| taken_null : taken_for VNull STRING.
