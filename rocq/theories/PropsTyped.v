(** C67: the types of which the statements about operators and functions speak. *)
From Verif Require Import Base JNum BigDec Dates Values SpecDate SpecTyped TypedFacts.
Local Open Scope Z_scope.

(** C67: the type a value is taken for. *)
Theorem C67_types : forall v t, get_data_type v = t <-> taken_for v t.
Proof. exact taken. Qed.
Print Assumptions C67_types.

Example C67_types_case : map get_data_type [VStr (J "2024-02-31"); VStr (J "2024-02-29 10:00"); VStr (J "2024-02-29 10:00:00"); VStr (J "12"); VStr (J "true"); VLong 3; VFloat true (J "NaN"); VColl true [VInt 1]; VNull] =
  [DATE; STRING; DATETIME; STRING; STRING; LONG; DECIMAL; STRING; STRING].
Proof. vm_compute. reflexivity. Qed.
