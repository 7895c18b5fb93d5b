(** Specification: texts that are not sentences of the grammar. *)
From Verif Require Import Base Values Lexer Grammar SpecGrammar.

(** The tokens end with a literal (a number, a version, a date, a truth value, a quoted text) or with ')'. *)
Definition closing_kind (k : tkind) : Prop :=
  In k [T_RPAREN; T_INTEGER; T_DECIMAL; T_APP_VERSION; T_TRUE; T_FALSE; T_WORD; T_DATE; T_DATETIME].
Definition ends_operand (ts : list token) : Prop := exists us x, ts = us ++ [x] /\ closing_kind (kind x).

(** The tokens do not begin with an operator. *)
Definition no_operator_first (ts : list token) : Prop := forall x us, ts = x :: us -> level (kind x) = None.

(** The text's tokens are those of a sentence of the grammar. *)
Definition sentence (ts : list token) : Prop := exists t, yield t = ts /\ reads 0 t eof.

(** The exceptions with which parsing a text can fail. *)
Definition parse_failures : list exn := [InvalidExpression; NumberFormat; NullPointer; ClassCast; EmptyStack].

(** The fields a text with the tokens [ts] names: its field names, and the default field. *)
Definition names (ts : list token) (dflt : option jstr) (f : jstr) : Prop :=
  dflt = Some f \/ exists t, In t ts /\ kind t = T_FIELD /\ text t = f.
(** A literal (or the end of the text) used as a condition is taken for a field name. *)
Definition literal_names (ts : list token) (f : jstr) : Prop :=
  exists t dt v, In t (eof :: ts) /\ convert_value (text t) dt = Ok v /\ show v = f.

(** A condition with a list: f IN (...), f NOT IN (...), f CONTAINS_ALL (...), f CONTAINS_ANY (...). *)
Definition list_condition (t : ptree) : Prop :=
  (exists f neg it items, t = PIn f neg it items) \/ exists f op items, t = PArray f op items.
