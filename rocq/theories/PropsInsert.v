(** Properties: values written into the text of an expression. *)
From Coq Require Import QArith.
From Verif Require Import RecoverFacts SpecRecover AnyText.
From Verif Require Import Base JNum BigDec Dates Values Ops Ast Eval Lexer Api SpecNum SpecBool SpecCompare SpecPath SpecArith SpecLex SpecDate SpecMixed SpecSyntax SpecInsert
  LexCases TextCases CompareWitness InsertFacts.
Local Open Scope Z_scope.

(** C69: a number whose text has no exponent. *)
Theorem C69_number : forall E d dflt x m sym op v p u q b, operand x m -> In (sym, op) comparators -> yields E d m v -> number v p -> plain_number u q ->
  question op p q = Some b -> evaluate_boolean E (comparison_text x sym (show u)) d dflt = Ok b.
Proof. exact number_inserted. Qed.
Print Assumptions C69_number.

(** C69: the others.  Integers beyond the range of a long, and the smallest long itself, are rejected. *)
Theorem C69_huge_refuted : forall E d dflt x m sym op u q, operand x m -> In (sym, op) comparators -> number u q -> ~ scientific (show u) -> ~ In (ch ".") (show u) ->
  (q <= - inject_Z 9223372036854775808 \/ inject_Z 9223372036854775808 <= q)%Q -> evaluate_boolean E (comparison_text x sym (show u)) d dflt = Err NumberFormat.
Proof. exact huge_inserted. Qed.
Print Assumptions C69_huge_refuted.
(** C69: a BigDecimal printed with an exponent makes the condition false, whatever the operator and the data. *)
Theorem C69_scientific_decimal_refuted : forall E d dflt x m sym op b, operand x m -> In (sym, op) comparators -> -2147483648 <= scale b <= 2147483647 ->
  Z.of_nat (length (show (VDec b))) <= 2147483647 -> scientific (show (VDec b)) -> evaluate_boolean E (comparison_text x sym (show (VDec b))) d dflt = Ok false.
Proof. exact decimal_scientific_false. Qed.
Print Assumptions C69_scientific_decimal_refuted.
(** C69: so does a double or float printed with a negative exponent; with another exponent it is taken for a field of that name. *)
Theorem C69_small_double_refuted : forall E d dflt x m sym op (neg : bool) ip fp e, operand x m -> In (sym, op) comparators -> digits ip -> digits fp -> -1000 <= e < 0 ->
  evaluate_boolean E (comparison_text x sym ((if neg then J "-" else []) ++ ip ++ J "." ++ fp ++ J "E" ++ print_Z e)) d dflt = Ok false.
Proof. intros E d dflt x m sym op [] ip fp e; [exact (float_scientific_false E d dflt x m sym op true ip fp e)|exact (float_scientific_false E d dflt x m sym op false ip fp e)]. Qed.
Print Assumptions C69_small_double_refuted.
Theorem C69_large_double_refuted : forall E d dflt x m sym op ip fp e, operand x m -> In (sym, op) comparators -> digits ip -> digits fp -> 0 <= e ->
  let t := ip ++ J "." ++ fp ++ J "E" ++ print_Z e in
  evaluate_boolean E (comparison_text x sym t) d dflt = bool_eval E d (NCmp m (NField (Some t)) op STRING) /\
  evaluate_boolean E (comparison_text x sym (ch "-" :: t)) d dflt = bool_eval E d (NCmp m (NArith (NField (Some t)) None UNARY) op STRING).
Proof. exact float_scientific_field. Qed.
Print Assumptions C69_large_double_refuted.

(** C69: booleans. *)
Theorem C69_boolean : forall E d dflt x m a b, operand x m -> yields E d m (VBool a) ->
  evaluate_boolean E (comparison_text x (J "=") (show (VBool b))) d dflt = Ok (Bool.eqb a b) /\
  evaluate_boolean E (comparison_text x (J "!=") (show (VBool b))) d dflt = Ok (negb (Bool.eqb a b)).
Proof. exact boolean_inserted. Qed.
Print Assumptions C69_boolean.

(** C69: dates. *)
Theorem C69_date : forall E d dflt x m sym op v a b k r, operand x m -> In (sym, op) comparators -> yields E d m v -> denotes_date v b -> calendar a -> 1 <= year a <= 9999 ->
  days_later k b a -> accepts op (0 ?= k) = Some r -> evaluate_boolean E (comparison_text x sym (show (VDate a))) d dflt = Ok r.
Proof. exact date_inserted. Qed.
Print Assumptions C69_date.
(** C69: of a date and time only the date is read. *)
Theorem C69_datetime_refuted : forall E d dflt x m sym op t, operand x m -> In (sym, op) comparators -> calendar (dt_date t) -> 1 <= year (dt_date t) <= 9999 ->
  evaluate_boolean E (comparison_text x sym (show (VDateTime t))) d dflt = evaluate_boolean E (comparison_text x sym (show (VDate (dt_date t)))) d dflt.
Proof. exact datetime_cut. Qed.
Print Assumptions C69_datetime_refuted.

(** C69: texts between quotes that do not occur in them. *)
Theorem C69_text : forall E d dflt x m sym op q s w c r, operand x m -> In (sym, op) comparators -> q = ch "'" \/ q = 34%N -> ~ In q s -> yields E d m (VStr w) ->
  w = s /\ c = Eq \/ of_kind Texts (VStr w) /\ of_kind Texts (VStr s) /\ text_order w s c -> accepts op c = Some r ->
  evaluate_boolean E (comparison_text x sym (q :: s ++ [q])) d dflt = Ok r.
Proof. exact text_inserted. Qed.
Print Assumptions C69_text.
(** C69: a text with the quote inside is cut there and the rest is ignored, unless the rest begins with an operator. *)
Theorem C69_quote_refuted : forall E d dflt x m sym op q c1 c2, operand x m -> In (sym, op) comparators -> q = ch "'" \/ q = 34%N -> ~ In q c1 -> no_operator_text (c2 ++ [q]) ->
  evaluate_boolean E (comparison_text x sym (q :: (c1 ++ q :: c2) ++ [q])) d dflt = evaluate_boolean E (comparison_text x sym (q :: c1 ++ [q])) d dflt.
Proof. exact quote_cut. Qed.
Print Assumptions C69_quote_refuted.
Theorem C69_quote_letter : forall c r, word_char c = true -> ~ In c [ch "a"; ch "A"; ch "o"; ch "O"] -> no_operator_text (c :: r).
Proof. exact word_first. Qed.
Print Assumptions C69_quote_letter.

(** C69: anywhere in an expression, such a text stands for the value (see C37 and C53 for what may be built from operands). *)
Theorem C69_literal : forall u t, insertable u t -> exists ty w, operand t (NUnary ty w) /\ same_value u w.
Proof. exact insertable_operand. Qed.
Print Assumptions C69_literal.

(** Cases: numbers that are read back and numbers that are not, a name with an apostrophe, a time that is lost. *)
Example C69_case :
  let holds v t := evaluate_boolean witness_env (comparison_text (J "f") (J "=") t) [(J "f", v)] None in
  plain_number (VDec (BD (-15) 1)) (-15 # 10) /\ show (VDec (BD (-15) 1)) = J "-1.5" /\ holds (VDec (BD (-15) 1)) (J "-1.5") = Ok true /\
  number (VLong (-9223372036854775808)) (-9223372036854775808 # 1) /\ holds (VLong (-9223372036854775808)) (show (VLong (-9223372036854775808))) = Err NumberFormat /\
  show (VDec (BD 123 (-1))) = J "1.23E+3" /\ holds (VDec (BD 123 (-1))) (show (VDec (BD 123 (-1)))) = Ok false /\
  show (VDec (BD 123 10)) = J "1.23E-8" /\ holds (VDec (BD 123 10)) (show (VDec (BD 123 10))) = Ok false /\
  holds (VDec (BD 12300 1)) (J "1230.0") = Ok true /\
  holds (VFloat true (J "1.0E7")) (J "1.0E7") = Err NoSuchElement /\ holds (VFloat true (J "1.0E-4")) (J "1.0E-4") = Ok false /\
  holds (VBool false) (J "false") = Ok true /\
  calendar (Date 2020 1 31) /\ show (VDate (Date 2020 1 31)) = J "2020-01-31" /\ holds (VDate (Date 2020 1 31)) (J "2020-01-31") = Ok true /\
  holds (VDate (Date 12020 1 31)) (show (VDate (Date 12020 1 31))) = Ok false /\
  show (VDateTime (DateTime (Date 2020 1 31) 10 15 0 0)) = J "2020-01-31T10:15" /\
  holds (VDate (Date 2020 1 31)) (J "2020-01-31T10:15") = Ok true /\ holds (VDateTime (DateTime (Date 2020 1 31) 10 15 0 0)) (J "2020-01-31T10:15") = Err InvalidDataType /\
  holds (VStr (J "O'Brien")) (J "'O'Brien'") = Ok false /\ holds (VStr (J "O")) (J "'O'Brien'") = Ok true /\ holds (VStr (J "O'Brien")) (J """O'Brien""") = Ok true /\
  no_operator_text (J "Brien'") /\ insertable (VStr (J "O'Brien")) (J """O'Brien""") /\ operand (J "f") (NField (Some (J "f"))).
Proof.
  cbv zeta. split; [split; [apply number_dec; reflexivity|]; split; [vm_compute; intuition discriminate|left; vm_compute; tauto]|].
  split; [reflexivity|]. split; [vm_compute; reflexivity|]. split; [apply number_long; [lia|reflexivity]|].
  do 9 (split; [vm_compute; reflexivity|]).
  split; [exists 31; split; [apply days31; cbn; tauto|cbn; lia]|].
  do 9 (split; [vm_compute; reflexivity|]).
  split; [apply C69_quote_letter; [reflexivity|cbn; intuition discriminate]|].
  split; [apply (i_text 34%N (J "O'Brien")); [auto|cbn; intuition discriminate]|]. apply o_field. field_name_tac.
Qed.
