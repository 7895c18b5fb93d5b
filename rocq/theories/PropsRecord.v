(** C66: the tree a text is parsed to, with the data types recorded in it. *)
From Verif Require Import Base Values Ops Funcs Ast Lexer Grammar Listener Api SpecLex SpecTight SpecGrammar SpecSyntax SpecText SpecRecord RecordFacts RecordText.
Local Open Scope nat_scope.

(** C66: a sentence of the grammar whose tree of tokens means an expression tree is parsed to exactly that expression tree. *)
Theorem C66_tree : forall s t n dflt, lex s = Ok (yield t) -> reads 0 t eof -> loose Nothing t -> denotes dflt t n -> recorded n ->
  parse_expression s dflt = Ok n.
Proof. exact loose_exact. Qed.
Print Assumptions C66_tree.

(** C66: there always is such an expression tree, and only one. *)
Theorem C66_unique : forall s t n0 dflt, lex s = Ok (yield t) -> reads 0 t eof -> loose Nothing t -> denotes dflt t n0 ->
  exists n, denotes dflt t n /\ recorded n /\ parse_expression s dflt = Ok n /\ forall n', denotes dflt t n' -> recorded n' -> n' = n.
Proof. exact loose_unique. Qed.
Print Assumptions C66_unique.

(** C66: the same for expressions of any size given as words in any layout. *)
Theorem C66_text : forall s ws n t dflt, written Nothing s ws n -> recorded n -> laid_out ws t -> parse_expression t dflt = Ok n.
Proof. exact layout_exact. Qed.
Print Assumptions C66_text.

(** C66: a text that is one operand, with any number of parentheses, is that field, or a literal of type STRING with the text as written (a
    quoted text without its quotes), whatever the type of the literal. *)
Theorem C66_operand : forall x m k s dflt, operand x m -> laid_out (nested k x) s -> parse_expression s dflt = Ok (word_tree x m).
Proof. exact operand_parsed. Qed.
Print Assumptions C66_operand.

(** C66: in the tree of any text at all, well-formed or not, a comparison whose right operand is a literal records the type of that literal. *)
Theorem C66_any_text : forall s dflt n, parse_expression s dflt = Ok n -> recorded_right n.
Proof. exact any_recorded. Qed.
Print Assumptions C66_any_text.

(** The clause with NOT IN: where the right operand is no literal and the text is none of those above, the type can be one that no operand has. *)
Example C66_case : written Nothing Logic typed_words typed_tree /\ recorded typed_tree /\ laid_out typed_words (J "(a >= 'x') AND (5<(b+1))") /\
  parse_expression (J "(a >= 'x') AND (5<(b+1))") None = Ok typed_tree /\
  (exists n, parse_expression (J "5 = f NOT IN (1) b") None = Ok (NCmp (NUnary INTEGER (VInt 5)) n EQUALS STRING)) /\
  laid_out (nested 2 (J "7")) (J "((7) )") /\ word_tree (J "7") (NUnary INTEGER (VInt 7)) = NUnary STRING (VStr (J "7")) /\ operand (J "7") (NUnary INTEGER (VInt 7)).
Proof. exact typed_case. Qed.
