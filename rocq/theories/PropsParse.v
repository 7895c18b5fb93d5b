(** C35: the grammar. *)
From Verif Require Import Base Lexer Grammar Recover SpecGrammar ParseFacts RecoverFacts ParseShapes.

(** C35: every tree that respects the levels is found from its tokens. *)
Theorem C35_tree_found : forall t, reads 0 t eof -> parse_any (yield t) = Ok t.
Proof. exact parse_any_complete. Qed.
Print Assumptions C35_tree_found.

(** C35: the tokens determine it. *)
Theorem C35_tree_unique : forall t t', reads 0 t eof -> reads 0 t' eof -> yield t = yield t' -> t = t'.
Proof. exact reads_unique. Qed.
Print Assumptions C35_tree_unique.

(** C35: a text either has such a tree, with exactly its tokens, and it is what the parser builds, or there is none. *)
Theorem C35_sentence_or_not : forall s ts, lex s = Ok ts ->
  (exists t, parse_any ts = Ok t /\ yield t = ts /\ reads 0 t eof) \/ (forall t, yield t = ts -> ~ reads 0 t eof).
Proof. exact parse_decided. Qed.
Print Assumptions C35_sentence_or_not.

(** C35: of two operators the second takes the operand between them exactly if it is strictly tighter. *)
Theorem C35_two_operators : forall a o1 b o2 c m1 m2, operand_kind (kind a) -> operand_kind (kind b) -> operand_kind (kind c) ->
  level (kind o1) = Some m1 -> level (kind o2) = Some m2 ->
  parse_any [a; o1; b; o2; c] =
    Ok (if m1 <? m2 then join (PTypes a) o1 (join (PTypes b) o2 (PTypes c)) else join (join (PTypes a) o1 (PTypes b)) o2 (PTypes c)).
Proof. exact two_operators. Qed.
Print Assumptions C35_two_operators.

(** C35: a chain of any length of operators of one level is grouped from the left. *)
Theorem C35_chains_group_left : forall m x rest, operand_kind (kind x) ->
  Forall (fun oy => level (kind (fst oy)) = Some m /\ operand_kind (kind (snd oy))) rest ->
  parse_any (x :: chain_tokens rest) = Ok (left_chain (PTypes x) rest).
Proof. exact chains_group_left. Qed.
Print Assumptions C35_chains_group_left.

(** C35: what stands in parentheses is one tree, whatever stands around it. *)
Theorem C35_parentheses_kept : forall t, reads 0 t rparen -> forall n next, reads n (PParen t) next.
Proof. exact parens_kept. Qed.
Print Assumptions C35_parentheses_kept.

Example C35_case :
  lex (J "NOT (a - b + c = 2) AND d IN (1, e)") =
    Ok [Tok T_NOT (J "NOT"); lparen; F (J "a"); minus; F (J "b"); Tok T_ADD (J "+"); F (J "c"); Tok T_EQ (J "="); Tok T_INTEGER (J "2"); rparen;
        Tok T_AND (J "AND"); F (J "d"); Tok T_IN (J "IN"); lparen; Tok T_INTEGER (J "1"); comma; F (J "e"); rparen] /\
  reads 0 (PBin (PNot (Tok T_NOT (J "NOT")) (PParen (PArith (PTypes (F (J "a"))) minus (PArith (PTypes (F (J "b"))) (Tok T_ADD (J "+"))
     (PCmp (PTypes (F (J "c"))) (Tok T_EQ (J "=")) (PTypes (Tok T_INTEGER (J "2")))))))) (Tok T_AND (J "AND"))
     (PIn (F (J "d")) None (Tok T_IN (J "IN")) [PTypes (Tok T_INTEGER (J "1")); PTypes (F (J "e"))])) eof /\
  (forall t, yield t = [F (J "a"); F (J "b")] -> ~ reads 0 t eof) /\ lex (J "a b") = Ok [F (J "a"); F (J "b")].
Proof. exact parse_case. Qed.
