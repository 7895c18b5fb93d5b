(** C73: how large the tree of an expression is. *)
From Verif Require Import Base Values Ops Funcs Ast Lexer Grammar Listener Api SpecLex SpecTight SpecSyntax SpecText SpecSize SizeFacts SizeText OddCases.

(** C73: the tree of an expression written as such has at most as many objects as the text has words. *)
Theorem C73_written : forall s ws n t dflt, written Nothing s ws n -> laid_out ws t -> exists n', parse_expression t dflt = Ok n' /\ objects n' <= length ws.
Proof. exact written_size. Qed.
Print Assumptions C73_written.

(** C73: for any text at all, well-formed or not, the tree is at most quadratic in the words, and so in the characters. *)
Theorem C73_any_text : forall s dflt n k, parse_expression s dflt = Ok n -> words_in s k -> objects n <= (2 * k + 1) * (2 * k + 1).
Proof. exact any_size. Qed.
Print Assumptions C73_any_text.
Theorem C73_words : forall s k, words_in s k -> k <= length s.
Proof. exact words_characters. Qed.
Print Assumptions C73_words.
Theorem C73_depth : forall n, depth n <= objects n.
Proof. exact depth_objects. Qed.
Print Assumptions C73_depth.

(** C73, refuted as a linear bound: each further "= 1" at the end of "x = (y + 1) = 1 = 1" puts one more copy of the whole chain on top of the tree
    built so far, so that even the depth, with which the evaluators recurse, grows with the square of the length. *)
Theorem C73_chain : forall k s dflt, laid_out (chained k) s -> exists n, parse_expression s dflt = Ok n /\ 2 * depth n = k * k + 3 * k + 6.
Proof. exact chain_parsed. Qed.
Print Assumptions C73_chain.
Theorem C73_linear_refuted : forall c, exists s n, parse_expression s None = Ok n /\ c * length s < depth n.
Proof. exact deep_refuted. Qed.
Print Assumptions C73_linear_refuted.

Example C73_case :
  laid_out (chained 2) (J "x=(y+1)=1 = 1") /\ words_in (J "x=(y+1)=1 = 1") 11 /\
  (exists n, parse_expression (J "x=(y+1)=1 = 1") None = Ok n /\ depth n = 8 /\ objects n = 15) /\
  (exists n, parse_expression (J "(x=1) AND (y IN (1, 2))") None = Ok n /\ objects n = 7 /\ depth n = 3) /\ words_in (J "(x=1) AND (y IN (1, 2))") 15.
Proof.
  split; [laidout [(J "x", []); (J "=", []); (J "(", []); (J "y", []); (J "+", []); (J "1", []); (J ")", []); (J "=", []); (J "1", J " "); (J "=", J " "); (J "1", [])]|].
  split; [eexists; split; [vm_compute; reflexivity|reflexivity]|].
  split; [eexists; split; [vm_compute; reflexivity|split; reflexivity]|].
  split; [eexists; split; [vm_compute; reflexivity|split; reflexivity]|].
  eexists; split; [vm_compute; reflexivity|reflexivity].
Qed.
