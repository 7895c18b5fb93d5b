(** Consequences of the characterisation of the parser. *)
From Verif Require Import Base Lexer Grammar SpecLex SpecGrammar SpecSyntax LexFacts LexWords SyntaxFacts ParseFuel ParseFacts Recover RecoverFacts.

Lemma join_infix l op r : level (kind op) <> None -> join l op r = mk_infix l op r.
Proof. unfold join, mk_infix. destruct (kind op); cbn; congruence. Qed.
Lemma reads_join n m l op r next : level (kind op) = Some m -> n <= m -> reads m l op -> reads (S m) r next -> reads n (join l op r) next.
Proof. intros L Le Rl Rr. rewrite join_infix by congruence. eapply reads_infix; eassumption. Qed.
Lemma yield_join l op r : level (kind op) <> None -> yield (join l op r) = yield l ++ op :: yield r.
Proof. intros H. rewrite join_infix by exact H. apply yield_infix. Qed.

Lemma lex_parse_sound s ts t : lex s = Ok ts -> parse_tokens ts = Ok t -> yield t = ts /\ reads 0 t eof.
Proof. intros L P. apply parse_tokens_sound; [exact (lex_canonical s ts L)|exact P]. Qed.
Lemma parse_decided s ts : lex s = Ok ts ->
  (exists t, parse_any ts = Ok t /\ yield t = ts /\ reads 0 t eof) \/ (forall t, yield t = ts -> ~ reads 0 t eof).
Proof.
  intros L. destruct (parse_decides ts) as [[t P]|P].
  - left. exists t. split; [apply parse_any_sentence; exact P|]. apply (lex_parse_sound s ts t L P).
  - right. intros t Y R. apply parse_tokens_complete in R. rewrite Y in R. congruence.
Qed.

Lemma two_operators a o1 b o2 c m1 m2 : operand_kind (kind a) -> operand_kind (kind b) -> operand_kind (kind c) ->
  level (kind o1) = Some m1 -> level (kind o2) = Some m2 ->
  parse_any [a; o1; b; o2; c] = Ok (if m1 <? m2 then join (PTypes a) o1 (join (PTypes b) o2 (PTypes c)) else join (join (PTypes a) o1 (PTypes b)) o2 (PTypes c)).
Proof.
  intros A B C L1 L2. assert (N1 : level (kind o1) <> None) by congruence. assert (N2 : level (kind o2) <> None) by congruence.
  assert (X : forall t, yield t = [a; o1; b; o2; c] -> reads 0 t eof -> parse_any [a; o1; b; o2; c] = Ok t).
  { intros t Y R. apply parse_any_complete in R. rewrite Y in R. exact R. }
  destruct (Nat.ltb_spec m1 m2); apply X.
  - rewrite !yield_join by assumption. reflexivity.
  - eapply reads_join; [exact L1|lia|apply r_operand; assumption|]. eapply reads_join; [exact L2|lia|apply r_operand; assumption|apply r_operand; assumption].
  - rewrite !yield_join by assumption. reflexivity.
  - eapply reads_join; [exact L2|lia| |apply r_operand; assumption]. eapply reads_join; [exact L1|lia|apply r_operand; assumption|apply r_operand; assumption].
Qed.

Lemma chain_reads m rest : forall x next, (forall op, level (kind op) = Some m -> reads m x op) -> (rest = [] -> reads 0 x next) ->
  Forall (fun oy => level (kind (fst oy)) = Some m /\ operand_kind (kind (snd oy))) rest ->
  reads 0 (left_chain x rest) next /\ yield (left_chain x rest) = yield x ++ chain_tokens rest.
Proof.
  induction rest as [|[o y] rest IH]; intros x next Rx R0 F; cbn [left_chain fold_left chain_tokens map concat].
  - rewrite app_nil_r. auto.
  - inversion F as [|? ? [L O] F']; subst. cbn [fst snd] in *.
    destruct (IH (join x o (PTypes y)) next) as [R Y]; [| |exact F'|].
    + intros op Lop. eapply reads_join; [exact L|lia|apply Rx; exact L|apply r_operand; exact O].
    + intros _. eapply reads_join; [exact L|lia|apply Rx; exact L|apply r_operand; exact O].
    + split; [exact R|]. unfold left_chain in Y. cbn [fst snd]. rewrite Y. rewrite yield_join by congruence. cbn [yield]. unfold chain_tokens. cbn [map concat fst snd]. rewrite <- !app_assoc. reflexivity.
Qed.
Lemma chains_group_left m x rest : operand_kind (kind x) ->
  Forall (fun oy => level (kind (fst oy)) = Some m /\ operand_kind (kind (snd oy))) rest ->
  parse_any (x :: chain_tokens rest) = Ok (left_chain (PTypes x) rest).
Proof.
  intros O F. destruct (chain_reads m rest (PTypes x) eof) as [R Y]; [intros; apply r_operand; exact O|intros; apply r_operand; exact O|exact F|].
  apply parse_any_complete in R. rewrite Y in R. exact R.
Qed.
Lemma parens_kept t : reads 0 t rparen -> forall n next, reads n (PParen t) next.
Proof. intros; constructor; assumption. Qed.

Definition F (w : jstr) := Tok T_FIELD w.
Lemma parse_case :
  lex (J "NOT (a - b + c = 2) AND d IN (1, e)") =
    Ok [Tok T_NOT (J "NOT"); lparen; F (J "a"); minus; F (J "b"); Tok T_ADD (J "+"); F (J "c"); Tok T_EQ (J "="); Tok T_INTEGER (J "2"); rparen;
        Tok T_AND (J "AND"); F (J "d"); Tok T_IN (J "IN"); lparen; Tok T_INTEGER (J "1"); comma; F (J "e"); rparen] /\
  reads 0 (PBin (PNot (Tok T_NOT (J "NOT")) (PParen (PArith (PTypes (F (J "a"))) minus (PArith (PTypes (F (J "b"))) (Tok T_ADD (J "+"))
     (PCmp (PTypes (F (J "c"))) (Tok T_EQ (J "=")) (PTypes (Tok T_INTEGER (J "2")))))))) (Tok T_AND (J "AND"))
     (PIn (F (J "d")) None (Tok T_IN (J "IN")) [PTypes (Tok T_INTEGER (J "1")); PTypes (F (J "e"))])) eof /\
  (forall t, yield t = [F (J "a"); F (J "b")] -> ~ reads 0 t eof) /\ lex (J "a b") = Ok [F (J "a"); F (J "b")].
Proof.
  assert (L : lex (J "NOT (a - b + c = 2) AND d IN (1, e)") =
    Ok [Tok T_NOT (J "NOT"); lparen; F (J "a"); minus; F (J "b"); Tok T_ADD (J "+"); F (J "c"); Tok T_EQ (J "="); Tok T_INTEGER (J "2"); rparen;
        Tok T_AND (J "AND"); F (J "d"); Tok T_IN (J "IN"); lparen; Tok T_INTEGER (J "1"); comma; F (J "e"); rparen]) by (vm_compute; reflexivity).
  split; [exact L|]. split; [|split; [|vm_compute; reflexivity]].
  2:{ intros t Y R. apply parse_tokens_complete in R. rewrite Y in R. vm_compute in R. discriminate R. }
  eapply (fun t P => proj2 (lex_parse_sound _ _ t L P)). vm_compute. reflexivity.
Qed.
