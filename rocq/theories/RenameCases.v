(** Examples for RenameFacts.v. *)
From Verif Require Import Recover RecoverFacts.
From Verif Require Import Base JNum Values Ops Funcs Ast Eval Lexer Grammar Listener Api SpecPath SpecName SpecLex SpecGrammar SpecSyntax SpecText SpecRename
  LexSplit SyntaxFacts ParseFacts TextFacts NameFacts RenameFacts CompareWitness.

Lemma parsed_sentence s ts t : lex s = Ok ts -> parse_tokens ts = Ok t -> lex s = Ok (yield t) /\ reads 0 t eof.
Proof.
  intros L H. destruct (parse_tokens_sound ts t) as [Y RE]; [|exact H|subst; auto]. pose proof (lex_genuine _ _ L) as G. rewrite Forall_forall in *. intros x I. apply genuine_canonical, G, I.
Qed.
Definition case_text : jstr := J "(NOT (member) AND age >= 18) OR (MIN(b.c, age) = 3 OR tag IN ('a','b'))".
Definition case_data : data := [(J "age", VInt 20); (J "member", VBool false); (J "b", VMap [(J "c", VInt 3)]); (J "tag", VStr (J "x"))].
Definition case_text' : jstr := J "(NOT (user.m) AND user.years >= 18) OR (MIN(c, user.years) = 3 OR label IN ('a','b'))".
Definition case_data' : data := [(J "user", VMap [(J "years", VInt 20); (J "m", VBool false)]); (J "c", VInt 3); (J "label", VStr (J "x")); (J "age", VInt 1)].
Definition case_names : list (jstr * jstr) := [(J "age", J "user.years"); (J "member", J "user.m"); (J "tag", J "label"); (J "b.c", J "c")].
Lemma proper_case : proper_data case_data /\ proper_data case_data'.
Proof.
  assert (X : forall es : data, (fix ok (es : data) : Prop := match es with [] => True | (k, VMap e) :: r => NoDup (map fst e) /\ Forall (fun kv => match snd kv with VMap _ => False | _ => True end) e /\ ok r | _ :: r => ok r end) es ->
     NoDup (map fst es) -> proper_data es).
  { intros es H ND. apply proper_map; [exact ND|]. clear ND. induction es as [|[k v] es IH]; intros k' v' I; [contradiction|].
    assert (T : (fix ok (es : data) : Prop := match es with [] => True | (k, VMap e) :: r => NoDup (map fst e) /\ Forall (fun kv => match snd kv with VMap _ => False | _ => True end) e /\ ok r | _ :: r => ok r end) es) by (destruct v; tauto).
    destruct I as [I|I]; [|exact (IH T k' v' I)]. injection I as -> ->. destruct v'; try (apply proper_other; discriminate). destruct H as [N [F _]]. apply proper_map; [exact N|].
    intros a b J. rewrite Forall_forall in F. specialize (F _ J). cbn in F. destruct b; try contradiction; apply proper_other; discriminate. }
  assert (ND : forall l : list jstr, (fix nd (l : list jstr) : bool := match l with [] => true | a :: r => negb (existsb (jstr_eqb a) r) && nd r end) l = true -> NoDup l).
  { induction l as [|a l IH]; intros H; [constructor|]. apply andb_true_iff in H. destruct H as [H1 H2]. constructor; [|auto]. intros I.
    assert (Z : existsb (jstr_eqb a) l = true) by (apply existsb_exists; exists a; split; [exact I|apply CompareFacts.jstr_eqb_iff; reflexivity]). rewrite Z in H1. discriminate. }
  split; (apply X; [|apply ND; vm_compute; reflexivity]); unfold case_data, case_data';
    (split; [apply ND; vm_compute; reflexivity|split; [|exact Logic.I]]); repeat (apply Forall_cons; [exact Logic.I|]); apply Forall_nil.
Qed.
Lemma not_dots f : forallb (N.eqb (ch ".")) f = false -> forall n, f <> SpecName.dots n.
Proof.
  intros H n ->. assert (T : forallb (N.eqb (ch ".")) (SpecName.dots n) = true) by (apply forallb_forall; intros c I; apply repeat_spec in I; subst; reflexivity). rewrite T in H. discriminate.
Qed.
Lemma stands_by_value d d' f f' : proper_data d -> proper_data d' -> forallb (N.eqb (ch ".")) f = false -> forallb (N.eqb (ch ".")) f' = false ->
  get_value_from_map f d = get_value_from_map f' d' -> equals_ignore_case f (J "null") = equals_ignore_case f' (J "null") -> stands_for d d' f f'.
Proof.
  intros P P' N N' G Z. destruct (every_name f) as [[n X]|[ks L]]; [exfalso; apply (not_dots _ N _ X)|]. destruct (every_name f') as [[n X]|[ks' L']]; [exfalso; apply (not_dots _ N' _ X)|].
  split.
  - exists ks, ks'. split; [exact L|]. split; [exact L'|]. intros v. rewrite <- (ValuesFacts.get_path_found ks d v P (names_nonempty _ _ L)), <- (ValuesFacts.get_path_found ks' d' v P' (names_nonempty _ _ L')).
    unfold get_value_from_map in G. rewrite (names_split _ _ L), (names_split _ _ L') in G. rewrite G. reflexivity.
  - unfold equals_ignore_case in Z. change (to_lower (J "null")) with (J "null") in Z. rewrite <- !CompareFacts.jstr_eqb_iff, Z. reflexivity.
Qed.
Definition tree_of (s : jstr) : ptree := match lex s with Ok ts => match parse_tokens ts with Ok t => t | Err _ => PEps eof end | Err _ => PEps eof end.
Definition tokens_in (s : jstr) : list token := match lex s with Ok ts => ts | Err _ => [] end.
Definition renamed_b (d d' : data) (x x' : token) : bool :=
  if tkind_eq_dec (kind x) T_FIELD then
    if tkind_eq_dec (kind x') T_FIELD then
      negb (forallb (N.eqb (ch ".")) (text x)) && negb (forallb (N.eqb (ch ".")) (text x')) && Bool.eqb (equals_ignore_case (text x) (J "null")) (equals_ignore_case (text x') (J "null"))
    else false
  else if tkind_eq_dec (kind x') (kind x) then jstr_eqb (text x') (text x) else false.
Lemma renamed_check d d' x x' : proper_data d -> proper_data d' -> renamed_b d d' x x' = true -> (kind x = T_FIELD -> get_value_from_map (text x) d = get_value_from_map (text x') d') -> renamed d d' x x'.
Proof.
  intros P P' H G. unfold renamed_b in H. destruct (tkind_eq_dec (kind x) T_FIELD) as [K|K].
  - destruct (tkind_eq_dec (kind x') T_FIELD) as [K'|]; [|discriminate]. left. split; [exact K|]. split; [exact K'|]. apply andb_true_iff in H. destruct H as [H H3]. apply andb_true_iff in H. destruct H as [H1 H2].
    apply negb_true_iff in H1, H2. apply Bool.eqb_prop in H3. apply stands_by_value; auto.
  - right. split; [exact K|]. destruct (tkind_eq_dec (kind x') (kind x)) as [K'|]; [|discriminate]. apply CompareFacts.jstr_eqb_iff in H. destruct x, x'. cbn in *. subst. reflexivity.
Qed.
Lemma case_renamed : Forall2 (renamed case_data case_data') (yield (tree_of case_text)) (tokens_in case_text').
Proof.
  let l := eval vm_compute in (yield (tree_of case_text)) in change (yield (tree_of case_text)) with l.
  let l := eval vm_compute in (tokens_in case_text') in change (tokens_in case_text') with l.
  repeat (apply Forall2_cons; [apply renamed_check; [apply proper_case|apply proper_case|vm_compute; reflexivity|cbn [kind text]; intros K; try discriminate K; vm_compute; reflexivity]|]). apply Forall2_nil.
Qed.
Lemma case_sentence : lex case_text = Ok (yield (tree_of case_text)) /\ reads 0 (tree_of case_text) eof.
Proof. apply (parsed_sentence case_text (tokens_in case_text)); vm_compute; reflexivity. Qed.
Lemma case_shape : nots_named (tree_of case_text) /\ not_literal (tree_of case_text).
Proof.
  let t := eval vm_compute in (tree_of case_text) in change (tree_of case_text) with t. split.
  - cbn [nots_named map fold_right lone]. repeat split. intros x H. injection H as <-. cbn. tauto.
  - intros x H. discriminate H.
Qed.
Definition nested_case_text : jstr := J "( NOT ( q.member ) AND q.age >= 18 ) OR ( MIN ( q.b.c , q.age ) = 3 OR q.tag IN ( 'a' , 'b' ) )".
Lemma nested_case : a_key (J "q") /\ (forall x, In x (yield (tree_of case_text)) -> kind x = T_FIELD -> plain_name (text x)) /\
  unwords (map text (map (under_token (J "q")) (yield (tree_of case_text)))) = nested_case_text.
Proof.
  split; [|split].
  - split; [repeat constructor|]. apply Exists_cons_hd. reflexivity.
  - let l := eval vm_compute in (yield (tree_of case_text)) in change (yield (tree_of case_text)) with l. intros x I K. cbn [In] in I.
    repeat (destruct I as [<-|I]; [try discriminate K; (split; [apply not_dots; vm_compute; reflexivity|vm_compute; discriminate])|]). contradiction.
  - vm_compute. reflexivity.
Qed.
(** What the hypotheses exclude *)
Lemma literal_alone E : let d := [(J "a", VBool true)] in
  evaluate_boolean E (J "'a'") d None = Ok true /\ evaluate_boolean E (J "'a'") (nested (J "q") d) None = Err DataNotFound /\
  evaluate_boolean E (J "NOT 'a'") d None = Ok false /\ evaluate_boolean E (J "NOT 'a'") (nested (J "q") d) None = Err DataNotFound.
Proof. split; [|split; [|split]]; vm_compute; reflexivity. Qed.
Lemma null_word E : let d := [(J "a", VInt 1)] in
  evaluate_boolean E (J "a != null") d None = Ok true /\ evaluate_boolean E (J "q.a != q.null") (nested (J "q") d) None = Err NoSuchElement.
Proof. split; vm_compute; reflexivity. Qed.
Lemma case_outcomes : lex case_text' = Ok (tokens_in case_text') /\ evaluate_boolean witness_env case_text case_data None = Ok true /\ evaluate_boolean witness_env case_text' case_data' None = Ok true /\
  evaluate_boolean witness_env nested_case_text (nested (J "q") case_data) None = Ok true.
Proof. split; [|split; [|split]]; vm_compute; reflexivity. Qed.
