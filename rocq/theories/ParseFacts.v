(** The parser builds exactly the trees of the specification. *)
From Verif Require Import Base Lexer Grammar SpecGrammar ParseFuel.

Scheme reads_ind' := Minimality for reads Sort Prop
  with reads_items_ind' := Minimality for reads_items Sort Prop.
Combined Scheme reads_mut from reads_ind', reads_items_ind'.

(** The specification's levels and the generated parser's precedences order the operators alike. *)
Definition same (n p : nat) : Prop :=
  forall k m q, level k = Some m -> infix_prec k = Some q -> (n <= m <-> p <= q).
Lemma same_0 : same 0 0.
Proof. intros k m q _ _. lia. Qed.
Lemma same_neg : same negation_level neg_prec.
Proof. unfold same, negation_level, neg_prec. intros k m q A B; destruct k; cbn in A, B; try discriminate; injection A as <-; injection B as <-; lia. Qed.
Lemma same_not : same not_level not_prec.
Proof. unfold same, not_level, not_prec. intros k m q A B; destruct k; cbn in A, B; try discriminate; injection A as <-; injection B as <-; lia. Qed.
Lemma same_next k m q : level k = Some m -> infix_prec k = Some q -> same (S m) (S q).
Proof.
  unfold same; intros A B k' m' q' A' B'.
  destruct k; cbn in A, B; try discriminate; injection A as <-; injection B as <-;
  destruct k'; cbn in A', B'; try discriminate; injection A' as <-; injection B' as <-; lia.
Qed.
Lemma level_prec k : level k = None <-> infix_prec k = None.
Proof. destruct k; cbn; split; congruence. Qed.
Lemma prec_level k q : infix_prec k = Some q -> exists m, level k = Some m.
Proof. destruct k; cbn; intro H; try discriminate; eauto. Qed.

Definition top (t : ptree) : option nat :=
  match t with PCmp _ op _ | PArith _ op _ | PBin _ op _ => level (kind op) | _ => None end.
Definition tight (t : ptree) (next : token) : Prop :=
  forall m m', top t = Some m' -> level (kind next) = Some m -> m <= m'.
Definition stops (n : nat) (next : token) : Prop := forall m, level (kind next) = Some m -> m < n.

Lemma reads_infix n m l op r next :
  level (kind op) = Some m -> n <= m -> reads m l op -> reads (S m) r next -> reads n (mk_infix l op r) next.
Proof.
  intros L Le Rl Rr. unfold mk_infix.
  destruct (kind op) eqn:K; try discriminate L;
    first [ eapply r_cmp; [rewrite K; cbn; tauto| rewrite K; exact L | exact Le | exact Rl | exact Rr]
          | eapply r_bin; [rewrite K; cbn; tauto| rewrite K; exact L | exact Le | exact Rl | exact Rr]
          | eapply r_arith; [rewrite K; cbn; tauto| rewrite K; exact L | exact Le | exact Rl | exact Rr] ].
Qed.
Lemma top_infix l op r : top (mk_infix l op r) = level (kind op).
Proof. unfold mk_infix; destruct (kind op) eqn:K; cbn [top]; rewrite K; reflexivity. Qed.
Lemma yield_infix l op r : yield (mk_infix l op r) = yield l ++ op :: yield r.
Proof. unfold mk_infix; destruct (kind op); reflexivity. Qed.
Lemma reads_raise n m t next : reads n t next -> tight t next -> level (kind next) = Some m -> reads m t next.
Proof.
  intros R T L. unfold tight in T.
  inversion R; subst; try (constructor; assumption);
    assert (m <= m0) by (apply T with (2 := L); cbn [top]; assumption);
    [eapply r_cmp|eapply r_arith|eapply r_bin]; eassumption.
Qed.

(** Token lists as the parser gets them *)
Definition input (ts : list token) : Prop := exists us, ts = us ++ [eof] /\ Forall canonical us.
Lemma input_cons t ts : input (t :: ts) -> (t = eof /\ ts = []) \/ (canonical t /\ input ts).
Proof.
  intros [us [E C]]. destruct us as [|u us]; cbn in E.
  - injection E as -> ->. left; auto.
  - injection E as -> ->. inversion C; subst. right. split; [assumption|]. exists us; auto.
Qed.
Lemma input_proper t ts : input (t :: ts) -> kind t <> T_EOF -> canonical t /\ input ts.
Proof. intros I K. destruct (input_cons _ _ I) as [[-> _]|?]; [contradiction K; reflexivity|assumption]. Qed.
Lemma input_nil : ~ input [].
Proof. intros [us [E _]]. destruct us; discriminate. Qed.

Fixpoint sep_yield (l : list ptree) : list token :=
  match l with [] => [] | [i] => yield i | i :: l' => yield i ++ comma :: sep_yield l' end.
Lemma yield_func fn items : yield (PFunc fn items) = fn :: lparen :: sep_yield items ++ [rparen].
Proof. reflexivity. Qed.
Lemma yield_in f neg it items :
  yield (PIn f neg it items) = f :: match neg with Some n => [n] | None => [] end ++ it :: lparen :: sep_yield items ++ [rparen].
Proof. reflexivity. Qed.
Lemma yield_array f op items : yield (PArray f op items) = f :: op :: lparen :: sep_yield items ++ [rparen].
Proof. reflexivity. Qed.
Lemma sep_yield_cons i l : l <> [] -> sep_yield (i :: l) = yield i ++ comma :: sep_yield l.
Proof. destruct l; [congruence|reflexivity]. Qed.
Lemma reads_items_nonempty l : reads_items l -> l <> [].
Proof. destruct 1; discriminate. Qed.

Lemma expect_ok k ts t rest : expect_tok k ts = Ok (t, rest) -> ts = t :: rest /\ kind t = k.
Proof.
  destruct ts as [|x ts]; cbn; [discriminate|]. unfold tkind_eqb. destruct (tkind_eq_dec (kind x) k); [|discriminate].
  intro E; injection E as -> ->. auto.
Qed.
Lemma expect_hit k t rest : kind t = k -> expect_tok k (t :: rest) = Ok (t, rest).
Proof. intros <-. cbn. unfold tkind_eqb. destruct (tkind_eq_dec _ _); [reflexivity|congruence]. Qed.

Lemma bind_ok A B (a : res A) (k : A -> res B) y : bind a k = Ok y -> exists x, a = Ok x /\ k x = Ok y.
Proof. destruct a; cbn; [eauto|discriminate]. Qed.

(** What a successful call of expression(p) has read *)
Definition read_ok (n : nat) (t : ptree) (rest : list token) : Prop :=
  input rest /\ forall next rest', rest = next :: rest' -> reads n t next /\ tight t next.
Definition list_ok (ts : list token) (items : list ptree) (rest : list token) : Prop :=
  ts = lparen :: sep_yield items ++ rparen :: rest /\ reads_items items /\ input rest.

Lemma tight_prim t next : top t = None -> tight t next.
Proof. intros E m m' H. congruence. Qed.

Lemma function_kind_iff k : is_function k = true <-> function_kind k.
Proof. destruct k; cbn; split; intro H; try discriminate; try tauto; decompose [or] H; try discriminate; contradiction. Qed.
Lemma operand_kind_iff k : is_type k = true <-> operand_kind k.
Proof. destruct k; cbn; split; intro H; try discriminate; try tauto; decompose [or] H; try discriminate; contradiction. Qed.
Lemma number_kind_iff k : is_numeric_type k = true <-> number_kind k.
Proof. destruct k; cbn; split; intro H; try discriminate; try tauto; decompose [or] H; try discriminate; contradiction. Qed.
Lemma comparator_level k : comparator k <-> level k = Some 9.
Proof. destruct k; cbn; split; intro H; try discriminate; try tauto; decompose [or] H; try discriminate; contradiction. Qed.

Lemma wordlist_input ts items rest : list_ok ts items rest -> input rest.
Proof. intros [_ [_ H]]; exact H. Qed.

Lemma parse_sound f :
  (forall p n ts t rest, pexpr f p ts = Ok (t, rest) -> same n p -> input ts ->
     ts = yield t ++ rest /\ read_ok n t rest /\ (forall next rest', rest = next :: rest' -> stops n next)) /\
  (forall p n l ts t rest, ploop f p l ts = Ok (t, rest) -> same n p -> read_ok n l ts ->
     yield l ++ ts = yield t ++ rest /\ read_ok n t rest /\ (forall next rest', rest = next :: rest' -> stops n next)) /\
  (forall ts items rest, pwordlist f ts = Ok (items, rest) -> input ts -> list_ok ts items rest) /\
  (forall ts items rest, pitems f ts = Ok (items, rest) -> input ts ->
     ts = sep_yield items ++ rparen :: rest /\ reads_items items /\ input rest).
Proof.
  induction f as [|f [I1 [I2 [I3 I4]]]].
  { split; [|split; [|split]]; intros; discriminate. }
  split; [|split; [|split]].
  - intros p n ts t rest H Sm In0. cbn [pexpr] in H.
    apply bind_ok in H. destruct H as [[l mid] [Hp Hl]]. cbn [fst snd] in Hl.
    cut (ts = yield l ++ mid /\ read_ok n l mid).
    { intros [-> R]. destruct (I2 _ _ _ _ _ _ Hl Sm R) as [E [R' St]]. auto. }
    clear Hl. destruct ts as [|x ts]; [discriminate|].
    assert (Wl : forall us items r, pwordlist f us = Ok (items, r) -> input us -> list_ok us items r) by exact I3.
    destruct (kind x) eqn:K; cbn [is_function is_type] in Hp;
      try (injection Hp as <- <-; split; [reflexivity|]; split; [assumption|];
           intros next rest' E; injection E as <- <-; split; [constructor; rewrite K; unfold starter; cbn; intuition discriminate|apply tight_prim; reflexivity]);
      try (apply bind_ok in Hp; destruct Hp as [[items r] [Hw Hp]]; cbn [fst snd] in Hp; injection Hp as <- <-;
           destruct (input_proper _ _ In0) as [_ In1]; [congruence|];
           destruct (Wl _ _ _ Hw In1) as [-> [Ri In2]];
           split; [rewrite yield_func; cbn; rewrite <- app_assoc; reflexivity|];
           split; [assumption|]; intros next rest' E; split; [constructor; [rewrite K; cbn; tauto|assumption]|apply tight_prim; reflexivity]);
      try (injection Hp as <- <-; destruct (input_proper _ _ In0) as [_ In1]; [congruence|]; split; [reflexivity|]; split; [assumption|];
           intros next rest' E; split; [constructor; rewrite K; cbn; tauto|apply tight_prim; reflexivity]).
    + (* NOT *)
      apply bind_ok in Hp; destruct Hp as [[e r] [He Hp]]; cbn [fst snd] in Hp; injection Hp as <- <-.
      destruct (input_proper _ _ In0) as [_ In1]; [congruence|].
      destruct (I1 _ _ _ _ _ He same_not In1) as [-> [[In2 R] St]].
      split; [reflexivity|]. split; [assumption|]. intros next rest' E. split; [|apply tight_prim; reflexivity].
      constructor; [assumption|]. apply (R next rest' E).
    + (* negation *)
      apply bind_ok in Hp; destruct Hp as [[e r] [He Hp]]; cbn [fst snd] in Hp; injection Hp as <- <-.
      destruct (input_proper _ _ In0) as [Cx In1]; [congruence|].
      destruct (I1 _ _ _ _ _ He same_neg In1) as [-> [[In2 R] St]].
      assert (x = minus) as -> by (apply Cx; assumption).
      split; [reflexivity|]. split; [assumption|]. intros next rest' E. split; [|apply tight_prim; reflexivity].
      constructor; [apply (R next rest' E)|]. rewrite comparator_level. intro L. specialize (St next rest' E 9 L).
      unfold negation_level in St. lia.
    + (* parentheses *)
      apply bind_ok in Hp; destruct Hp as [[e r] [He Hp]]; cbn [fst snd] in Hp.
      apply bind_ok in Hp; destruct Hp as [[c r'] [Hc Hp]]; cbn [fst snd] in Hp; injection Hp as <- <-.
      destruct (input_proper _ _ In0) as [Cx In1]; [congruence|].
      destruct (I1 _ _ _ _ _ He same_0 In1) as [-> [[In2 R] St]].
      apply expect_ok in Hc. destruct Hc as [-> Kc].
      destruct (input_proper _ _ In2) as [Cc In3]; [congruence|].
      assert (x = lparen) as -> by (apply Cx; assumption).
      assert (c = rparen) as -> by (apply Cc; assumption).
      split; [cbn [yield]; cbn [app]; rewrite <- app_assoc; reflexivity|]. split; [assumption|].
      intros next rest' E. split; [|apply tight_prim; reflexivity]. constructor. apply (R _ _ eq_refl).
    + (* FIELD *)
      destruct (input_proper _ _ In0) as [Cx In1]; [congruence|].
      destruct ts as [|x2 ts2]; [exfalso; exact (input_nil In1)|].
      destruct (kind x2) eqn:K2;
        try (injection Hp as <- <-; split; [reflexivity|]; split; [assumption|];
             intros next rest' E; split; [constructor; rewrite K; cbn; tauto|apply tight_prim; reflexivity]).
      * apply bind_ok in Hp; destruct Hp as [[items r] [Hw Hp]]; cbn [fst snd] in Hp; injection Hp as <- <-.
        destruct (input_proper _ _ In1) as [_ In2]; [congruence|]. destruct (Wl _ _ _ Hw In2) as [-> [Ri In3]].
        split; [rewrite yield_in; cbn; rewrite <- app_assoc; reflexivity|].
        split; [assumption|]; intros next rest' E; split; [constructor; assumption|apply tight_prim; reflexivity].
      * apply bind_ok in Hp; destruct Hp as [[it r0] [Hi Hp]]; cbn [fst snd] in Hp.
        apply bind_ok in Hp; destruct Hp as [[items r] [Hw Hp]]; cbn [fst snd] in Hp; injection Hp as <- <-.
        apply expect_ok in Hi. destruct Hi as [-> Ki].
        destruct (input_proper _ _ In1) as [_ In2]; [congruence|].
        destruct (input_proper _ _ In2) as [_ In2']; [congruence|]. destruct (Wl _ _ _ Hw In2') as [-> [Ri In3]].
        split; [rewrite yield_in; cbn; rewrite <- app_assoc; reflexivity|].
        split; [assumption|]; intros next rest' E; split; [constructor; assumption|apply tight_prim; reflexivity].
      * apply bind_ok in Hp; destruct Hp as [[items r] [Hw Hp]]; cbn [fst snd] in Hp; injection Hp as <- <-.
        destruct (input_proper _ _ In1) as [_ In2]; [congruence|]. destruct (Wl _ _ _ Hw In2) as [-> [Ri In3]].
        split; [rewrite yield_array; cbn; rewrite <- app_assoc; reflexivity|].
        split; [assumption|]; intros next rest' E; split; [constructor; auto|apply tight_prim; reflexivity].
      * apply bind_ok in Hp; destruct Hp as [[items r] [Hw Hp]]; cbn [fst snd] in Hp; injection Hp as <- <-.
        destruct (input_proper _ _ In1) as [_ In2]; [congruence|]. destruct (Wl _ _ _ Hw In2) as [-> [Ri In3]].
        split; [rewrite yield_array; cbn; rewrite <- app_assoc; reflexivity|].
        split; [assumption|]; intros next rest' E; split; [constructor; auto|apply tight_prim; reflexivity].
      * apply bind_ok in Hp; destruct Hp as [[to r] [Hto Hp]]; cbn [fst snd] in Hp.
        apply expect_ok in Hto. destruct Hto as [-> Kto]. destruct r as [|hi r]; [discriminate|].
        destruct (is_numeric_type (kind hi)) eqn:Kh; [|discriminate]. injection Hp as <- <-.
        apply number_kind_iff in Kh.
        destruct (input_proper _ _ In1) as [_ In2]; [congruence|].
        destruct (input_proper _ _ In2) as [_ In3]; [congruence|].
        destruct (input_proper _ _ In3) as [_ In4].
        { intro E; rewrite E in Kh; cbn in Kh; intuition discriminate. }
        split; [reflexivity|]. split; [assumption|]. intros next rest' E; split; [|apply tight_prim; reflexivity].
        constructor; auto. rewrite K2; cbn; tauto.
      * apply bind_ok in Hp; destruct Hp as [[to r] [Hto Hp]]; cbn [fst snd] in Hp.
        apply expect_ok in Hto. destruct Hto as [-> Kto]. destruct r as [|hi r]; [discriminate|].
        destruct (is_numeric_type (kind hi)) eqn:Kh; [|discriminate]. injection Hp as <- <-.
        apply number_kind_iff in Kh.
        destruct (input_proper _ _ In1) as [_ In2]; [congruence|].
        destruct (input_proper _ _ In2) as [_ In3]; [congruence|].
        destruct (input_proper _ _ In3) as [_ In4].
        { intro E; rewrite E in Kh; cbn in Kh; intuition discriminate. }
        split; [reflexivity|]. split; [assumption|]. intros next rest' E; split; [|apply tight_prim; reflexivity].
        constructor; auto. rewrite K2; cbn; tauto.
  - intros p n l ts t rest H Sm Rl. cbn [ploop] in H.
    destruct ts as [|x ts]; [exfalso; apply (input_nil (proj1 Rl))|].
    destruct Rl as [In0 Rl]. destruct (Rl _ _ eq_refl) as [R T]. clear Rl.
    assert (Done : forall (St : stops n x), (t, rest) = (l, x :: ts) ->
      yield l ++ x :: ts = yield t ++ rest /\ read_ok n t rest /\ (forall next rest', rest = next :: rest' -> stops n next)).
    { intros St E. injection E as -> ->. split; [reflexivity|].
      split; [split; [assumption|]|]; intros next rest' E; injection E as <- <-; auto. }
    destruct (infix_prec (kind x)) as [q|] eqn:Q.
    2:{ apply Done; [|congruence]. intros m L. apply level_prec in Q. congruence. }
    destruct (prec_level _ _ Q) as [m L].
    destruct (Nat.leb_spec p q) as [Le|Gt].
    2:{ apply Done; [|congruence]. intros m' L'. assert (m' = m) by congruence. subst m'.
        destruct (Nat.lt_ge_cases m n) as [?|Ge]; [assumption|]. apply (Sm _ _ _ L Q) in Ge. lia. }
    apply bind_ok in H. destruct H as [[e r] [He H]]. cbn [fst snd] in H.
    destruct (input_proper _ _ In0) as [_ In1]; [intro E; rewrite E in Q; discriminate|].
    destruct (I1 _ _ _ _ _ He (same_next _ _ _ L Q) In1) as [-> [[In2 Re] Se]].
    assert (RO : read_ok n (mk_infix l x e) r).
    { split; [assumption|]. intros next rest' E. destruct (Re _ _ E) as [Re1 Te]. split.
      - apply reads_infix with m; [assumption|apply (Sm _ _ _ L Q); assumption|eapply reads_raise; eassumption|assumption].
      - intros m1 m2 T1 L1. rewrite top_infix in T1. assert (m2 = m) by congruence. subst m2.
        specialize (Se _ _ E m1 L1). lia. }
    destruct (I2 _ _ _ _ _ _ H Sm RO) as [E2 [R2 S2]]. split; [|auto].
    rewrite <- E2, yield_infix, <- app_assoc. reflexivity.
  - intros ts items rest H In0. cbn [pwordlist] in H.
    apply bind_ok in H. destruct H as [[x r] [Hx H]]. cbn [snd] in H.
    apply expect_ok in Hx. destruct Hx as [-> Kx].
    destruct (input_proper _ _ In0) as [Cx In1]; [congruence|].
    assert (x = lparen) as -> by (apply Cx; assumption).
    destruct (I4 _ _ _ H In1) as [-> [Ri In2]]. split; [reflexivity|auto].
  - intros ts items rest H In0. cbn [pitems] in H.
    apply bind_ok in H. destruct H as [[e r] [He H]]. cbn [fst snd] in H.
    destruct (I1 _ _ _ _ _ He same_0 In0) as [-> [[In1 R] _]].
    destruct r as [|x r]; [discriminate|]. destruct (R _ _ eq_refl) as [Re _].
    destruct (kind x) eqn:K; try discriminate.
    + apply bind_ok in H. destruct H as [[items' r'] [Hi H]]. cbn [fst snd] in H. injection H as <- <-.
      destruct (input_proper _ _ In1) as [Cx In2]; [congruence|].
      assert (x = comma) as -> by (apply Cx; assumption).
      destruct (I4 _ _ _ Hi In2) as [-> [Ri In3]].
      rewrite sep_yield_cons by (apply reads_items_nonempty; assumption).
      split; [rewrite <- app_assoc; reflexivity|]. split; [|assumption]. apply r_more; assumption.
    + injection H as <- <-. destruct (input_proper _ _ In1) as [Cx In2]; [congruence|].
      assert (x = rparen) as -> by (apply Cx; assumption).
      split; [reflexivity|]. split; [|assumption]. constructor; assumption.
Qed.

Lemma parse_tokens_sound ts t : Forall canonical ts -> parse_tokens ts = Ok t -> yield t = ts /\ reads 0 t eof.
Proof.
  intros C H. unfold parse_tokens in H. cbv zeta in H.
  apply bind_ok in H. destruct H as [[e rest] [He H]]. cbn [fst snd] in H.
  destruct rest as [|x [|y r]]; try discriminate. unfold tkind_eqb in H.
  destruct (tkind_eq_dec (kind x) T_EOF) as [Kx|]; [|discriminate]. injection H as <-.
  destruct (proj1 (parse_sound _) _ _ _ _ _ He same_0) as [E [[I R] _]]; [exists ts; auto|].
  destruct (input_cons _ _ I) as [[-> _]|[[_ [_ [_ [_ Cx]]]] _]]; [|contradiction].
  apply app_inj_tail in E. destruct E as [-> _]. split; [reflexivity|]. apply (R _ _ eq_refl).
Qed.

(** Completeness *)
Definition follower (k : tkind) : Prop := level k <> None \/ In k [T_RPAREN; T_COMMA; T_EOF].

Lemma ploop_stop p t next rest :
  (forall q, infix_prec (kind next) = Some q -> q < p) -> ploop 1 p t (next :: rest) = Ok (t, next :: rest).
Proof.
  intros H. cbn [ploop]. destruct (infix_prec (kind next)) as [q|]; [|reflexivity].
  specialize (H q eq_refl). destruct (Nat.leb_spec p q); [lia|reflexivity].
Qed.
Lemma closer_stop k p q : In k [T_RPAREN; T_COMMA; T_EOF] -> infix_prec k = Some q -> q < p.
Proof. cbn. intros [<-|[<-|[<-|[]]]]; discriminate. Qed.
Lemma closer_follower k : In k [T_RPAREN; T_COMMA; T_EOF] -> follower k.
Proof. right; assumption. Qed.
Lemma closer_tight t next : In (kind next) [T_RPAREN; T_COMMA; T_EOF] -> tight t next.
Proof. cbn. intros [E|[E|[E|[]]]] m m' _; rewrite <- E; discriminate. Qed.

Lemma ok_mono_e f f' p ts x : pexpr f p ts = Ok x -> f <= f' -> pexpr f' p ts = Ok x.
Proof. intros H L. rewrite (pexpr_mono _ _ _ _ L); [exact H|rewrite H; discriminate]. Qed.
Lemma ok_mono_l f f' p l ts x : ploop f p l ts = Ok x -> f <= f' -> ploop f' p l ts = Ok x.
Proof. intros H L. rewrite (ploop_mono _ _ _ _ _ L); [exact H|rewrite H; discriminate]. Qed.
Lemma ok_mono_i f f' ts x : pitems f ts = Ok x -> f <= f' -> pitems f' ts = Ok x.
Proof. intros H L. rewrite (pitems_mono _ _ _ L); [exact H|rewrite H; discriminate]. Qed.

(** reading [t] leads the loop to [t] *)
Definition parses (n : nat) (t : ptree) (next : token) : Prop :=
  follower (kind next) -> tight t next ->
  forall p n', n' <= n -> same n' p ->
  forall rest f' X, ploop f' p t (next :: rest) = Ok X -> exists f, pexpr f p (yield t ++ next :: rest) = Ok X.
Definition parses_items (items : list ptree) : Prop :=
  forall rest, exists f, pitems f (sep_yield items ++ rparen :: rest) = Ok (items, rest).

Lemma parses_sub n t next p rest :
  parses n t next -> follower (kind next) -> tight t next -> same n p ->
  (forall q, infix_prec (kind next) = Some q -> q < p) -> exists f, pexpr f p (yield t ++ next :: rest) = Ok (t, next :: rest).
Proof. intros P F T Sm St. eapply P; eauto. apply (ploop_stop p t next rest St). Qed.

Lemma wordlist_ok items rest : parses_items items -> exists f, pwordlist f (lparen :: sep_yield items ++ rparen :: rest) = Ok (items, rest).
Proof. intros P. destruct (P rest) as [f E]. exists (S f). cbn [pwordlist]. rewrite expect_hit by reflexivity. exact E. Qed.
Lemma wordlist_mono f f' ts x : pwordlist f ts = Ok x -> f <= f' -> pwordlist f' ts = Ok x.
Proof. intros H L. rewrite (pwordlist_mono _ _ _ L); [exact H|rewrite H; discriminate]. Qed.

Lemma parses_infix n m l op r next :
  level (kind op) = Some m -> n <= m -> reads m l op -> parses m l op -> reads (S m) r next -> parses (S m) r next ->
  parses n (mk_infix l op r) next.
Proof.
  intros L Ln Rl IHl Rr IHr F T p n' Le Sm rest f' X Hl.
  destruct (infix_prec (kind op)) as [q|] eqn:Q.
  2:{ apply level_prec in Q. congruence. }
  assert (Tn : forall m1, level (kind next) = Some m1 -> m1 <= m).
  { intros m1 L1. apply (T m1 m); [rewrite top_infix; exact L|exact L1]. }
  destruct (parses_sub _ _ _ (S q) rest IHr) as [f E]; [assumption| |apply (same_next _ _ _ L Q)| |].
  { intros m1 m2 T2 L1. specialize (Tn _ L1). enough (S m <= m2) by lia.
    inversion Rr; subst; try discriminate T2; cbn [top] in T2; congruence. }
  { intros q1 Q1. destruct (prec_level _ _ Q1) as [m1 L1]. specialize (Tn _ L1).
    assert (Sx := same_next _ _ _ L Q _ _ _ L1 Q1). lia. }
  rewrite yield_infix, <- app_assoc. cbn [app].
  apply (IHl) with (n' := n') (f' := S (Nat.max f f')).
  - left. congruence.
  - intros m1 m2 T2 L1. assert (m1 = m) by congruence. subst m1.
    inversion Rl; subst; try discriminate T2; cbn [top] in T2; congruence.
  - lia.
  - exact Sm.
  - cbn [ploop]. rewrite Q. assert (p <= q) as Lp by (apply (Sm _ _ _ L Q); lia).
    apply Nat.leb_le in Lp. rewrite Lp. rewrite (ok_mono_e _ _ _ _ _ E) by lia. cbn [bind fst snd].
    apply (ok_mono_l _ _ _ _ _ _ Hl). lia.
Qed.
Lemma cmp_infix l op r : comparator (kind op) -> PCmp l op r = mk_infix l op r.
Proof. unfold mk_infix. intros K. destruct (kind op); try reflexivity; exfalso; cbn in K; intuition discriminate. Qed.
Lemma arith_infix l op r : arithmetic_op (kind op) -> PArith l op r = mk_infix l op r.
Proof. unfold mk_infix. intros K. destruct (kind op); try reflexivity; exfalso; cbn in K; intuition discriminate. Qed.
Lemma bin_infix l op r : connective (kind op) -> PBin l op r = mk_infix l op r.
Proof. unfold mk_infix. intros K. destruct (kind op); try reflexivity; exfalso; cbn in K; intuition discriminate. Qed.

Lemma parse_complete :
  (forall n t next, reads n t next -> parses n t next) /\ (forall items, reads_items items -> parses_items items).
Proof.
  apply (reads_mut parses parses_items).
  - (* parentheses *)
    intros n t next _ IH F T p n' Le Sm rest f' X Hl.
    destruct (parses_sub _ _ _ 0 (next :: rest) IH) as [f E].
    { apply closer_follower; cbn; auto. } { apply closer_tight; cbn; auto. } { apply same_0. }
    { intros q Q; discriminate. }
    exists (S (Nat.max f f')). cbn [pexpr yield app]. rewrite <- app_assoc. cbn [app].
    change (kind lparen) with T_LPAREN. cbv iota.
    rewrite (ok_mono_e _ _ _ _ _ E) by lia. cbn [bind fst snd]. rewrite expect_hit by reflexivity. cbn [bind fst snd].
    apply (ok_mono_l _ _ _ _ _ _ Hl). lia.
  - (* NOT *)
    intros n nt t next K R IH F T p n' Le Sm rest f' X Hl.
    destruct (parses_sub _ _ _ not_prec rest IH) as [f E]; [assumption| |apply same_not| |].
    { intros m m' Tt L. inversion R; subst; try discriminate Tt; exfalso;
        match goal with H : level _ = Some ?m0, H' : not_level <= ?m0 |- _ => destruct (kind op); cbn in H; try discriminate H; injection H as <-; unfold not_level in H'; lia end. }
    { intros q Q. unfold not_prec. destruct (kind next); try discriminate Q; injection Q as <-; lia. }
    exists (S (Nat.max f f')). cbn [pexpr yield app]. rewrite K.
    rewrite (ok_mono_e _ _ _ _ _ E) by lia. cbn [bind fst snd]. apply (ok_mono_l _ _ _ _ _ _ Hl). lia.
  - (* negation *)
    intros n t next R IH C F T p n' Le Sm rest f' X Hl.
    rewrite comparator_level in C.
    destruct (parses_sub _ _ _ neg_prec rest IH) as [f E]; [assumption| |apply same_neg| |].
    { intros m m' Tt L. 
      assert (negation_level <= m').
      { inversion R; subst; try discriminate Tt; cbn [top] in Tt; congruence. }
      unfold negation_level in *. destruct (kind next); try discriminate L; injection L as <-; try lia; contradiction C; reflexivity. }
    { intros q Q. unfold neg_prec. destruct (kind next); try discriminate Q; injection Q as <-; try lia; contradiction C; reflexivity. }
    exists (S (Nat.max f f')). cbn [pexpr yield app]. change (kind minus) with T_SUBTRACT. cbv iota.
    rewrite (ok_mono_e _ _ _ _ _ E) by lia. cbn [bind fst snd]. apply (ok_mono_l _ _ _ _ _ _ Hl). lia.
  - (* operand *)
    intros n tok next K F T p n' Le Sm rest f' X Hl. exists (S f'). cbn [pexpr yield app].
    unfold operand_kind in K. cbn [In] in K.
    destruct K as [K|[K|[K|[K|[K|[K|[K|[K|[K|[]]]]]]]]]]; rewrite <- K; cbn [is_function is_type bind fst snd]; try exact Hl.
    unfold follower in F. destruct (kind next); cbn in F; cbn [bind fst snd]; try exact Hl;
      exfalso; destruct F as [F|F]; [congruence|intuition discriminate| congruence|intuition discriminate| congruence|intuition discriminate| congruence|intuition discriminate| congruence|intuition discriminate| congruence|intuition discriminate].
  - (* missing operand *)
    intros n next K F T p n' Le Sm rest f' X Hl. exists (S f'). cbn [pexpr yield app].
    unfold starter in K.
    destruct (kind next); cbn [is_function is_type bind fst snd]; try exact Hl; exfalso; apply K; cbn; tauto.
  - (* range *)
    intros n f lo to hi next Kf Kl Kt Kh F T p n' Le Sm rest f' X Hl. exists (S f'). cbn [pexpr yield app].
    rewrite Kf. apply number_kind_iff in Kh. unfold number_kind in Kl. cbn [In] in Kl.
    destruct Kl as [Kl|[Kl|[]]]; rewrite <- Kl; rewrite expect_hit by assumption; cbn [bind fst snd]; rewrite Kh; exact Hl.
  - (* function *)
    intros n fn items next K R IH F T p n' Le Sm rest f' X Hl.
    destruct (wordlist_ok items (next :: rest) IH) as [f E].
    exists (S (Nat.max f f')). rewrite yield_func. cbn [pexpr app]. rewrite <- app_assoc. cbn [app].
    unfold function_kind in K. cbn [In] in K.
    assert (M := wordlist_mono _ (Nat.max f f') _ _ E ltac:(lia)).
    assert (M' := ok_mono_l _ (Nat.max f f') _ _ _ _ Hl ltac:(lia)).
    decompose [or] K; try contradiction;
      match goal with Hk : _ = kind fn |- _ => rewrite <- Hk end; cbn [is_function]; rewrite M; cbn [bind fst snd]; exact M'.
  - (* IN *)
    intros n f0 it items next Kf Ki R IH F T p n' Le Sm rest f' X Hl.
    destruct (wordlist_ok items (next :: rest) IH) as [f E].
    exists (S (Nat.max f f')). rewrite yield_in. cbn [pexpr app]. rewrite <- app_assoc. cbn [app]. rewrite Kf, Ki.
    rewrite (wordlist_mono _ (Nat.max f f') _ _ E) by lia. cbn [bind fst snd]. apply (ok_mono_l _ _ _ _ _ _ Hl). lia.
  - (* NOT IN *)
    intros n f0 nt it items next Kf Kn Ki R IH F T p n' Le Sm rest f' X Hl.
    destruct (wordlist_ok items (next :: rest) IH) as [f E].
    exists (S (Nat.max f f')). rewrite yield_in. cbn [pexpr app]. rewrite <- app_assoc. cbn [app]. rewrite Kf, Kn.
    rewrite expect_hit by assumption. cbn [bind fst snd].
    rewrite (wordlist_mono _ (Nat.max f f') _ _ E) by lia. cbn [bind fst snd]. apply (ok_mono_l _ _ _ _ _ _ Hl). lia.
  - (* CONTAINS *)
    intros n f0 op items next Kf Ko R IH F T p n' Le Sm rest f' X Hl.
    destruct (wordlist_ok items (next :: rest) IH) as [f E].
    exists (S (Nat.max f f')). rewrite yield_array. cbn [pexpr app]. rewrite <- app_assoc. cbn [app]. rewrite Kf.
    destruct Ko as [Ko|Ko]; rewrite Ko;
      rewrite (wordlist_mono _ (Nat.max f f') _ _ E) by lia; cbn [bind fst snd]; apply (ok_mono_l _ _ _ _ _ _ Hl); lia.
  - intros n m l op r next C L Ln Rl IHl Rr IHr. rewrite (cmp_infix _ _ _ C). eapply parses_infix; eassumption.
  - intros n m l op r next C L Ln Rl IHl Rr IHr. rewrite (arith_infix _ _ _ C). eapply parses_infix; eassumption.
  - intros n m l op r next C L Ln Rl IHl Rr IHr. rewrite (bin_infix _ _ _ C). eapply parses_infix; eassumption.
  - (* last item *)
    intros t R IH rest. destruct (parses_sub _ _ _ 0 rest IH) as [f E].
    { apply closer_follower; cbn; auto. } { apply closer_tight; cbn; auto. } { apply same_0. }
    { intros q Q; discriminate. }
    exists (S f). cbn [pitems sep_yield]. rewrite E. reflexivity.
  - (* more items *)
    intros t ts R IH Rs IHs rest. destruct (IHs rest) as [f2 E2].
    destruct (parses_sub _ _ _ 0 (sep_yield ts ++ rparen :: rest) IH) as [f E].
    { apply closer_follower; cbn; auto. } { apply closer_tight; cbn; auto. } { apply same_0. }
    { intros q Q; discriminate. }
    exists (S (Nat.max f f2)). rewrite sep_yield_cons by (apply reads_items_nonempty; assumption).
    rewrite <- app_assoc. cbn [pitems app]. rewrite (ok_mono_e _ _ _ _ _ E) by lia. cbn [bind fst snd].
    change (kind comma) with T_COMMA. cbv iota. rewrite (ok_mono_i _ _ _ _ E2) by lia. reflexivity.
Qed.

Lemma parse_tokens_complete t : reads 0 t eof -> parse_tokens (yield t) = Ok t.
Proof.
  intros R. destruct (parses_sub _ _ _ 0 [] (proj1 parse_complete _ _ _ R)) as [f E].
  { apply closer_follower; cbn; auto. } { apply closer_tight; cbn; auto. } { apply same_0. }
  { intros q Q; discriminate. }
  unfold parse_tokens. cbv zeta. rewrite (pexpr_any_fuel _ _ _ _ E). reflexivity.
Qed.

Lemma reads_unique t t' : reads 0 t eof -> reads 0 t' eof -> yield t = yield t' -> t = t'.
Proof. intros R R' E. apply parse_tokens_complete in R, R'. rewrite E in R. congruence. Qed.
