(** Compound list elements, bare operands. *)
From Verif Require Import RecoverFacts.
From Verif Require Import Base JNum BigDec Dates Values Ops Funcs Ast Eval Lexer Grammar Listener Api SpecBool SpecCompare SpecPath SpecArith SpecLex SpecDate
  SpecGrammar SpecSyntax SpecText NumFacts CacheFacts BoolFacts CompareFacts ValuesFacts FieldFacts LexFacts LexSplit LexWords LexApi LexCases SyntaxFacts ParseFuel ParseFacts
  ParseShapes ListenFacts TextFacts TextApi CompareWitness.

Scheme simple_ind' := Minimality for simple Sort Prop
  with simples_ind' := Minimality for simples Sort Prop.
Combined Scheme simple_mut from simple_ind', simples_ind'.

Definition self_made (dflt : option jstr) (t : ptree) : Prop := forall n, Forall genuine (yield t) -> denotes dflt t n ->
  (forall s, map_context dflt t s = Ok (n, s)) /\ forall st, exists junk lt tc, walk dflt t st = Ok (LState (junk ++ stack st) lt tc) /\ clean junk.
Lemma simple_walk dflt : (forall t, simple t -> self_made dflt t) /\
  (forall ts, simples ts -> forall ns, Forall genuine (sep_yield ts) -> denotes_list dflt ts ns ->
     (forall s, map_elements dflt ts s = Ok (ns, s)) /\ forall st, exists junk lt tc, walk_list dflt ts st = Ok (LState (junk ++ stack st) lt tc) /\ clean junk).
Proof.
  apply (simple_mut (self_made dflt) (fun ts => forall ns, Forall genuine (sep_yield ts) -> denotes_list dflt ts ns ->
     (forall s, map_elements dflt ts s = Ok (ns, s)) /\ forall st, exists junk lt tc, walk_list dflt ts st = Ok (LState (junk ++ stack st) lt tc) /\ clean junk)).
  - intros t P n G D. destruct (plain_types dflt t n P G D) as [_ M]. split; [exact M|]. intros st. destruct (plain_walk dflt t st P) as [lt [tc W]].
    exists [], lt, tc. split; [exact W|constructor].
  - intros l op r Pl Pr n G D. inversion D; subst. ren D l Dl. ren D r Dr. renw. cbn [yield] in G. apply Forall_app in G. destruct G as [Gl G]. inversion G as [|? ? Go Gr]; subst.
    destruct (arithmetic_kind k w op0 Go Iw) as [_ Oo]. destruct (plain_types dflt l a Pl Gl Dl) as [Al _]. destruct (plain_types dflt r b Pr Gr Dr) as [Ar _].
    assert (M : forall s, map_context dflt (PArith l (Tok k w) r) s = Ok (NArith a (Some b) op0, s)).
    { intros s. cbn [map_context]. rewrite Al, Ar. cbn [bind kind]. rewrite Oo. reflexivity. }
    split; [exact M|]. intros st. destruct (plain_walk dflt l st Pl) as [lt [tc Wl]]. destruct (plain_walk dflt r (LState (stack st) lt tc) Pr) as [lt' [tc' Wr]].
    exists [NArith a (Some b) op0], lt', tc'. split; [|constructor; [discriminate|constructor]]. cbn [walk]. rewrite Wl. cbn [bind]. rewrite Wr. cbn [bind]. unfold push_context. rewrite M. reflexivity.
  - intros fn items _ IH n G D. inversion D; subst. rens. renw. rewrite yield_func in G. assert (Gs := sep_genuine [Tok k w] _ _ G). inversion G as [|? ? G1 G2]; subst.
    destruct (function_kind_of k w fn0 G1 Iw) as [_ Fo]. destruct (IH ns Gs Ds) as [M W].
    assert (MC : forall s, map_context dflt (PFunc (Tok k w) items) s = Ok (NFunc fn0 ns, s)).
    { intros s. rewrite context_func. cbn [kind]. rewrite Fo, M. reflexivity. }
    split; [exact MC|]. intros st. destruct (W st) as [junk [lt [tc [Wst C]]]]. exists (NFunc fn0 ns :: junk), lt, tc. split; [|constructor; [discriminate|exact C]].
    rewrite walk_func, Wst. cbn [bind]. unfold push_context. rewrite MC. reflexivity.
  - intros ns _ D. inversion D; subst. split; [reflexivity|]. intros [s lt tc]. exists [], lt, tc. split; [reflexivity|constructor].
  - intros t ts _ IHt _ IHts ns G D. inversion D; subst.
    assert (Gi : Forall genuine (yield t) /\ Forall genuine (sep_yield ts)).
    { destruct ts as [|j ts]; [split; [exact G|constructor]|]. rewrite sep_yield_cons in G by discriminate. apply Forall_app in G. destruct G as [G1 G2]. inversion G2; auto. }
    destruct Gi as [Gi Gs]. ren D t Dt. rens. destruct (IHt n Gi Dt) as [M W]. destruct (IHts ns0 Gs Ds) as [Ms Ws]. split.
    + intros s. cbn [map_elements]. rewrite M. cbn [bind fst snd]. rewrite Ms. reflexivity.
    + intros st. destruct (W st) as [j1 [lt [tc [E C]]]]. destruct (Ws (LState (j1 ++ stack st) lt tc)) as [j2 [lt' [tc' [E' C']]]].
      exists (j2 ++ j1), lt', tc'. split; [|apply Forall_app; split; assumption].
      change (walk_list dflt (t :: ts) st) with (st' <- walk dflt t st ;; walk_list dflt ts st'). rewrite E. cbn [bind]. rewrite E'. cbn [stack]. rewrite app_assoc. reflexivity.
Qed.

Lemma loose_sort b t : loose b t -> sort_of t <> Nothing.
Proof. induction 1 as [b t R| |b f ng| | | | | | | | | |]; try discriminate; try assumption; [exact (proj1 (regular_sort _ _ R))|destruct ng; discriminate]. Qed.
Lemma loose_types b t dflt : loose b t -> as_types dflt t = None.
Proof. intros L. destruct L as [b t R| | | | | | | | | | | |]; try reflexivity. exact (regular_types _ _ dflt R). Qed.

Lemma walk_loose dflt b t : loose b t -> forall n0 st, Forall genuine (yield t) -> denotes dflt t n0 -> clean (stack st) -> top_sort (stack st) = b ->
  exists n st' junk, walk dflt t st = Ok st' /\ stack st' = n :: junk ++ stack st /\ clean junk /\ denotes dflt t n /\ node_sort n = sort_of t.
Proof.
  induction 1 as [b t R|b fn items S0|b f neg it items S0|b f op items S0|b t R IH|b nt t R IH|b t R IH S0
    |b l op r Pl R IH F|b l op r R IH Pr F|b l op r Pl R IH|b l op r R IH Pr|b l op r Rl IHl Rr|b l op r Rl IHl Rr];
    intros n0 st G D C T.
  - destruct (walk_regular dflt b t R n0 st G D C T) as [n [st' [W [S [Dn K]]]]]. exists n, st', []. repeat split; try assumption. constructor.
  - inversion D; subst. rens. renw. rewrite yield_func in G. assert (Gs := sep_genuine [Tok k w] _ _ G). inversion G as [|? ? G1 G2]; subst.
    destruct (function_kind_of k w fn0 G1 Iw) as [_ Fo]. destruct (proj2 (simple_walk dflt) items S0 ns Gs Ds) as [M W]. destruct (W st) as [junk [lt [tc [Wst Cj]]]].
    eexists _, _, junk. split; [|split; [|split; [exact Cj|split; [exact D|reflexivity]]]].
    + rewrite walk_func, Wst. cbn [bind]. unfold push_context. rewrite context_func. cbn [kind stack]. rewrite Fo, M. reflexivity.
    + reflexivity.
  - inversion D; subst.
    + rens. renf. rewrite yield_in in G. assert (Gs := sep_genuine [f; it] _ _ G). destruct (proj2 (simple_walk dflt) items S0 ns Gs Ds) as [M W]. destruct (W st) as [junk [lt [tc [Wst Cj]]]].
      eexists _, _, junk. split; [|split; [|split; [exact Cj|split; [exact D|reflexivity]]]].
      * rewrite walk_in, Wst. cbn [bind]. unfold push_context. rewrite context_in. rewrite (named_ok dflt f Ff). cbn [bind stack]. rewrite M. reflexivity.
      * reflexivity.
    + rens. renf. rewrite yield_in in G. assert (Gs := sep_genuine [f; nt; it] _ _ G). destruct (proj2 (simple_walk dflt) items S0 ns Gs Ds) as [M W]. destruct (W st) as [junk [lt [tc [Wst Cj]]]].
      eexists _, _, junk. split; [|split; [|split; [exact Cj|split; [exact D|reflexivity]]]].
      * rewrite walk_in, Wst. cbn [bind]. unfold push_context. rewrite context_in. rewrite (named_ok dflt f Ff). cbn [bind stack]. rewrite M. reflexivity.
      * reflexivity.
  - inversion D; subst. rens. renf. renw. rewrite yield_array in G. assert (Gs := sep_genuine [f; Tok k w] _ _ G). inversion G as [|? ? G1 G2]; subst. inversion G2 as [|? ? G3 G4]; subst.
    destruct (array_kind k w op0 G3 Iw) as [_ Ao]. destruct (proj2 (simple_walk dflt) items S0 ns Gs Ds) as [M W]. destruct (W st) as [junk [lt [tc [Wst Cj]]]].
    eexists _, _, junk. split; [|split; [|split; [exact Cj|split; [exact D|reflexivity]]]].
    + rewrite walk_array, Wst. cbn [bind]. unfold exit_array. rewrite (named_ok dflt f Ff). cbn [bind stack kind]. rewrite M, Ao. reflexivity.
    + reflexivity.
  - inversion D; subst. ren D t Dt. cbn [yield] in G. inversion G as [|? ? G1 G2]; subst. apply Forall_app in G2. destruct (IH n0 st (proj1 G2) Dt C eq_refl) as [n [st' [junk [W [S [Cj [Dn K]]]]]]].
    exists n, st', junk. repeat split; try assumption. constructor; exact Dn.
  - inversion D; subst. ren D t Dt. cbn [yield] in G. inversion G as [|? ? G1 G2]; subst. destruct (IH n st G2 Dt C eq_refl) as [m [st' [junk [W [S [Cj [Dn K]]]]]]].
    cbn [walk]. rewrite W. cbn [bind]. unfold exit_not. rewrite S. eexists _, _, junk. split; [reflexivity|]. split; [reflexivity|]. split; [exact Cj|]. split; [constructor; exact Dn|reflexivity].
  - inversion D; subst. ren D t Dt. cbn [yield] in G. inversion G as [|? ? G1 G2]; subst. destruct (IH n st G2 Dt C eq_refl) as [m [st' [junk [W [S [Cj [Dn K]]]]]]].
    rewrite S0 in K. destruct m; try discriminate K. cbn [walk]. rewrite W. cbn [bind]. unfold exit_unary. rewrite S.
    eexists _, _, junk. split; [reflexivity|]. split; [reflexivity|]. split; [exact Cj|]. split; [constructor; exact Dn|reflexivity].
  - inversion D; subst. ren D l Dl. ren D r Dr. renw. cbn [yield] in G. apply Forall_app in G. destruct G as [Gl G]. inversion G as [|? ? Go Gr]; subst. destruct (comparator_kind k w op0 Go Iw) as [_ Oo].
    destruct (plain_walk dflt l st Pl) as [lt [tc Wl]]. destruct (plain_types dflt l a Pl Gl Dl) as [Al Ml].
    destruct (IH b0 (LState (stack st) lt tc) Gr Dr C eq_refl) as [m [st' [junk [W [S [Cj [Dn K]]]]]]]. cbn [stack] in S. pose proof (loose_sort _ _ R) as NS.
    eexists _, _, junk. split; [|split; [|split; [exact Cj|split; [constructor; [eassumption|exact Dl|exact Dn]|reflexivity]]]].
    + cbn [walk]. rewrite Wl. cbn [bind]. rewrite W. cbn [bind]. unfold push_context. cbn [map_context]. rewrite S.
      rewrite steals_fit; [|congruence|]. 2:{ destruct F as [[t' ->]|F]; [right; left; reflexivity|right; right; congruence]. }
      rewrite Al. cbn [bind pop fst snd kind]. rewrite Oo. reflexivity.
    + reflexivity.
  - inversion D; subst. ren D l Dl. ren D r Dr. renw. cbn [yield] in G. apply Forall_app in G. destruct G as [Gl G]. inversion G as [|? ? Go Gr]; subst. destruct (comparator_kind k w op0 Go Iw) as [_ Oo].
    destruct (IH a st Gl Dl C eq_refl) as [m [st' [junk [W [S [Cj [Dn K]]]]]]]. destruct (plain_walk dflt r st' Pr) as [lt [tc Wr]].
    destruct (plain_types dflt r b0 Pr Gr Dr) as [Ar Mr]. pose proof (loose_sort _ _ R) as NS.
    eexists _, _, junk. split; [|split; [|split; [exact Cj|split; [constructor; [eassumption|exact Dn|exact Dr]|reflexivity]]]].
    + cbn [walk]. rewrite W. cbn [bind]. rewrite Wr. cbn [bind]. unfold push_context. cbn [map_context stack]. rewrite S.
      rewrite steals_fit; [|congruence|]. 2:{ destruct F as [[t' ->]|F]; [left; reflexivity|right; right; congruence]. }
      rewrite (loose_types _ _ dflt R), Ar. cbn [bind pop fst snd kind]. rewrite Oo. reflexivity.
    + reflexivity.
  - inversion D; subst. ren D l Dl. ren D r Dr. renw. cbn [yield] in G. apply Forall_app in G. destruct G as [Gl G]. inversion G as [|? ? Go Gr]; subst. destruct (arithmetic_kind k w op0 Go Iw) as [_ Oo].
    destruct (plain_walk dflt l st Pl) as [lt [tc Wl]]. destruct (plain_types dflt l a Pl Gl Dl) as [Al Ml].
    destruct (IH b0 (LState (stack st) lt tc) Gr Dr C eq_refl) as [m [st' [junk [W [S [Cj [Dn K]]]]]]]. cbn [stack] in S.
    eexists _, _, junk. split; [|split; [|split; [exact Cj|split; [constructor; [eassumption|exact Dl|exact Dn]|reflexivity]]]].
    + cbn [walk]. rewrite Wl. cbn [bind]. rewrite W. cbn [bind]. unfold push_context. cbn [map_context]. rewrite S.
      rewrite (loose_types _ _ dflt R), Al. cbn [bind pop fst snd kind]. rewrite Oo. reflexivity.
    + reflexivity.
  - inversion D; subst. ren D l Dl. ren D r Dr. renw. cbn [yield] in G. apply Forall_app in G. destruct G as [Gl G]. inversion G as [|? ? Go Gr]; subst. destruct (arithmetic_kind k w op0 Go Iw) as [_ Oo].
    destruct (IH a st Gl Dl C eq_refl) as [m [st' [junk [W [S [Cj [Dn K]]]]]]]. destruct (plain_walk dflt r st' Pr) as [lt [tc Wr]].
    destruct (plain_types dflt r b0 Pr Gr Dr) as [Ar Mr].
    eexists _, _, junk. split; [|split; [|split; [exact Cj|split; [constructor; [eassumption|exact Dn|exact Dr]|reflexivity]]]].
    + cbn [walk]. rewrite W. cbn [bind]. rewrite Wr. cbn [bind]. unfold push_context. cbn [map_context stack]. rewrite S.
      rewrite (loose_types _ _ dflt R), Ar. cbn [bind pop fst snd kind]. rewrite Oo. reflexivity.
    + reflexivity.
  - inversion D; subst. ren D l Dl. ren D r Dr. renw. cbn [yield] in G. apply Forall_app in G. destruct G as [Gl G]. inversion G as [|? ? Go Gr]; subst. destruct (arithmetic_kind k w op0 Go Iw) as [_ Oo].
    destruct (IHl a st Gl Dl C eq_refl) as [m [st1 [junk [W1 [S1 [Cj [D1 K1]]]]]]]. pose proof (loose_sort _ _ Rl) as NS.
    assert (C1 : clean (stack st1)) by (rewrite S1; constructor; [congruence|apply Forall_app; split; assumption]).
    assert (T1 : top_sort (stack st1) = sort_of l) by (rewrite S1; exact K1).
    destruct (walk_regular dflt _ r Rr b0 st1 Gr Dr C1 T1) as [m2 [st2 [W2 [S2 [D2 K2]]]]].
    eexists _, _, junk. split; [|split; [|split; [exact Cj|split; [constructor; [eassumption|exact D1|exact D2]|reflexivity]]]].
    + cbn [walk]. rewrite W1. cbn [bind]. rewrite W2. cbn [bind]. unfold push_context. cbn [map_context]. rewrite S2, S1.
      rewrite (loose_types _ _ dflt Rl), (regular_types _ _ dflt Rr). cbn [bind fst snd kind]. rewrite Oo. reflexivity.
    + reflexivity.
  - inversion D; subst. ren D l Dl. ren D r Dr. renw. cbn [yield] in G. apply Forall_app in G. destruct G as [Gl G]. inversion G as [|? ? Go Gr]; subst. destruct (connective_kind k w op0 Go Iw) as [_ Oo].
    destruct (IHl a st Gl Dl C eq_refl) as [m [st1 [junk [W1 [S1 [Cj [D1 K1]]]]]]]. pose proof (loose_sort _ _ Rl) as NS.
    assert (C1 : clean (stack st1)) by (rewrite S1; constructor; [congruence|apply Forall_app; split; assumption]).
    assert (T1 : top_sort (stack st1) = sort_of l) by (rewrite S1; exact K1).
    destruct (walk_regular dflt _ r Rr b0 st1 Gr Dr C1 T1) as [m2 [st2 [W2 [S2 [D2 K2]]]]].
    eexists _, _, junk. split; [|split; [|split; [exact Cj|split; [constructor; [eassumption|exact D1|exact D2]|reflexivity]]]].
    + cbn [walk]. rewrite W1. cbn [bind]. rewrite W2. cbn [bind]. unfold exit_binary. rewrite S2, S1. cbn [kind]. rewrite Oo. reflexivity.
    + reflexivity.
Qed.

Lemma listen_loose dflt t n0 : loose Nothing t -> Forall genuine (yield t) -> denotes dflt t n0 -> exists n, listen dflt t = Ok n /\ denotes dflt t n.
Proof.
  intros R G D. destruct (walk_loose dflt Nothing t R n0 (LState [] None 0) G D) as [n [st [junk [W [S [_ [Dn _]]]]]]]; [constructor|reflexivity|].
  exists n. split; [|exact Dn]. unfold listen. rewrite W. cbn [bind]. unfold exit_parse. rewrite S. reflexivity.
Qed.
Lemma loose_meaning E s t n d dflt : lex s = Ok (yield t) -> reads 0 t eof -> loose Nothing t -> denotes dflt t n ->
  evaluate_boolean E s d dflt = bool_eval E d n /\ (dflt = None -> evaluate_arith E s d = arith_eval E d n).
Proof.
  intros L R Rg D. destruct (listen_loose dflt t n Rg (lex_genuine _ _ L) D) as [n' [Ls D']].
  assert (P : parse_expression s dflt = Ok n') by (unfold parse_expression; rewrite L; cbn [bind]; rewrite (parse_any_complete t R); cbn [bind]; exact Ls).
  destruct (denotes_same E d dflt t n' n D' D) as [B A]. split; [unfold evaluate_boolean; rewrite P; exact B|].
  intros ->. unfold evaluate_arith. rewrite P. exact A.
Qed.

(** ** Two operators in a list element *)
Lemma element_duplicated E d f fn x o1 op1 y o2 op2 z ws m n p ns : In (f, fn) function_names -> operand x m -> operand y n -> operand z p ->
  In (o1, op1) arithmetic_symbols -> In (o2, op2) arithmetic_symbols -> listed ws ns ->
  evaluate_arith E (unwords (f :: bracketed ([x; o1; y; o2; z; J ","] ++ commas ws))) d =
    arith_eval E d (NFunc fn ((if tightness op1 <? tightness op2 then bin m op1 (bin m op1 (bin n op2 p)) else bin (bin (bin m op1 n) op2 p) op2 p) :: ns)).
Proof.
  intros If X Y Z I1 I2 Ls. destruct (operand_token _ _ X) as [kx [Gx [Kx Mx]]]. destruct (operand_token _ _ Y) as [ky [Gy [Ky My]]]. destruct (operand_token _ _ Z) as [kz [Gz [Kz Mz]]].
  destruct (symbol_level _ _ I1) as [k1 [G1 [A1 L1]]]. destruct (symbol_level _ _ I2) as [k2 [G2 [A2 L2]]]. destruct (function_token f fn If) as [kf [Gf [Kf Of]]].
  pose proof (proj2 (arithmetic_kind k1 o1 op1 G1 I1)) as O1. pose proof (proj2 (arithmetic_kind k2 o2 op2 G2 I2)) as O2.
  destruct (listed_good _ _ Ls) as [items [Yi [Gi [Ri [Pi Di]]]]]. pose proof (reads_items_nonempty _ Ri) as NE.
  set (it := if tightness op1 <? tightness op2 then PArith (PTypes (Tok kx x)) (Tok k1 o1) (PArith (PTypes (Tok ky y)) (Tok k2 o2) (PTypes (Tok kz z)))
             else PArith (PArith (PTypes (Tok kx x)) (Tok k1 o1) (PTypes (Tok ky y))) (Tok k2 o2) (PTypes (Tok kz z))).
  assert (YT : yield (PFunc (Tok kf f) (it :: items)) = [Tok kf f; lparen; Tok kx x; Tok k1 o1; Tok ky y; Tok k2 o2; Tok kz z; comma] ++ sep_yield items ++ [rparen]).
  { rewrite yield_func. rewrite sep_yield_cons by exact NE. unfold it. destruct (tightness op1 <? tightness op2); cbn [yield app]; reflexivity. }
  assert (L : lex (unwords (f :: bracketed ([x; o1; y; o2; z; J ","] ++ commas ws))) = Ok (yield (PFunc (Tok kf f) (it :: items)))).
  { rewrite <- (unwords_lex (yield (PFunc (Tok kf f) (it :: items)))).
    - do 2 f_equal. rewrite YT. rewrite !map_app, Yi. reflexivity.
    - rewrite YT. pose proof lparen_genuine. pose proof rparen_genuine. pose proof comma_genuine. apply Forall_app. split; [genuines|]. apply Forall_app. split; [exact Gi|genuines]. }
  assert (R : reads 0 (PFunc (Tok kf f) (it :: items)) eof).
  { apply r_func; [exact Kf|]. apply r_more; [|exact Ri]. unfold it. destruct (Nat.ltb_spec (tightness op1) (tightness op2)).
    - eapply r_arith; [exact A1|exact L1|lia|apply r_operand; exact Kx|]. eapply r_arith; [exact A2|exact L2|lia|apply r_operand; exact Ky|apply r_operand; exact Kz].
    - eapply r_arith; [exact A2|exact L2|lia| |apply r_operand; exact Kz]. eapply r_arith; [exact A1|exact L1|lia|apply r_operand; exact Kx|apply r_operand; exact Ky]. }
  set (N1 := if tightness op1 <? tightness op2 then bin m op1 (bin n op2 p) else bin (bin m op1 n) op2 p).
  assert (W : exists lt tc, walk None it (LState [] None 0) = Ok (LState [N1] lt tc)).
  { unfold it, N1. destruct (tightness op1 <? tightness op2); cbn [walk]; unfold push_context;
      do 4 (cbn [bind exit_types map_context as_types stack last_token token_count fst snd pop kind]; rewrite ?Mx, ?My, ?Mz);
      cbn [bind exit_types map_context as_types stack last_token token_count fst snd pop kind]; rewrite ?O1, ?O2; eexists _, _; reflexivity. }
  assert (M : map_context None it [N1] = Ok (if tightness op1 <? tightness op2 then bin m op1 N1 else bin N1 op2 p, [])).
  { unfold it. destruct (tightness op1 <? tightness op2); cbn [map_context as_types]; rewrite ?Mx, ?My, ?Mz; cbn [bind fst snd pop kind]; rewrite ?O1, ?O2; reflexivity. }
  destruct W as [lt [tc W]]. destruct (plain_list None items ns Pi Gi (Di None)) as [Wl Ml]. destruct (Wl (LState [N1] lt tc)) as [lt' [tc' Wst]].
  unfold evaluate_arith, parse_expression. rewrite L. cbn [bind]. rewrite (parse_any_complete _ R). cbn [bind]. unfold listen. rewrite walk_func.
  change (walk_list None (it :: items) (LState [] None 0)) with (st' <- walk None it (LState [] None 0) ;; walk_list None items st'). rewrite W. cbn [bind]. rewrite Wst. cbn [bind stack].
  unfold push_context. rewrite context_func. cbn [kind stack]. rewrite Of. cbn [map_elements]. rewrite M. cbn [bind fst snd]. rewrite Ml. cbn [bind fst snd exit_parse stack].
  unfold N1. destruct (tightness op1 <? tightness op2); reflexivity.
Qed.
Lemma element_duplicated_sum : exists E d, evaluate_arith E (J "sum (1 + 2 + 3, 10)") d = Ok (VInt 19).
Proof. exists witness_env, []. vm_compute. reflexivity. Qed.

(** ** Bare operands *)
Lemma bare_parse k w dflt : genuine (Tok k w) -> operand_kind k -> parse_expression w dflt = listen dflt (PTypes (Tok k w)).
Proof.
  intros G K. unfold parse_expression. change (lex w) with (lex (text (Tok k w))). rewrite (genuine_lex _ G). cbn [bind].
  change [Tok k w] with (yield (PTypes (Tok k w))). rewrite parse_any_complete by (apply r_operand; exact K). reflexivity.
Qed.
Lemma bare_field E d dflt f : field_name f -> evaluate_boolean E f d dflt = Ok false.
Proof.
  intros F. unfold evaluate_boolean. rewrite (bare_parse T_FIELD f dflt (field_genuine f F)) by (cbn; tauto). reflexivity.
Qed.
Lemma field_looked_up E d f : field_name f -> evaluate_arith E f d = arith_eval E d (NField (Some f)).
Proof. intros F. unfold evaluate_arith. rewrite (bare_parse T_FIELD f None (field_genuine f F)) by (cbn; tauto). reflexivity. Qed.
Lemma bare_literal k w s dflt : genuine (Tok k w) -> operand_kind k -> k <> T_FIELD -> convert_value w STRING = Ok (VStr s) ->
  parse_expression w dflt = Ok (NUnary STRING (VStr s)).
Proof.
  intros G K NF C. rewrite (bare_parse k w dflt G K). unfold listen. cbn [walk bind exit_types exit_parse stack token_count last_token kind text].
  rewrite C. cbn [bind to_string]. destruct k; try reflexivity. contradiction.
Qed.
Lemma unary_lookup E d s : bool_eval E d (NUnary STRING (VStr s)) = boolean (arith_eval E d (NField (Some s))).
Proof. cbn [bool_eval arith_eval dtype_eqb to_string bind]. change (show (VStr s)) with s. unfold boolean. destruct (field_value_or_fail (Some s) d) as [v|e]; [destruct v; reflexivity|reflexivity]. Qed.
Lemma bare_boolean E d dflt w : In w [J "true"; J "TRUE"; J "false"; J "FALSE"] -> evaluate_boolean E w d dflt = boolean (arith_eval E d (NField (Some w))).
Proof.
  intros I. rewrite <- unary_lookup. unfold evaluate_boolean.
  assert (X : exists k, genuine (Tok k w) /\ operand_kind k /\ k <> T_FIELD).
  { cbn [In] in I. destruct I as [<-|[<-|[<-|[<-|[]]]]]; [exists T_TRUE|exists T_TRUE|exists T_FALSE|exists T_FALSE];
      (split; [apply lex_one_genuine; vm_compute; reflexivity|split; [cbn; tauto|discriminate]]). }
  destruct X as [k [G [K NF]]]. rewrite (bare_literal k w w dflt G K NF); [reflexivity|].
  cbn [In] in I. destruct I as [<-|[<-|[<-|[<-|[]]]]]; reflexivity.
Qed.
Lemma bare_quoted E d dflt q s : q = ch "'" \/ q = 34%N -> ~ In q s -> evaluate_boolean E (q :: s ++ [q]) d dflt = boolean (arith_eval E d (NField (Some s))).
Proof.
  intros Q N. rewrite <- unary_lookup. unfold evaluate_boolean. rewrite (bare_literal T_WORD _ s dflt (quoted_genuine q s Q N)); [reflexivity|cbn; tauto|discriminate|].
  apply convert_quoted, Q.
Qed.
Lemma bare_not E d dflt no f : In no not_words -> field_name f ->
  evaluate_boolean E (unwords [no; f]) d dflt = (b <- boolean (arith_eval E d (NField (Some f))) ;; Ok (negb b)).
Proof.
  intros I F. assert (Gn : genuine (Tok T_NOT no)) by (apply (word_token T_NOT (J "NOT") (J "not")); [cbn; tauto|]; apply two_words, I).
  pose proof (field_genuine f F) as Gf. unfold evaluate_boolean, parse_expression.
  change (unwords [no; f]) with (unwords (map text [Tok T_NOT no; Tok T_FIELD f])). rewrite unwords_lex by genuines. cbn [bind].
  change [Tok T_NOT no; Tok T_FIELD f] with (yield (PNot (Tok T_NOT no) (PTypes (Tok T_FIELD f)))).
  rewrite parse_any_complete by (apply r_not; [reflexivity|apply r_operand; cbn; tauto]). cbn [bind].
  unfold listen. cbn [walk bind exit_types]. unfold exit_not. cbn [stack last_token text].
  assert (C : convert_value f STRING = Ok (VStr f)).
  { destruct F as [W _]. unfold convert_value, quoted_by. destruct f as [|c f]; [reflexivity|]. inversion W as [|? ? Wc _]; subst.
    assert (NC : (c =? ch "'")%N = false /\ (c =? 34)%N = false).
    { split; apply N.eqb_neq; intros ->; vm_compute in Wc; discriminate. }
    destruct NC as [-> ->]. reflexivity. }
  unfold exit_types. cbn [stack last_token text token_data_type kind]. rewrite C. cbn [bind exit_parse stack]. change (bool_eval E d (NBool (NUnary STRING (VStr f)) None NOT)) with (b <- bool_eval E d (NUnary STRING (VStr f)) ;; Ok (negb b)).
  rewrite unary_lookup. reflexivity.
Qed.
Lemma bare_number E d w n : operand w n -> match n with NUnary dt _ => In dt [INTEGER; LONG; DECIMAL; BOOLEAN; VERSION] | _ => False end ->
  evaluate_arith E w d = Ok (VStr w).
Proof.
  intros O H. destruct (operand_token w n O) as [k [G [K M]]]. unfold evaluate_arith. rewrite (bare_literal k w w None G K); [reflexivity| |].
  - intros ->. specialize (M None). unfold map_types_token in M. cbn [kind] in M. injection M as <-. exact H.
  - assert (HD : forall c l, w = c :: l -> is_digit c = true \/ In w [J "true"; J "TRUE"; J "false"; J "FALSE"]).
    { destruct O; cbn in H; try contradiction; try (exfalso; decompose [or] H; try discriminate; contradiction).
      - intros c l E0. left. destruct H0 as [_ F]. subst. inversion F. assumption.
      - intros c l E0. left. destruct H0 as [_ F]. subst. inversion F. assumption.
      - intros c l E0. left. destruct H0 as [N F]. destruct a as [|x a]; [contradiction|]. injection E0 as <- _. inversion F. assumption.
      - intros. right. cbn in *. intuition.
      - intros. right. cbn in *. intuition.
      - intros x l E0. left. injection E0 as <- _. assumption. }
    unfold convert_value, quoted_by. destruct w as [|c w]; [reflexivity|].
    assert (NC : (c =? ch "'")%N = false /\ (c =? 34)%N = false).
    { destruct (HD c w eq_refl) as [D|D]; [split; apply N.eqb_neq; intros ->; vm_compute in D; discriminate|].
      cbn [In] in D. destruct D as [D|[D|[D|[D|[]]]]]; injection D as <- _; split; reflexivity. }
    destruct NC as [-> ->]. reflexivity.
Qed.
