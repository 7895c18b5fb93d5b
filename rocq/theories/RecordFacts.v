(** The data type recorded in a comparison: the exact tree of a text. *)
From Verif Require Import Recover RecoverFacts ListenAny.
From Verif Require Import Base JNum BigDec Dates Values Ops Funcs Ast Eval Lexer Grammar Listener Api SpecBool SpecCompare SpecPath SpecArith SpecLex SpecDate
  SpecGrammar SpecSyntax SpecText SpecRecord NumFacts CacheFacts BoolFacts CompareFacts ValuesFacts FieldFacts LexFacts LexSplit LexWords LexApi LexCases SyntaxFacts ParseFuel ParseFacts
  ParseShapes ListenFacts TextFacts TextApi ListText.

(** A missing operand stands before a token that is no literal. *)
Fixpoint strict (t : ptree) : Prop :=
  match t with
  | PEps next => token_data_type next = STRING
  | PParen t | PNot _ t | PNeg t => strict t
  | PCmp l _ r | PArith l _ r | PBin l _ r => strict l /\ strict r
  | _ => True
  end.
Lemma reads_strict m t next : reads m t next -> strict t.
Proof.
  induction 1; cbn [strict]; auto. destruct next as [k w]. cbn in *. unfold token_data_type. cbn [kind].
  destruct k; try reflexivity; exfalso; apply H; right; left; unfold operand_kind; cbn; tauto.
Qed.

Lemma recorded_all items : (fix all (l : list node) : Prop := match l with [] => True | i :: l' => recorded i /\ all l' end) items <-> Forall recorded items.
Proof.
  induction items as [|i l IH]; cbn; [split; constructor|]. rewrite IH. split; [intros [A B]; constructor; assumption|intros A; inversion A; auto].
Qed.
Lemma plain_recorded dflt t n : plain t = true -> denotes dflt t n -> recorded n /\ node_sort n = Nothing.
Proof.
  intros P D. destruct t; try discriminate P; inversion D; subst; [|split; [exact I|reflexivity]].
  match goal with X : operand _ _ |- _ => destruct X; split; try exact I; reflexivity end.
Qed.
Lemma plain_type dflt t n : plain t = true -> strict t -> Forall genuine (yield t) -> denotes dflt t n -> token_data_type (start t) = literal_type n.
Proof.
  intros P X G D. destruct t; try discriminate P; inversion D; subst; [|exact X].
  inversion G; subst. cbn [start]. match goal with Y : operand w n |- _ => rename Y into O end. match goal with Y : genuine (Tok k w) |- _ => rename Y into Gk end.
  destruct n as [f|dt v| | | | | | |]; try (exfalso; inversion O; fail).
  - destruct (operand_mapped k w _ None Gk O) as [_ M]. destruct (tkind_eq_dec k T_FIELD) as [->|N]; [reflexivity|].
    rewrite (map_literal None k w Gk N) in M. destruct (convert_value w _); discriminate M.
  - exact (proj1 (literal_converted k w dt v Gk O)).
Qed.
Lemma simple_recorded dflt : (forall t, simple t -> forall n, denotes dflt t n -> recorded n) /\ (forall ts, simples ts -> forall ns, denotes_list dflt ts ns -> Forall recorded ns).
Proof.
  apply (simple_mut (fun t => forall n, denotes dflt t n -> recorded n) (fun ts => forall ns, denotes_list dflt ts ns -> Forall recorded ns)).
  - intros t P n D. exact (proj1 (plain_recorded dflt t n P D)).
  - intros l op r Pl Pr n D. inversion D; subst. ren D l Dl. ren D r Dr. split; [exact (proj1 (plain_recorded _ _ _ Pl Dl))|exact (proj1 (plain_recorded _ _ _ Pr Dr))].
  - intros fn items _ IH n D. inversion D; subst. rens. cbn [recorded]. apply recorded_all, IH, Ds.
  - intros ns D. inversion D. constructor.
  - intros t ts _ IH _ IHs ns D. inversion D; subst. constructor; auto.
Qed.
Lemma plain_list_recorded dflt items ns : forallb plain items = true -> denotes_list dflt items ns -> Forall recorded ns.
Proof.
  intros P D. apply (proj2 (simple_recorded dflt) items); [|exact D]. clear D. induction items as [|i l IH]; [constructor|]. cbn in P. apply andb_true_iff in P. destruct P as [A B].
  constructor; [constructor; exact A|auto].
Qed.
Lemma compared_plain a b : node_sort b = Nothing -> compared_type a b = literal_type b.
Proof. destruct b; try discriminate; reflexivity. Qed.
Lemma compared_compound a b : node_sort b <> Nothing -> compared_type a b = literal_type a.
Proof. destruct b; intros H; try reflexivity; contradiction H; reflexivity. Qed.

Definition pushed_recorded (dflt : option jstr) (t : ptree) (st : lstate) : Prop :=
  exists n st', walk dflt t st = Ok st' /\ stack st' = n :: stack st /\ (denotes dflt t n /\ recorded n) /\ node_sort n = sort_of t.
Ltac sub X := cbn [strict] in X; first [exact X|exact (proj1 X)|exact (proj2 X)].
Ltac rec1 :=
  match goal with
  | |- _ /\ _ => split
  | |- True => exact I
  | X : _ /\ recorded ?n |- recorded ?n => exact (proj2 X)
  | P : plain ?t = true, X : denotes _ ?t ?n |- recorded ?n => exact (proj1 (plain_recorded _ _ _ P X))
  | P : plain ?r = true, X : denotes _ ?r ?b, G : Forall genuine (yield ?r), S : strict _ |- token_data_type (start ?r) = compared_type ?a ?b =>
      rewrite (compared_plain a b (proj2 (plain_recorded _ _ _ P X))); apply (plain_type _ _ _ P ltac:(sub S) G X)
  | P : plain ?l = true, X : denotes _ ?l ?a, G : Forall genuine (yield ?l), S : strict _ |- token_data_type (start ?l) = compared_type ?a ?b =>
      rewrite (compared_compound a b); [apply (plain_type _ _ _ P ltac:(sub S) G X)|congruence]
  | P : forallb plain _ = true, X : denotes_list _ _ ?ns |- _ => apply recorded_all; exact (plain_list_recorded _ _ _ P X)
  | P : simples _, X : denotes_list _ _ ?ns |- _ => apply recorded_all; exact (proj2 (simple_recorded _) _ P _ X)
  end.
Ltac rec_rest := repeat match goal with X : _ /\ recorded _ |- _ => apply proj2 in X; cbn [recorded] in X end; tauto.
Ltac rec := cbn [recorded]; repeat rec1; try rec_rest.

Lemma walk_regular_recorded dflt b t : regular b t -> forall n0 st, strict t -> Forall genuine (yield t) -> denotes dflt t n0 -> clean (stack st) -> top_sort (stack st) = b -> pushed_recorded dflt t st.
Proof.
  induction 1 as [b t R IH|b nt t R IH|b t R IH S0|b t P B|b f lo to hi|b fn items P|b f neg it items P|b f op items P
    |b l op r Pl Pr B|b l op r Pl R IH F|b l op r R IH Pr F|b l op r Pl Pr|b l op r Pl R IH|b l op r R IH Pr|b l op r Rl IHl Rr IHr|b l op r Rl IHl Rr IHr];
    intros n0 st X G D C T; inversion D; subst; unfold pushed_recorded.
  - (* parentheses *)
    ren D t Dt. cbn [yield] in G. inversion G as [|? ? G1 G2]; subst. apply Forall_app in G2. destruct (IH n0 st ltac:(sub X) (proj1 G2) Dt C eq_refl) as [n [st' [W [S [Dn K]]]]].
    exists n, st'. split; [exact W|]. split; [exact S|]. split; [split; [constructor; exact (proj1 Dn)|rec]|exact K].
  - (* NOT *)
    ren D t Dt. cbn [yield] in G. inversion G as [|? ? G1 G2]; subst. destruct (IH n st ltac:(sub X) G2 Dt C eq_refl) as [m [st' [W [S [Dn K]]]]].
    cbn [walk]. rewrite W. cbn [bind]. unfold exit_not. rewrite S. eexists _, _. split; [reflexivity|]. split; [reflexivity|]. split; [split; [constructor; exact (proj1 Dn)|rec]|reflexivity].
  - (* negation of a compound *)
    ren D t Dt. cbn [yield] in G. inversion G as [|? ? G1 G2]; subst. destruct (IH n st ltac:(sub X) G2 Dt C eq_refl) as [m [st' [W [S [Dn K]]]]].
    rewrite S0 in K. destruct m; try discriminate K. cbn [walk]. rewrite W. cbn [bind]. unfold exit_unary. rewrite S.
    eexists _, _. split; [reflexivity|]. split; [reflexivity|]. split; [split; [constructor; exact (proj1 Dn)|rec]|reflexivity].
  - (* negation of a plain operand *)
    ren D t Dt. cbn [yield] in G. inversion G as [|? ? G1 G2]; subst. destruct (plain_walk dflt t st P) as [lt [tc W]]. destruct (plain_types dflt t n P G2 Dt) as [A _].
    cbn [walk]. rewrite W. cbn [bind]. unfold exit_unary. cbn [stack]. rewrite A.
    exists (NArith n None UNARY), (LState (NArith n None UNARY :: stack st) lt tc). split; [|split; [reflexivity|split; [split; [constructor; exact Dt|rec]|reflexivity]]].
    destruct (stack st) as [|x s]; [reflexivity|]. destruct x; try reflexivity. contradiction B; reflexivity.
  - (* range *)
    match goal with X : operand lo0 _ |- _ => rename X into Oa end. match goal with X : operand hi0 _ |- _ => rename X into Ob end. renf. cbn [yield] in G. inversion G as [|? ? G1 G2]; subst. inversion G2 as [|? ? G3 G4]; subst. inversion G4 as [|? ? G5 G6]; subst. inversion G6 as [|? ? G7 G8]; subst.
    destruct (literal_converted _ _ _ _ G3 Oa) as [Ta Ca]. destruct (literal_converted _ _ _ _ G7 Ob) as [Tb Cb].
    eexists _, _. split; [|split; [|split; [split; [exact D|rec]|reflexivity]]].
    + cbn [walk]. unfold push_context. cbn [map_context text]. rewrite (named_ok dflt f Ff). cbn [bind]. rewrite Ca. cbn [bind]. rewrite Cb. cbn [bind fst snd]. rewrite Ta, Tb. reflexivity.
    + reflexivity.
  - (* function *)
    rens. renw. rewrite yield_func in G. assert (Gs := sep_genuine [Tok k w] _ _ G). inversion G as [|? ? G1 G2]; subst.
    destruct (function_kind_of k w fn0 G1 Iw) as [_ Fo]. destruct (plain_list dflt items ns P Gs Ds) as [W M]. destruct (W st) as [lt [tc Wst]].
    eexists _, _. split; [|split; [|split; [split; [exact D|rec]|reflexivity]]].
    + rewrite walk_func, Wst. cbn [bind]. unfold push_context. rewrite context_func. cbn [kind stack]. rewrite Fo, M. reflexivity.
    + reflexivity.
  - (* IN *)
    rens. renf. rewrite yield_in in G. assert (Gs := sep_genuine [f; it] _ _ G). destruct (plain_list dflt items ns P Gs Ds) as [W M]. destruct (W st) as [lt [tc Wst]].
    eexists _, _. split; [|split; [|split; [split; [exact D|rec]|reflexivity]]].
    + rewrite walk_in, Wst. cbn [bind]. unfold push_context. rewrite context_in. rewrite (named_ok dflt f Ff). cbn [bind stack]. rewrite M. reflexivity.
    + reflexivity.
  - (* NOT IN *)
    rens. renf. rewrite yield_in in G. assert (Gs := sep_genuine [f; nt; it] _ _ G). destruct (plain_list dflt items ns P Gs Ds) as [W M]. destruct (W st) as [lt [tc Wst]].
    eexists _, _. split; [|split; [|split; [split; [exact D|rec]|reflexivity]]].
    + rewrite walk_in, Wst. cbn [bind]. unfold push_context. rewrite context_in. rewrite (named_ok dflt f Ff). cbn [bind stack]. rewrite M. reflexivity.
    + reflexivity.
  - (* CONTAINS *)
    rens. renf. renw. rewrite yield_array in G. assert (Gs := sep_genuine [f; Tok k w] _ _ G). inversion G as [|? ? G1 G2]; subst. inversion G2 as [|? ? G3 G4]; subst.
    destruct (array_kind k w op0 G3 Iw) as [_ Ao]. destruct (plain_list dflt items ns P Gs Ds) as [W M]. destruct (W st) as [lt [tc Wst]].
    eexists _, _. split; [|split; [|split; [split; [exact D|rec]|reflexivity]]].
    + rewrite walk_array, Wst. cbn [bind]. unfold exit_array. rewrite (named_ok dflt f Ff). cbn [bind stack kind]. rewrite M, Ao. reflexivity.
    + reflexivity.
  - (* comparison of plain operands *)
    ren D l Dl. ren D r Dr. renw. cbn [yield] in G. apply Forall_app in G. destruct G as [Gl G]. inversion G as [|? ? Go Gr]; subst. destruct (comparator_kind k w op0 Go Iw) as [_ Oo].
    destruct (plain_walk dflt l st Pl) as [lt [tc Wl]]. destruct (plain_walk dflt r (LState (stack st) lt tc) Pr) as [lt' [tc' Wr]].
    destruct (plain_types dflt l a Pl Gl Dl) as [Al Ml]. destruct (plain_types dflt r b0 Pr Gr Dr) as [Ar Mr].
    eexists _, _. split; [|split; [|split; [split; [constructor; eassumption|]|reflexivity]]].
    + cbn [walk]. rewrite Wl. cbn [bind]. rewrite Wr. cbn [bind]. unfold push_context. cbn [stack]. cbn [map_context].
      rewrite steals_not; [|exact Pl|exact Pr|exact B|]. 2:{ destruct (stack st); [left; reflexivity|right; inversion C; assumption]. }
      rewrite Mr. cbn [bind snd fst]. rewrite Ml. cbn [bind snd fst kind]. rewrite Oo. reflexivity.
    + reflexivity.
    + rec.
  - (* compound on the right *)
    ren D l Dl. ren D r Dr. renw. cbn [yield] in G. apply Forall_app in G. destruct G as [Gl G]. inversion G as [|? ? Go Gr]; subst. destruct (comparator_kind k w op0 Go Iw) as [_ Oo].
    destruct (plain_walk dflt l st Pl) as [lt [tc Wl]]. destruct (plain_types dflt l a Pl Gl Dl) as [Al Ml].
    destruct (IH b0 (LState (stack st) lt tc) ltac:(sub X) Gr Dr C eq_refl) as [m [st' [W [S [Dn K]]]]]. cbn [stack] in S.
    destruct (regular_sort _ _ R) as [NS _].
    eexists _, _. split; [|split; [|split; [split; [constructor; [eassumption|exact Dl|exact (proj1 Dn)]|]|reflexivity]]].
    + cbn [walk]. rewrite Wl. cbn [bind]. rewrite W. cbn [bind]. unfold push_context. cbn [map_context]. rewrite S.
      rewrite steals_fit; [|congruence|]. 2:{ destruct F as [[t' ->]|F]; [right; left; reflexivity|right; right; congruence]. }
      rewrite Al. cbn [bind pop fst snd kind]. rewrite Oo. reflexivity.
    + reflexivity.
    + rec.
  - (* compound on the left *)
    ren D l Dl. ren D r Dr. renw. cbn [yield] in G. apply Forall_app in G. destruct G as [Gl G]. inversion G as [|? ? Go Gr]; subst. destruct (comparator_kind k w op0 Go Iw) as [_ Oo].
    destruct (IH a st ltac:(sub X) Gl Dl C eq_refl) as [m [st' [W [S [Dn K]]]]]. destruct (plain_walk dflt r st' Pr) as [lt [tc Wr]].
    destruct (plain_types dflt r b0 Pr Gr Dr) as [Ar Mr]. destruct (regular_sort _ _ R) as [NS _].
    eexists _, _. split; [|split; [|split; [split; [constructor; [eassumption|exact (proj1 Dn)|exact Dr]|]|reflexivity]]].
    + cbn [walk]. rewrite W. cbn [bind]. rewrite Wr. cbn [bind]. unfold push_context. cbn [map_context stack]. rewrite S.
      rewrite steals_fit; [|congruence|]. 2:{ destruct F as [[t' ->]|F]; [left; reflexivity|right; right; congruence]. }
      rewrite (regular_types _ _ dflt R), Ar. cbn [bind pop fst snd kind]. rewrite Oo. reflexivity.
    + reflexivity.
    + rec.
  - (* arithmetic on plain operands *)
    ren D l Dl. ren D r Dr. renw. cbn [yield] in G. apply Forall_app in G. destruct G as [Gl G]. inversion G as [|? ? Go Gr]; subst. destruct (arithmetic_kind k w op0 Go Iw) as [_ Oo].
    destruct (plain_walk dflt l st Pl) as [lt [tc Wl]]. destruct (plain_walk dflt r (LState (stack st) lt tc) Pr) as [lt' [tc' Wr]].
    destruct (plain_types dflt l a Pl Gl Dl) as [Al Ml]. destruct (plain_types dflt r b0 Pr Gr Dr) as [Ar Mr].
    eexists _, _. split; [|split; [|split; [split; [constructor; eassumption|]|reflexivity]]].
    + cbn [walk]. rewrite Wl. cbn [bind]. rewrite Wr. cbn [bind]. unfold push_context. cbn [stack]. cbn [map_context].
      rewrite Al, Ar. cbn [bind snd fst kind]. rewrite Oo. reflexivity.
    + reflexivity.
    + rec.
  - ren D l Dl. ren D r Dr. renw. cbn [yield] in G. apply Forall_app in G. destruct G as [Gl G]. inversion G as [|? ? Go Gr]; subst. destruct (arithmetic_kind k w op0 Go Iw) as [_ Oo].
    destruct (plain_walk dflt l st Pl) as [lt [tc Wl]]. destruct (plain_types dflt l a Pl Gl Dl) as [Al Ml].
    destruct (IH b0 (LState (stack st) lt tc) ltac:(sub X) Gr Dr C eq_refl) as [m [st' [W [S [Dn K]]]]]. cbn [stack] in S.
    eexists _, _. split; [|split; [|split; [split; [constructor; [eassumption|exact Dl|exact (proj1 Dn)]|]|reflexivity]]].
    + cbn [walk]. rewrite Wl. cbn [bind]. rewrite W. cbn [bind]. unfold push_context. cbn [map_context]. rewrite S.
      rewrite (regular_types _ _ dflt R), Al. cbn [bind pop fst snd kind]. rewrite Oo. reflexivity.
    + reflexivity.
    + rec.
  - ren D l Dl. ren D r Dr. renw. cbn [yield] in G. apply Forall_app in G. destruct G as [Gl G]. inversion G as [|? ? Go Gr]; subst. destruct (arithmetic_kind k w op0 Go Iw) as [_ Oo].
    destruct (IH a st ltac:(sub X) Gl Dl C eq_refl) as [m [st' [W [S [Dn K]]]]]. destruct (plain_walk dflt r st' Pr) as [lt [tc Wr]].
    destruct (plain_types dflt r b0 Pr Gr Dr) as [Ar Mr].
    eexists _, _. split; [|split; [|split; [split; [constructor; [eassumption|exact (proj1 Dn)|exact Dr]|]|reflexivity]]].
    + cbn [walk]. rewrite W. cbn [bind]. rewrite Wr. cbn [bind]. unfold push_context. cbn [map_context stack]. rewrite S.
      rewrite (regular_types _ _ dflt R), Ar. cbn [bind pop fst snd kind]. rewrite Oo. reflexivity.
    + reflexivity.
    + rec.
  - ren D l Dl. ren D r Dr. renw. cbn [yield] in G. apply Forall_app in G. destruct G as [Gl G]. inversion G as [|? ? Go Gr]; subst. destruct (arithmetic_kind k w op0 Go Iw) as [_ Oo].
    destruct (IHl a st ltac:(sub X) Gl Dl C eq_refl) as [m [st1 [W1 [S1 [D1 K1]]]]]. destruct (regular_sort _ _ Rl) as [NS _].
    assert (C1 : clean (stack st1)) by (rewrite S1; constructor; [congruence|exact C]).
    assert (T1 : top_sort (stack st1) = sort_of l) by (rewrite S1; exact K1).
    destruct (IHr b0 st1 ltac:(sub X) Gr Dr C1 T1) as [m2 [st2 [W2 [S2 [D2 K2]]]]].
    eexists _, _. split; [|split; [|split; [split; [constructor; [eassumption|exact (proj1 D1)|exact (proj1 D2)]|]|reflexivity]]].
    + cbn [walk]. rewrite W1. cbn [bind]. rewrite W2. cbn [bind]. unfold push_context. cbn [map_context]. rewrite S2, S1.
      rewrite (regular_types _ _ dflt Rl), (regular_types _ _ dflt Rr). cbn [bind fst snd kind]. rewrite Oo. reflexivity.
    + reflexivity.
    + rec.
  - ren D l Dl. ren D r Dr. renw. cbn [yield] in G. apply Forall_app in G. destruct G as [Gl G]. inversion G as [|? ? Go Gr]; subst. destruct (connective_kind k w op0 Go Iw) as [_ Oo].
    destruct (IHl a st ltac:(sub X) Gl Dl C eq_refl) as [m [st1 [W1 [S1 [D1 K1]]]]]. destruct (regular_sort _ _ Rl) as [NS _].
    assert (C1 : clean (stack st1)) by (rewrite S1; constructor; [congruence|exact C]).
    assert (T1 : top_sort (stack st1) = sort_of l) by (rewrite S1; exact K1).
    destruct (IHr b0 st1 ltac:(sub X) Gr Dr C1 T1) as [m2 [st2 [W2 [S2 [D2 K2]]]]].
    eexists _, _. split; [|split; [|split; [split; [constructor; [eassumption|exact (proj1 D1)|exact (proj1 D2)]|]|reflexivity]]].
    + cbn [walk]. rewrite W1. cbn [bind]. rewrite W2. cbn [bind]. unfold exit_binary. rewrite S2, S1. cbn [kind]. rewrite Oo. reflexivity.
    + reflexivity.
    + rec.
Qed.

Lemma walk_loose_recorded dflt b t : loose b t -> forall n0 st, strict t -> Forall genuine (yield t) -> denotes dflt t n0 -> clean (stack st) -> top_sort (stack st) = b ->
  exists n st' junk, walk dflt t st = Ok st' /\ stack st' = n :: junk ++ stack st /\ clean junk /\ (denotes dflt t n /\ recorded n) /\ node_sort n = sort_of t.
Proof.
  induction 1 as [b t R|b fn items S0|b f neg it items S0|b f op items S0|b t R IH|b nt t R IH|b t R IH S0
    |b l op r Pl R IH F|b l op r R IH Pr F|b l op r Pl R IH|b l op r R IH Pr|b l op r Rl IHl Rr|b l op r Rl IHl Rr];
    intros n0 st X G D C T.
  - destruct (walk_regular_recorded dflt b t R n0 st ltac:(sub X) G D C T) as [n [st' [W [S [Dn K]]]]]. exists n, st', []. split; [exact W|]. split; [exact S|]. split; [constructor|]. split; [exact Dn|exact K].
  - inversion D; subst. rens. renw. rewrite yield_func in G. assert (Gs := sep_genuine [Tok k w] _ _ G). inversion G as [|? ? G1 G2]; subst.
    destruct (function_kind_of k w fn0 G1 Iw) as [_ Fo]. destruct (proj2 (simple_walk dflt) items S0 ns Gs Ds) as [M W]. destruct (W st) as [junk [lt [tc [Wst Cj]]]].
    eexists _, _, junk. split; [|split; [|split; [exact Cj|split; [split; [exact D|rec]|reflexivity]]]].
    + rewrite walk_func, Wst. cbn [bind]. unfold push_context. rewrite context_func. cbn [kind stack]. rewrite Fo, M. reflexivity.
    + reflexivity.
  - inversion D; subst.
    + rens. renf. rewrite yield_in in G. assert (Gs := sep_genuine [f; it] _ _ G). destruct (proj2 (simple_walk dflt) items S0 ns Gs Ds) as [M W]. destruct (W st) as [junk [lt [tc [Wst Cj]]]].
      eexists _, _, junk. split; [|split; [|split; [exact Cj|split; [split; [exact D|rec]|reflexivity]]]].
      * rewrite walk_in, Wst. cbn [bind]. unfold push_context. rewrite context_in. rewrite (named_ok dflt f Ff). cbn [bind stack]. rewrite M. reflexivity.
      * reflexivity.
    + rens. renf. rewrite yield_in in G. assert (Gs := sep_genuine [f; nt; it] _ _ G). destruct (proj2 (simple_walk dflt) items S0 ns Gs Ds) as [M W]. destruct (W st) as [junk [lt [tc [Wst Cj]]]].
      eexists _, _, junk. split; [|split; [|split; [exact Cj|split; [split; [exact D|rec]|reflexivity]]]].
      * rewrite walk_in, Wst. cbn [bind]. unfold push_context. rewrite context_in. rewrite (named_ok dflt f Ff). cbn [bind stack]. rewrite M. reflexivity.
      * reflexivity.
  - inversion D; subst. rens. renf. renw. rewrite yield_array in G. assert (Gs := sep_genuine [f; Tok k w] _ _ G). inversion G as [|? ? G1 G2]; subst. inversion G2 as [|? ? G3 G4]; subst.
    destruct (array_kind k w op0 G3 Iw) as [_ Ao]. destruct (proj2 (simple_walk dflt) items S0 ns Gs Ds) as [M W]. destruct (W st) as [junk [lt [tc [Wst Cj]]]].
    eexists _, _, junk. split; [|split; [|split; [exact Cj|split; [split; [exact D|rec]|reflexivity]]]].
    + rewrite walk_array, Wst. cbn [bind]. unfold exit_array. rewrite (named_ok dflt f Ff). cbn [bind stack kind]. rewrite M, Ao. reflexivity.
    + reflexivity.
  - inversion D; subst. ren D t Dt. cbn [yield] in G. inversion G as [|? ? G1 G2]; subst. apply Forall_app in G2. destruct (IH n0 st ltac:(sub X) (proj1 G2) Dt C eq_refl) as [n [st' [junk [W [S [Cj [Dn K]]]]]]].
    exists n, st', junk. split; [exact W|]. split; [exact S|]. split; [exact Cj|]. split; [split; [constructor; exact (proj1 Dn)|rec]|exact K].
  - inversion D; subst. ren D t Dt. cbn [yield] in G. inversion G as [|? ? G1 G2]; subst. destruct (IH n st ltac:(sub X) G2 Dt C eq_refl) as [m [st' [junk [W [S [Cj [Dn K]]]]]]].
    cbn [walk]. rewrite W. cbn [bind]. unfold exit_not. rewrite S. eexists _, _, junk. split; [reflexivity|]. split; [reflexivity|]. split; [exact Cj|]. split; [split; [constructor; exact (proj1 Dn)|rec]|reflexivity].
  - inversion D; subst. ren D t Dt. cbn [yield] in G. inversion G as [|? ? G1 G2]; subst. destruct (IH n st ltac:(sub X) G2 Dt C eq_refl) as [m [st' [junk [W [S [Cj [Dn K]]]]]]].
    rewrite S0 in K. destruct m; try discriminate K. cbn [walk]. rewrite W. cbn [bind]. unfold exit_unary. rewrite S.
    eexists _, _, junk. split; [reflexivity|]. split; [reflexivity|]. split; [exact Cj|]. split; [split; [constructor; exact (proj1 Dn)|rec]|reflexivity].
  - inversion D; subst. ren D l Dl. ren D r Dr. renw. cbn [yield] in G. apply Forall_app in G. destruct G as [Gl G]. inversion G as [|? ? Go Gr]; subst. destruct (comparator_kind k w op0 Go Iw) as [_ Oo].
    destruct (plain_walk dflt l st Pl) as [lt [tc Wl]]. destruct (plain_types dflt l a Pl Gl Dl) as [Al Ml].
    destruct (IH b0 (LState (stack st) lt tc) ltac:(sub X) Gr Dr C eq_refl) as [m [st' [junk [W [S [Cj [Dn K]]]]]]]. cbn [stack] in S. pose proof (loose_sort _ _ R) as NS.
    eexists _, _, junk. split; [|split; [|split; [exact Cj|split; [split; [constructor; [eassumption|exact Dl|exact (proj1 Dn)]|]|reflexivity]]]].
    + cbn [walk]. rewrite Wl. cbn [bind]. rewrite W. cbn [bind]. unfold push_context. cbn [map_context]. rewrite S.
      rewrite steals_fit; [|congruence|]. 2:{ destruct F as [[t' ->]|F]; [right; left; reflexivity|right; right; congruence]. }
      rewrite Al. cbn [bind pop fst snd kind]. rewrite Oo. reflexivity.
    + reflexivity.
    + rec.
  - inversion D; subst. ren D l Dl. ren D r Dr. renw. cbn [yield] in G. apply Forall_app in G. destruct G as [Gl G]. inversion G as [|? ? Go Gr]; subst. destruct (comparator_kind k w op0 Go Iw) as [_ Oo].
    destruct (IH a st ltac:(sub X) Gl Dl C eq_refl) as [m [st' [junk [W [S [Cj [Dn K]]]]]]]. destruct (plain_walk dflt r st' Pr) as [lt [tc Wr]].
    destruct (plain_types dflt r b0 Pr Gr Dr) as [Ar Mr]. pose proof (loose_sort _ _ R) as NS.
    eexists _, _, junk. split; [|split; [|split; [exact Cj|split; [split; [constructor; [eassumption|exact (proj1 Dn)|exact Dr]|]|reflexivity]]]].
    + cbn [walk]. rewrite W. cbn [bind]. rewrite Wr. cbn [bind]. unfold push_context. cbn [map_context stack]. rewrite S.
      rewrite steals_fit; [|congruence|]. 2:{ destruct F as [[t' ->]|F]; [left; reflexivity|right; right; congruence]. }
      rewrite (loose_types _ _ dflt R), Ar. cbn [bind pop fst snd kind]. rewrite Oo. reflexivity.
    + reflexivity.
    + rec.
  - inversion D; subst. ren D l Dl. ren D r Dr. renw. cbn [yield] in G. apply Forall_app in G. destruct G as [Gl G]. inversion G as [|? ? Go Gr]; subst. destruct (arithmetic_kind k w op0 Go Iw) as [_ Oo].
    destruct (plain_walk dflt l st Pl) as [lt [tc Wl]]. destruct (plain_types dflt l a Pl Gl Dl) as [Al Ml].
    destruct (IH b0 (LState (stack st) lt tc) ltac:(sub X) Gr Dr C eq_refl) as [m [st' [junk [W [S [Cj [Dn K]]]]]]]. cbn [stack] in S.
    eexists _, _, junk. split; [|split; [|split; [exact Cj|split; [split; [constructor; [eassumption|exact Dl|exact (proj1 Dn)]|]|reflexivity]]]].
    + cbn [walk]. rewrite Wl. cbn [bind]. rewrite W. cbn [bind]. unfold push_context. cbn [map_context]. rewrite S.
      rewrite (loose_types _ _ dflt R), Al. cbn [bind pop fst snd kind]. rewrite Oo. reflexivity.
    + reflexivity.
    + rec.
  - inversion D; subst. ren D l Dl. ren D r Dr. renw. cbn [yield] in G. apply Forall_app in G. destruct G as [Gl G]. inversion G as [|? ? Go Gr]; subst. destruct (arithmetic_kind k w op0 Go Iw) as [_ Oo].
    destruct (IH a st ltac:(sub X) Gl Dl C eq_refl) as [m [st' [junk [W [S [Cj [Dn K]]]]]]]. destruct (plain_walk dflt r st' Pr) as [lt [tc Wr]].
    destruct (plain_types dflt r b0 Pr Gr Dr) as [Ar Mr].
    eexists _, _, junk. split; [|split; [|split; [exact Cj|split; [split; [constructor; [eassumption|exact (proj1 Dn)|exact Dr]|]|reflexivity]]]].
    + cbn [walk]. rewrite W. cbn [bind]. rewrite Wr. cbn [bind]. unfold push_context. cbn [map_context stack]. rewrite S.
      rewrite (loose_types _ _ dflt R), Ar. cbn [bind pop fst snd kind]. rewrite Oo. reflexivity.
    + reflexivity.
    + rec.
  - inversion D; subst. ren D l Dl. ren D r Dr. renw. cbn [yield] in G. apply Forall_app in G. destruct G as [Gl G]. inversion G as [|? ? Go Gr]; subst. destruct (arithmetic_kind k w op0 Go Iw) as [_ Oo].
    destruct (IHl a st ltac:(sub X) Gl Dl C eq_refl) as [m [st1 [junk [W1 [S1 [Cj [D1 K1]]]]]]]. pose proof (loose_sort _ _ Rl) as NS.
    assert (C1 : clean (stack st1)) by (rewrite S1; constructor; [congruence|apply Forall_app; split; assumption]).
    assert (T1 : top_sort (stack st1) = sort_of l) by (rewrite S1; exact K1).
    destruct (walk_regular_recorded dflt _ r Rr b0 st1 ltac:(sub X) Gr Dr C1 T1) as [m2 [st2 [W2 [S2 [D2 K2]]]]].
    eexists _, _, junk. split; [|split; [|split; [exact Cj|split; [split; [constructor; [eassumption|exact (proj1 D1)|exact (proj1 D2)]|]|reflexivity]]]].
    + cbn [walk]. rewrite W1. cbn [bind]. rewrite W2. cbn [bind]. unfold push_context. cbn [map_context]. rewrite S2, S1.
      rewrite (loose_types _ _ dflt Rl), (regular_types _ _ dflt Rr). cbn [bind fst snd kind]. rewrite Oo. reflexivity.
    + reflexivity.
    + rec.
  - inversion D; subst. ren D l Dl. ren D r Dr. renw. cbn [yield] in G. apply Forall_app in G. destruct G as [Gl G]. inversion G as [|? ? Go Gr]; subst. destruct (connective_kind k w op0 Go Iw) as [_ Oo].
    destruct (IHl a st ltac:(sub X) Gl Dl C eq_refl) as [m [st1 [junk [W1 [S1 [Cj [D1 K1]]]]]]]. pose proof (loose_sort _ _ Rl) as NS.
    assert (C1 : clean (stack st1)) by (rewrite S1; constructor; [congruence|apply Forall_app; split; assumption]).
    assert (T1 : top_sort (stack st1) = sort_of l) by (rewrite S1; exact K1).
    destruct (walk_regular_recorded dflt _ r Rr b0 st1 ltac:(sub X) Gr Dr C1 T1) as [m2 [st2 [W2 [S2 [D2 K2]]]]].
    eexists _, _, junk. split; [|split; [|split; [exact Cj|split; [split; [constructor; [eassumption|exact (proj1 D1)|exact (proj1 D2)]|]|reflexivity]]]].
    + cbn [walk]. rewrite W1. cbn [bind]. rewrite W2. cbn [bind]. unfold exit_binary. rewrite S2, S1. cbn [kind]. rewrite Oo. reflexivity.
    + reflexivity.
    + rec.
Qed.

(** ** Two trees that differ in recorded types only *)
Lemma literal_erase n : literal_type (erase n) = literal_type n.
Proof. destruct n; reflexivity. Qed.
Lemma compared_erase a b : compared_type (erase a) (erase b) = compared_type a b.
Proof. unfold compared_type. rewrite <- (literal_erase a), <- (literal_erase b). destruct b; reflexivity. Qed.
Lemma recorded_items items : Forall (fun n => recorded n -> forall n', recorded n' -> erase n = erase n' -> n = n') items ->
  Forall recorded items -> forall items', Forall recorded items' -> map erase items = map erase items' -> items = items'.
Proof.
  induction 1 as [|i l Hi H IH]; intros R [|i' l'] R' E; try discriminate E; [reflexivity|]. inversion R; subst. inversion R'; subst. injection E as E1 E2. f_equal; auto.
Qed.
Lemma recorded_unique n : recorded n -> forall n', recorded n' -> erase n = erase n' -> n = n'.
Proof.
  induction n as [f|dt v|l r op IHl IHr|f items IH|l r op dt IHl IHr|f lo hi t1 t2|f items IH|f op items IH|l r op IHl IHr] using node_ind'; intros R n' R' E; destruct n'; try discriminate E; cbn [erase] in E; cbn [recorded] in R, R'.
  - exact E.
  - exact E.
  - injection E as E1 E2 <-. destruct R as [Ra Rb], R' as [Ra' Rb']. rewrite (IHl Ra _ Ra' E1). f_equal.
    destruct r as [r|], right as [r'|]; try discriminate E2; [|reflexivity]. injection E2 as E2. f_equal. apply IHr; assumption.
  - injection E as <- E. rewrite recorded_all in R, R'. f_equal. apply recorded_items; assumption.
  - injection E as E1 E2 <-. destruct R as [-> [Ra Rb]], R' as [-> [Ra' Rb']]. rewrite (IHl Ra _ Ra' E1), (IHr Rb _ Rb' E2). reflexivity.
  - exact E.
  - injection E as <- E. rewrite recorded_all in R, R'. f_equal. apply recorded_items; assumption.
  - injection E as <- <- E. rewrite recorded_all in R, R'. f_equal. apply recorded_items; assumption.
  - injection E as E1 E2 <-. destruct R as [Ra Rb], R' as [Ra' Rb']. rewrite (IHl Ra _ Ra' E1). f_equal.
    destruct r as [r|], right as [r'|]; try discriminate E2; [|reflexivity]. injection E2 as E2. f_equal. apply IHr; assumption.
Qed.

(** ** Texts *)
Lemma loose_parsed s t n0 dflt : lex s = Ok (yield t) -> reads 0 t eof -> loose Nothing t -> denotes dflt t n0 ->
  exists n, parse_expression s dflt = Ok n /\ denotes dflt t n /\ recorded n.
Proof.
  intros L R Lo D. destruct (walk_loose_recorded dflt Nothing t Lo n0 (LState [] None 0) (reads_strict _ _ _ R) (lex_genuine _ _ L) D) as [n [st [junk [W [S [_ [[Dn Rn] _]]]]]]]; [constructor|reflexivity|].
  exists n. split; [|split; assumption]. unfold parse_expression. rewrite L. cbn [bind]. rewrite (parse_any_complete t R). cbn [bind]. unfold listen. rewrite W. cbn [bind]. unfold exit_parse. rewrite S. reflexivity.
Qed.
Lemma loose_exact s t n dflt : lex s = Ok (yield t) -> reads 0 t eof -> loose Nothing t -> denotes dflt t n -> recorded n -> parse_expression s dflt = Ok n.
Proof.
  intros L R Lo D Rn. destruct (loose_parsed s t n dflt L R Lo D) as [n' [P [D' R']]]. rewrite P. f_equal.
  apply (recorded_unique n' R' n Rn). exact (proj1 (denotes_erase dflt) t n' D' n D).
Qed.
Lemma loose_unique s t n0 dflt : lex s = Ok (yield t) -> reads 0 t eof -> loose Nothing t -> denotes dflt t n0 ->
  exists n, denotes dflt t n /\ recorded n /\ parse_expression s dflt = Ok n /\ forall n', denotes dflt t n' -> recorded n' -> n' = n.
Proof.
  intros L R Lo D. destruct (loose_parsed s t n0 dflt L R Lo D) as [n [P [Dn Rn]]]. exists n. repeat split; try assumption.
  intros n' D' R'. pose proof (loose_exact s t n' dflt L R Lo D' R') as Q. congruence.
Qed.
Lemma written_exact s ws n dflt : written Nothing s ws n -> recorded n -> parse_expression (unwords ws) dflt = Ok n.
Proof.
  intros W Rn. destruct (written_good _ _ _ _ W) as [t [<- [G [R [Rg [_ D]]]]]]. apply (loose_exact _ t n dflt); [apply unwords_lex, G|apply R; unfold open; cbn; unfold comparator; cbn; intuition discriminate|constructor; exact Rg|apply D|exact Rn].
Qed.

(** ** Any text *)
Definition gives {A} (Q : A -> Prop) (r : res A) : Prop := match r with Ok a => Q a | Err _ => True end.
Lemma gives_bind A B (Q : A -> Prop) (R : B -> Prop) a k : gives Q a -> (forall x, Q x -> gives R (k x)) -> gives R (bind a k).
Proof. intros H K. destruct a; cbn; [apply K, H|exact I]. Qed.
Lemma right_all items : (fix all (l : list node) : Prop := match l with [] => True | i :: l' => recorded_right i /\ all l' end) items <-> Forall recorded_right items.
Proof.
  induction items as [|i l IH]; cbn; [split; constructor|]. rewrite IH. split; [intros [A B]; constructor; assumption|intros A; inversion A; auto].
Qed.
Definition held (n : node) : Prop := recorded_right n /\ node_sort n <> Nothing.
Definition of_type (dt : dtype) (n : node) : Prop := match n with NUnary t _ => dt = t | _ => True end.
Lemma types_right dflt t m : as_types dflt t = Some m -> gives (fun n => recorded_right n /\ of_type (token_data_type (start t)) n) m.
Proof.
  intros E. destruct t; try discriminate E; injection E as <-; [|split; exact I]. unfold map_types_token. cbn [start].
  assert (B : gives (fun n => recorded_right n /\ of_type (token_data_type tok) n) (if is_blank (text tok) then Ok (NField dflt) else v <- convert_value (text tok) (token_data_type tok);; Ok (NUnary (token_data_type tok) v))).
  { destruct (is_blank (text tok)); [split; exact I|]. destruct (convert_value _ _); [split; [exact I|reflexivity]|exact I]. }
  destruct (kind tok) eqn:K; try exact B. split; exact I.
Qed.
Definition mapped (dflt : option jstr) (t : ptree) (x : node * list node) : Prop :=
  recorded_right (fst x) /\ of_type (token_data_type (start t)) (fst x) /\ (as_types dflt t = None -> node_sort (fst x) <> Nothing) /\ Forall held (snd x).
Lemma held_mapped dflt t n s : recorded_right n -> node_sort n <> Nothing -> Forall held s -> mapped dflt t (n, s).
Proof. intros R N H. split; [exact R|]. split; [destruct n; try exact I; contradiction N; reflexivity|]. split; [intros _; exact N|exact H]. Qed.
Lemma pop_held s : Forall held s -> gives (fun x => held (fst x) /\ Forall held (snd x)) (pop s).
Proof. intros H. destruct H; [exact I|]. split; assumption. Qed.
Definition many (x : list node * list node) : Prop := Forall recorded_right (fst x) /\ Forall held (snd x).
Lemma elements_right dflt items : Forall (fun t => forall s, Forall held s -> gives (mapped dflt t) (map_context dflt t s)) items ->
  forall s, Forall held s -> gives many (map_elements dflt items s).
Proof.
  induction 1 as [|i l H0 H IH]; intros s Hs; cbn [map_elements]; [split; [constructor|exact Hs]|].
  apply gives_bind with (Q := mapped dflt i); [apply H0; exact Hs|]. intros [n s'] [A [_ [_ B]]]. cbn [fst snd] in *.
  apply gives_bind with (Q := many); [apply IH; exact B|]. intros [ns s2] [C D]. split; [constructor; assumption|assumption].
Qed.
Ltac any := apply gives_bind with (Q := fun _ => True); [match goal with |- gives _ ?x => destruct x; exact I end|intros ? _].
Ltac done_held := apply held_mapped; [cbn [recorded_right]; auto|discriminate|assumption].
Lemma context_right dflt t : forall s, Forall held s -> gives (mapped dflt t) (map_context dflt t s).
Proof.
  induction t using ptree_full_ind; intros s Hs; try exact I.
  - rewrite context_func. destruct (function_of (kind fn)); [|exact I]. apply gives_bind with (Q := many); [apply elements_right; assumption|].
    intros [ns s2] [C D]. cbn [fst snd] in *. apply held_mapped; [cbn [recorded_right]; apply right_all, C|discriminate|exact D].
  - cbn [map_context]. apply gives_bind with (Q := fun n => recorded_right n /\ of_type (token_data_type (start (PTypes tok))) n); [exact (types_right dflt (PTypes tok) _ eq_refl)|].
    intros n [A B]. split; [exact A|]. split; [exact B|]. split; [discriminate|exact Hs].
  - cbn. split; [exact I|]. split; [exact I|]. split; [discriminate|exact Hs].
  - cbn [map_context]. any. any. any. done_held.
  - rewrite context_in. any. apply gives_bind with (Q := many); [apply elements_right; assumption|].
    intros [ns s2] [C D]. cbn [fst snd] in *. destruct neg; (apply held_mapped; [cbn [recorded_right]; rewrite right_all; auto|discriminate|exact D]).
  - cbn [map_context]. cbv zeta.
    assert (Deep : gives (mapped dflt (PCmp t1 op t2)) (bs <- map_context dflt t2 s ;; as_ <- map_context dflt t1 (snd bs) ;;
      Ok (NCmp (fst as_) (fst bs) (operator_of (kind op)) (token_data_type (start t2)), snd as_))).
    { apply gives_bind with (Q := mapped dflt t2); [apply IHt2; assumption|]. intros [b s1] [B1 [B2 [_ B3]]]. cbn [fst snd] in *.
      apply gives_bind with (Q := mapped dflt t1); [apply IHt1; assumption|]. intros [a s2] [A1 [_ [_ A3]]]. cbn [fst snd] in *.
      apply held_mapped; [|discriminate|exact A3]. cbn [recorded_right]. split; [destruct b; try exact I; exact B2|auto]. }
    destruct (steals t1 t2 s); [|destruct (as_types dflt t1), (as_types dflt t2); exact Deep].
    destruct (as_types dflt t1) as [ml|] eqn:E1.
    + apply gives_bind with (1 := types_right _ _ _ E1). intros a [Ha _]. apply gives_bind with (1 := pop_held s Hs). intros [b s1] [[B1 B2] B3]. cbn [fst snd] in *.
      apply held_mapped; [|discriminate|exact B3]. cbn [recorded_right]. split; [destruct b; try exact I; contradiction B2; reflexivity|auto].
    + destruct (as_types dflt t2) as [mr|] eqn:E2; [|exact Deep].
      apply gives_bind with (1 := types_right _ _ _ E2). intros b [Hb Tb]. apply gives_bind with (1 := pop_held s Hs). intros [a s1] [[A1 A2] A3]. cbn [fst snd] in *.
      apply held_mapped; [|discriminate|exact A3]. cbn [recorded_right]. split; [destruct b; try exact I; exact Tb|auto].
  - cbn [map_context]. destruct (as_types dflt t1) as [ml|] eqn:E1, (as_types dflt t2) as [mr|] eqn:E2.
    + apply gives_bind with (1 := types_right _ _ _ E1). intros a [Ha _]. apply gives_bind with (1 := types_right _ _ _ E2). intros b [Hb _]. done_held.
    + apply gives_bind with (1 := types_right _ _ _ E1). intros a [Ha _]. apply gives_bind with (1 := pop_held s Hs). intros [b s1] [[B1 _] B3]. cbn [fst snd] in *. done_held.
    + apply gives_bind with (1 := types_right _ _ _ E2). intros b [Hb _]. apply gives_bind with (1 := pop_held s Hs). intros [a s1] [[A1 _] A3]. cbn [fst snd] in *. done_held.
    + destruct Hs as [|b s1 [Hb _] [|a s2 [Ha _] H2]]; [exact I|exact I|]. done_held.
  - cbn [map_context]. any. any. exact I.
  - cbn [map_context]. any. any. any. done_held.
  - cbn [map_context]. any. exact I.
Qed.
Definition stacked (st : lstate) : Prop := Forall held (stack st).
Lemma push_right dflt t st : as_types dflt t = None -> stacked st -> gives stacked (push_context dflt t st).
Proof.
  intros E H. unfold push_context. apply gives_bind with (1 := context_right dflt t _ H). intros [n s] [A [_ [B C]]]. cbn [fst snd] in *.
  constructor; [split; auto|exact C].
Qed.
Lemma walk_list_right dflt items : Forall (fun t => forall st, stacked st -> gives stacked (walk dflt t st)) items -> forall st, stacked st -> gives stacked (walk_list dflt items st).
Proof.
  induction 1 as [|i l H0 H IH]; intros st Hs; [exact Hs|].
  change (walk_list dflt (i :: l) st) with (st' <- walk dflt i st ;; walk_list dflt l st'). apply gives_bind with (1 := H0 st Hs). intros st' H'. apply IH, H'.
Qed.
Lemma walk_right dflt t : forall st, stacked st -> gives stacked (walk dflt t st).
Proof.
  induction t using ptree_full_ind; intros st Hs.
  - cbn [walk]. apply IHt, Hs.
  - cbn [walk]. apply gives_bind with (1 := IHt st Hs). intros st' A. unfold exit_not, stacked in *.
    destruct A as [|n s [Hn _] A]; [|constructor; [split; [cbn [recorded_right]; auto|discriminate]|exact A]].
    destruct (last_token st'); [|exact I]. any. constructor; [split; [cbn [recorded_right]; auto|discriminate]|constructor].
  - cbn [walk]. apply gives_bind with (1 := IHt st Hs). intros st' A. unfold exit_unary, stacked in *.
    assert (G : gives (fun st => Forall held (stack st)) (match as_types dflt t with Some m => n <- m;; Ok (LState (NArith n None UNARY :: stack st') (last_token st') (token_count st')) | None => Err ClassCast end)).
    { destruct (as_types dflt t) eqn:E; [|exact I]. apply gives_bind with (1 := types_right _ _ _ E). intros n [Hn _]. constructor; [split; [cbn [recorded_right]; auto|discriminate]|exact A]. }
    destruct (stack st') as [|[] s] eqn:S; try exact G. inversion A as [|? ? [B _] C]; subst. constructor; [split; [split; [exact B|exact I]|discriminate]|exact C].
  - rewrite walk_func. apply gives_bind with (1 := walk_list_right dflt items H st Hs). intros st' H'. apply push_right; [reflexivity|exact H'].
  - exact Hs.
  - exact Hs.
  - apply push_right; [reflexivity|exact Hs].
  - rewrite walk_in. apply gives_bind with (1 := walk_list_right dflt items H st Hs). intros st' H'. apply push_right; [reflexivity|exact H'].
  - rewrite walk_array. apply gives_bind with (1 := walk_list_right dflt items H st Hs). intros st' H'. unfold exit_array. any.
    apply gives_bind with (Q := many); [apply elements_right; [apply Forall_forall; intros t _; apply context_right|exact H']|].
    intros [ns s] [C D]. cbn [fst snd] in *. constructor; [split; [cbn [recorded_right]; apply right_all, C|discriminate]|exact D].
  - cbn [walk]. apply gives_bind with (1 := IHt1 st Hs). intros st1 H1. apply gives_bind with (1 := IHt2 st1 H1). intros st2 H2. apply push_right; [reflexivity|exact H2].
  - cbn [walk]. apply gives_bind with (1 := IHt1 st Hs). intros st1 H1. apply gives_bind with (1 := IHt2 st1 H1). intros st2 H2. apply push_right; [reflexivity|exact H2].
  - cbn [walk]. apply gives_bind with (1 := IHt1 st Hs). intros st1 H1. apply gives_bind with (1 := IHt2 st1 H1). intros st2 H2. unfold exit_binary, stacked in *.
    destruct H2 as [|b s1 [Hb _] [|a s2 [Ha _] H2]]; [exact I|exact I|]. constructor; [split; [cbn [recorded_right]; auto|discriminate]|exact H2].
  - exact Hs.
  - change (walk dflt (PFuncErr fn items) st) with (st' <- walk_list dflt items st ;; push_context dflt (PFuncErr fn items) st').
    apply gives_bind with (1 := walk_list_right dflt items H st Hs). intros st' H'. apply push_right; [reflexivity|exact H'].
  - apply push_right; [reflexivity|exact Hs].
  - apply push_right; [reflexivity|exact Hs].
  - apply push_right; [reflexivity|exact Hs].
  - cbn [walk]. any. exact I.
Qed.
Lemma any_recorded s dflt n : parse_expression s dflt = Ok n -> recorded_right n.
Proof.
  unfold parse_expression. destruct (lex s) as [ts|]; [|discriminate]. cbn [bind]. destruct (parse_any ts) as [t|]; [|discriminate]. cbn [bind]. unfold listen.
  pose proof (walk_right dflt t (LState [] None 0) (Forall_nil _)) as W. destruct (walk dflt t _) as [st|]; [|discriminate]. cbn in W |- *. unfold exit_parse, stacked in *.
  destruct W as [|m l [Hm _] W]; intros E; [|injection E as <-; exact Hm].
  destruct (token_count st) as [|[|k]]; [discriminate| |discriminate]. destruct (last_token st) as [x|]; [|discriminate].
  destruct (kind x); try (injection E as <-; exact I); destruct (convert_value _ _) as [v|]; try discriminate E; cbn [bind] in E; destruct (to_string v); try discriminate E; injection E as <-; exact I.
Qed.
