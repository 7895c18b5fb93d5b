(** What the parser makes of texts that are not sentences. *)
From Verif Require Import Base Lexer Grammar Recover SpecGrammar SpecRecover ParseFuel ParseFacts RecoverFacts.

(** ** What comes after a complete sentence is not looked at *)
Lemma infix_level k : is_infix k = false <-> level k = None.
Proof. unfold is_infix. rewrite level_prec. destruct (infix_prec k); split; congruence. Qed.

Section Retail.
Context (rest rest' : list token) (NI : is_infix (head_kind rest') = false).
Definition done (a b : list token) : Prop := b <> [] \/ ender (kind (last a eof)) = true.

Lemma suffix_short A (x a b : list A) : x = a ++ b -> length b <= length x.
Proof. intros ->. rewrite app_length. lia. Qed.
Lemma last_default A (a : list A) d e : a <> [] -> last a d = last a e.
Proof. destruct a as [|x a]; [congruence|]. intros _. rewrite !last_cons. reflexivity. Qed.

Lemma retail f :
  (forall p a b t, pexpr f p (a ++ rest) = Ok (t, b ++ rest) -> done a b -> pexpr f p (a ++ rest') = Ok (t, b ++ rest')) /\
  (forall p l a b t, ploop f p l (a ++ rest) = Ok (t, b ++ rest) -> a = [] \/ done a b -> ploop f p l (a ++ rest') = Ok (t, b ++ rest')) /\
  (forall a b items, pwordlist f (a ++ rest) = Ok (items, b ++ rest) -> pwordlist f (a ++ rest') = Ok (items, b ++ rest')) /\
  (forall a b items, pitems f (a ++ rest) = Ok (items, b ++ rest) -> pitems f (a ++ rest') = Ok (items, b ++ rest')).
Proof.
  induction f as [|f [I1 [I2 [I3 I4]]]].
  { split; [|split; [|split]]; intros; discriminate. }
  (* a list after some tokens that were consumed *)
  split; [|split; [|split]].
  - intros p a b t H D. pose proof (proj1 (consumes (S f)) _ _ _ _ H) as [c0 E0]. cbn [pexpr] in H |- *.
    dbind H lr Hp. destruct lr as [l mid]. cbn [fst snd] in H.
    destruct (proj1 (proj2 (consumes f)) _ _ _ _ _ H) as [c Ec]. rewrite app_assoc in Ec.
    set (m := c ++ b) in *. subst mid.
    assert (Na : a <> []).
    { intros ->. cbn [app] in E0. apply suffix_short in E0. rewrite app_length in E0. destruct b; [|cbn in E0; lia]. destruct D as [D|D]; [congruence|discriminate]. }
    (* after the primary, which read a1 *)
    assert (Fin : forall a1 r, a = a1 ++ m -> r = Ok (l, m ++ rest') -> (lr <- r ;; ploop f p (fst lr) (snd lr)) = Ok (t, b ++ rest')).
    { intros a1 r Ea ->. cbn [bind fst snd]. apply I2; [exact H|]. destruct m as [|y m'] eqn:Em; [left; reflexivity|right].
      destruct D as [D|D]; [left; exact D|right]. rewrite Ea, last_append in D. rewrite (last_default _ (y :: m') eof (last a1 eof)) by discriminate. exact D. }
    destruct a as [|x a]; [congruence|]. cbn [app] in Hp |- *.
    (* a sub-expression after x *)
    assert (Dn : forall a2, a = a2 ++ m -> m <> [] \/ a2 <> [] -> done a m).
    { intros a2 Ea Hn. destruct m as [|y m'] eqn:Em; [|left; discriminate]. right.
      assert (b = []) by (unfold m in Em; destruct c; [exact Em|discriminate]). subst b.
      destruct D as [D|D]; [congruence|]. rewrite app_nil_r in Ea. subst a2. rewrite last_cons in D. destruct Hn as [Hn|Hn]; [congruence|]. rewrite (last_default _ _ eof x) by exact Hn. exact D. }
    assert (Sub : forall p' e, pexpr f p' (a ++ rest) = Ok (e, m ++ rest) -> ender (kind x) = false -> pexpr f p' (a ++ rest') = Ok (e, m ++ rest')).
    { intros p' e He Nx. apply I1; [exact He|]. destruct (proj1 (consumes f) _ _ _ _ He) as [a2 E2]. rewrite app_assoc in E2. apply app_inv_tail in E2.
      apply (Dn a2 E2). destruct m as [|y m'] eqn:Em; [|left; discriminate]. right. intros ->. cbn in E2. subst a.
      assert (b = []) by (unfold m in Em; destruct c; [exact Em|discriminate]). subst b. destruct D as [D|D]; [congruence|]. cbn in D. congruence. }
    assert (Lst : forall us items v, us ++ rest = v -> pwordlist f v = Ok (items, m ++ rest) -> pwordlist f (us ++ rest') = Ok (items, m ++ rest') /\ exists a2, us = a2 ++ m).
    { intros us items v <- Hw. split; [apply I3; exact Hw|]. destruct (proj1 (proj2 (proj2 (consumes f))) _ _ _ Hw) as [a2 [r [_ E2]]].
      exists (a2 ++ [r]). rewrite <- app_assoc. apply (app_inv_tail rest). rewrite E2, <- app_assoc. reflexivity. }
    destruct (kind x) eqn:K; cbn [is_function is_type] in Hp |- *;
      try (injection Hp as <- E; change (x :: a ++ rest) with ((x :: a) ++ rest) in E; apply app_inv_tail in E; apply (Fin []); [exact E|rewrite <- E; reflexivity]);
      try (injection Hp as <- E; apply app_inv_tail in E; apply (Fin [x]); [cbn; congruence|rewrite <- E; reflexivity]);
      try (dbind Hp wr Hw; destruct wr as [w r]; cbn [fst snd] in Hp; injection Hp as <- ->;
           destruct (Lst _ _ _ eq_refl Hw) as [Hw' [a2 E2]]; rewrite Hw'; apply (Fin (x :: a2)); [cbn; congruence|reflexivity]).
    + dbind Hp er He. destruct er as [e r]. cbn [fst snd] in Hp. injection Hp as <- ->. rewrite (Sub _ _ He) by reflexivity.
      destruct (proj1 (consumes f) _ _ _ _ He) as [a2 E2]. rewrite app_assoc in E2. apply app_inv_tail in E2. apply (Fin (x :: a2)); [cbn; congruence|reflexivity].
    + dbind Hp er He. destruct er as [e r]. cbn [fst snd] in Hp. injection Hp as <- ->. rewrite (Sub _ _ He) by reflexivity.
      destruct (proj1 (consumes f) _ _ _ _ He) as [a2 E2]. rewrite app_assoc in E2. apply app_inv_tail in E2. apply (Fin (x :: a2)); [cbn; congruence|reflexivity].
    + dbind Hp er He. destruct er as [e r]. cbn [fst snd] in Hp. dbind Hp cr Hc. destruct cr as [q r']. cbn [fst snd] in Hp. injection Hp as <- ->.
      apply expect_ok in Hc. destruct Hc as [-> Kc]. destruct (proj1 (consumes f) _ _ _ _ He) as [a2 E2].
      change (q :: m ++ rest) with ((q :: m) ++ rest) in He, E2. rewrite app_assoc in E2. apply app_inv_tail in E2.
      rewrite (I1 _ _ _ _ He) by (left; discriminate). apply (Fin (x :: a2 ++ [q])); [cbn; rewrite <- app_assoc; cbn; congruence|].
      cbn [bind fst snd]. change ((q :: m) ++ rest') with (q :: m ++ rest'). rewrite expect_hit by exact Kc. reflexivity.
    + destruct a as [|y a].
      { (* the field is the last token that was read *)
        exfalso. cbn [app] in Hp. assert (Q : exists a3, rest = a3 ++ m ++ rest).
        { clear -Hp Lst. revert Hp. destruct rest as [|y ts]; [intros Hp; injection Hp as _ <-; exists []; reflexivity|]. generalize (m ++ y :: ts) as mm. intros mm Hp.
          assert (W : forall us items r, pwordlist f us = Ok (items, r) -> exists a, us = a ++ r).
          { intros us items r Hw. destruct (proj1 (proj2 (proj2 (consumes f))) _ _ _ Hw) as [a [q [_ ->]]]. exists (a ++ [q]). rewrite <- app_assoc. reflexivity. }
          destruct (kind y); try (injection Hp as _ <-; exists []; reflexivity);
            try (dbind Hp wr Hw; destruct wr as [w r]; cbn [fst snd] in Hp; injection Hp as _ <-; destruct (W _ _ _ Hw) as [a ->]; exists (y :: a); reflexivity).
          - dbind Hp ir Hi. destruct ir as [i r]. cbn [fst snd] in Hp. dbind Hp wr Hw. destruct wr as [w r']. cbn [fst snd] in Hp. injection Hp as _ <-.
            apply expect_ok in Hi. destruct Hi as [-> _]. destruct (W _ _ _ Hw) as [a ->]. exists (y :: i :: a). reflexivity.
          - dbind Hp ir Hi. destruct ir as [i r]. cbn [fst snd] in Hp. apply expect_ok in Hi. destruct Hi as [-> _].
            destruct r as [|h r]; [discriminate|]. destruct (is_numeric_type (kind h)); [|discriminate]. injection Hp as _ <-. exists [y; i; h]. reflexivity.
          - dbind Hp ir Hi. destruct ir as [i r]. cbn [fst snd] in Hp. apply expect_ok in Hi. destruct Hi as [-> _].
            destruct r as [|h r]; [discriminate|]. destruct (is_numeric_type (kind h)); [|discriminate]. injection Hp as _ <-. exists [y; i; h]. reflexivity. }
        destruct Q as [a3 Q]. apply (f_equal (@length token)) in Q. rewrite !app_length in Q.
        assert (Em : m = []) by (destruct m; [reflexivity|cbn in Q; lia]). unfold m in Em. apply app_eq_nil in Em. destruct Em as [_ ->].
        destruct D as [D|D]; [congruence|]. cbn in D. rewrite K in D. discriminate. }
      cbn [app] in Hp |- *.
      destruct (kind y) eqn:K2;
        try (injection Hp as <- E; change (y :: a ++ rest) with ((y :: a) ++ rest) in E; apply app_inv_tail in E; apply (Fin [x]); [cbn; congruence|rewrite <- E; reflexivity]);
        try (dbind Hp wr Hw; destruct wr as [w r]; cbn [fst snd] in Hp; injection Hp as <- ->;
           destruct (Lst _ _ _ eq_refl Hw) as [Hw' [a2 E2]]; rewrite Hw'; apply (Fin (x :: y :: a2)); [cbn; congruence|reflexivity]).
      * dbind Hp ir Hi. destruct ir as [i r]. cbn [fst snd] in Hp. dbind Hp wr Hw. destruct wr as [w r']. cbn [fst snd] in Hp. injection Hp as <- ->.
        apply expect_ok in Hi. destruct Hi as [Ea Ki]. destruct a as [|z a].
        { exfalso. cbn [app] in Ea. destruct (proj1 (proj2 (proj2 (consumes f))) _ _ _ Hw) as [a2 [q [_ E2]]]. rewrite Ea, E2 in E0.
          apply (f_equal (@length token)) in E0. apply (f_equal (@length token)) in Ea. rewrite E2 in Ea. cbn in Ea. rewrite !app_length in Ea. cbn in Ea. rewrite !app_length in Ea. lia. }
        injection Ea as -> Er. destruct (Lst _ _ _ Er Hw) as [Hw' [a2 E2]]. apply (Fin (x :: y :: i :: a2)); [cbn; congruence|].
        cbn [app]. rewrite expect_hit by exact Ki. cbn [bind fst snd]. rewrite Hw'. reflexivity.
      * dbind Hp ir Hi. destruct ir as [i r]. cbn [fst snd] in Hp. apply expect_ok in Hi. destruct Hi as [Ea Ki].
        destruct r as [|h r]; [discriminate|]. destruct (is_numeric_type (kind h)) eqn:Nh; [|discriminate]. injection Hp as <- ->.
        destruct a as [|z [|z2 a]]; cbn [app] in Ea; [exfalso|exfalso|].
        { apply (f_equal (@length token)) in Ea. cbn in Ea. rewrite app_length in Ea. lia. }
        { injection Ea as _ Ea. apply (f_equal (@length token)) in Ea. cbn in Ea. rewrite app_length in Ea. lia. }
        injection Ea as -> -> Er. apply app_inv_tail in Er. subst a. apply (Fin [x; y; i; h]); [reflexivity|]. cbn [app]. rewrite expect_hit by exact Ki. cbn [bind fst snd]. rewrite Nh. reflexivity.
      * dbind Hp ir Hi. destruct ir as [i r]. cbn [fst snd] in Hp. apply expect_ok in Hi. destruct Hi as [Ea Ki].
        destruct r as [|h r]; [discriminate|]. destruct (is_numeric_type (kind h)) eqn:Nh; [|discriminate]. injection Hp as <- ->.
        destruct a as [|z [|z2 a]]; cbn [app] in Ea; [exfalso|exfalso|].
        { apply (f_equal (@length token)) in Ea. cbn in Ea. rewrite app_length in Ea. lia. }
        { injection Ea as _ Ea. apply (f_equal (@length token)) in Ea. cbn in Ea. rewrite app_length in Ea. lia. }
        injection Ea as -> -> Er. apply app_inv_tail in Er. subst a. apply (Fin [x; y; i; h]); [reflexivity|]. cbn [app]. rewrite expect_hit by exact Ki. cbn [bind fst snd]. rewrite Nh. reflexivity.
  - intros p l a b t H D. pose proof (proj1 (proj2 (consumes (S f))) _ _ _ _ _ H) as [c0 E0]. rewrite app_assoc in E0. apply app_inv_tail in E0.
    cbn [ploop] in H |- *. destruct a as [|x a].
    { symmetry in E0. apply app_eq_nil in E0. destruct E0 as [_ ->]. cbn [app] in *. 
      assert (Hl : l = t).
      { destruct rest as [|y ts]; [injection H; auto|]. destruct (infix_prec (kind y)) as [q|]; [|injection H; auto]. destruct (p <=? q); [|injection H; auto].
        exfalso. dbind H rr Hr. destruct rr as [r mid]. cbn [fst snd] in H. destruct (proj1 (consumes f) _ _ _ _ Hr) as [a1 E1]. destruct (proj1 (proj2 (consumes f)) _ _ _ _ _ H) as [a2 E2].
        apply (f_equal (@length token)) in E1, E2. rewrite app_length in E1, E2. cbn in E2. lia. }
      subst t. destruct rest' as [|y ts]; [reflexivity|]. cbn [head_kind] in NI. unfold is_infix in NI. destruct (infix_prec (kind y)); [discriminate|reflexivity]. }
    destruct D as [D|D]; [discriminate|]. cbn [app] in H |- *.
    assert (Z : Ok (l, x :: a ++ rest) = Ok (t, b ++ rest) -> Ok (l, x :: a ++ rest') = Ok (t, b ++ rest')).
    { intros Z. injection Z as -> Z. change (x :: a ++ rest) with ((x :: a) ++ rest) in Z. apply app_inv_tail in Z. subst b. reflexivity. }
    destruct (infix_prec (kind x)) as [q|] eqn:Q; [|exact (Z H)]. destruct (p <=? q); [|exact (Z H)]. clear Z.
    dbind H rr Hr. destruct rr as [r mid]. cbn [fst snd] in H.
    destruct (proj1 (proj2 (consumes f)) _ _ _ _ _ H) as [c Ec]. rewrite app_assoc in Ec. set (m := c ++ b) in *. subst mid.
    destruct (proj1 (consumes f) _ _ _ _ Hr) as [a2 E2]. rewrite app_assoc in E2. apply app_inv_tail in E2.
    rewrite (I1 _ _ _ _ Hr).
    + cbn [bind fst snd]. apply I2; [exact H|]. destruct m as [|y m'] eqn:Em; [left; reflexivity|right]. destruct D as [D|D]; [left; exact D|right].
      rewrite last_cons, E2, last_append in D. rewrite (last_default _ (y :: m') eof (last a2 x)) by discriminate. exact D.
    + destruct m as [|y m'] eqn:Em; [|left; discriminate]. unfold m in Em. apply app_eq_nil in Em. destruct Em as [-> ->]. right. destruct D as [D|D]; [congruence|].
      destruct a as [|z a]; [|rewrite last_cons in D; rewrite (last_default _ (z :: a) eof x) by discriminate; exact D].
      cbn in D. destruct (kind x); discriminate.
  - intros a b items H. pose proof (proj1 (proj2 (proj2 (consumes (S f)))) _ _ _ H) as [c0 [q0 [_ E0]]]. cbn [pwordlist] in H |- *. dbind H lr Hl. destruct lr as [l r]. cbn [fst snd] in H.
    apply expect_ok in Hl. destruct Hl as [Ea Kl]. destruct a as [|x a].
    { exfalso. cbn [app] in E0. apply (f_equal (@length token)) in E0. rewrite app_length in E0. cbn in E0. rewrite app_length in E0. lia. }
    injection Ea as -> <-. cbn [app]. rewrite expect_hit by exact Kl. cbn [bind fst snd]. apply I4. exact H.
  - intros a b items H. cbn [pitems] in H |- *. dbind H er He. destruct er as [e r]. cbn [fst snd] in H.
    destruct (proj1 (consumes f) _ _ _ _ He) as [a2 E2].
    destruct r as [|x r]; [discriminate|].
    assert (Lr : exists c, r = c ++ b ++ rest).
    { destruct (kind x); try discriminate.
      - dbind H ir Hi. destruct ir as [i r']. cbn [fst snd] in H. injection H as _ ->. destruct (proj2 (proj2 (proj2 (consumes f))) _ _ _ Hi) as [c [q [_ ->]]]. exists (c ++ [q]). rewrite <- app_assoc. reflexivity.
      - injection H as _ ->. exists []. reflexivity. }
    destruct Lr as [c Er]. rewrite app_assoc in Er. subst r. change (x :: (c ++ b) ++ rest) with ((x :: c ++ b) ++ rest) in *.
    rewrite (I1 _ _ _ _ He) by (left; discriminate). cbn [bind fst snd app] in H |- *.
    destruct (kind x); try discriminate.
    + dbind H ir Hi. destruct ir as [i r']. cbn [fst snd] in H. injection H as <- ->. rewrite (I4 _ _ _ Hi). reflexivity.
    + injection H as <- E. apply app_inv_tail in E. rewrite E. reflexivity.
Qed.
End Retail.

Lemma closing_ender k : closing_kind k <-> ender k = true.
Proof. destruct k; cbn; split; intro H; try discriminate; try tauto; decompose [or] H; try discriminate; contradiction. Qed.
Lemma ends_last ts d : ends_operand ts -> ender (kind (last ts d)) = true.
Proof. intros [us [x [-> C]]]. rewrite last_append. apply closing_ender. exact C. Qed.
Lemma no_operator_head ts : no_operator_first ts -> is_infix (head_kind (ts ++ [eof])) = false.
Proof. intros N. destruct ts as [|x ts]; [reflexivity|]. apply infix_level. exact (N x ts eq_refl). Qed.

(** A sentence that ends an operand, whatever comes next, as long as the fuel is enough *)
Lemma sentence_prefix t junk : reads 0 t eof -> ends_operand (yield t) -> is_infix (head_kind junk) = false ->
  forall f ctx, parse_fuel (yield t ++ junk) <= f -> rexpr f ctx 0 (matched (yield t ++ junk)) = Ok (t, matched junk).
Proof.
  intros R En N f ctx Lf. pose proof (parse_tokens_complete t R) as P. unfold parse_tokens in P. cbv zeta in P.
  dbind P er He. destruct er as [e r]. cbn [fst snd] in P. destruct r as [|x [|y r]]; try discriminate.
  destruct (tkind_eqb (kind x) T_EOF); [|discriminate]. injection P as ->.
  destruct (proj1 (consumes _) _ _ _ _ He) as [a Ea]. assert (x = eof) by (apply app_inj_tail in Ea; destruct Ea; congruence). subst x.
  pose proof (proj1 (retail [eof] junk N _) 0 (yield t) [] t He (or_intror (ends_last _ eof En))) as He'. cbn [app] in He'.
  apply pexpr_any_fuel in He'. pose proof (pexpr_mono _ _ 0 (yield t ++ junk) Lf) as M. rewrite He' in M. specialize (M ltac:(discriminate)).
  apply (proj1 (agree f) _ _ _ _ ctx eof M). right. exists (yield t). split; [reflexivity|]. apply ends_last, En.
Qed.

Lemma trailing_ignored t us : reads 0 t eof -> ends_operand (yield t) -> no_operator_first us -> parse_any (yield t ++ us) = Ok t.
Proof.
  intros R En N. unfold parse_any. rewrite <- app_assoc. rewrite (sentence_prefix t (us ++ [eof]) R En (no_operator_head us N)) by lia. reflexivity.
Qed.

(** ** Parentheses *)
Fixpoint wrapped (k : nat) (t : ptree) : ptree := match k with O => t | S k => PParen (wrapped k t) end.
Lemma loop_stops f ctx p l st : is_infix (la1 st) = false -> rloop (S f) ctx p l st = Ok (l, st).
Proof. intros N. cbn [rloop]. unfold is_infix in N. destruct (infix_prec (la1 st)); [discriminate|reflexivity]. Qed.
Lemma recover_end s ctx st : tokens st = [eof] -> tokens (snd (recover s ctx st)) = [eof].
Proof.
  intros E. unfold recover. cbv zeta. cbn [snd tokens]. rewrite E.
  destruct (match error_at st with Some n => _ | None => false end); reflexivity.
Qed.

Lemma rexpr_paren f ctx p ts : rexpr (S f) ctx p (matched (lparen :: ts)) =
  (pr <- (er <- rexpr f (InParen :: ctx) 0 (matched ts) ;;
          match match_set (is_kind T_RPAREN) (context_has (InOps :: ctx)) (snd er) with
          | Matched _ st' | Inserted st' => Ok (PParen (fst er), st', true)
          | Mismatch => Ok (PParen (fst er), snd (recover 28 ctx (snd er)), false)
          end) ;;
   let '(l, st', continue) := pr in if continue : bool then rloop f ctx p l st' else Ok (l, st')).
Proof. reflexivity. Qed.

Lemma unbalanced t : reads 0 t eof -> ends_operand (yield t) -> forall k j f ctx,
  parse_fuel (repeat lparen k ++ yield t ++ repeat rparen j ++ [eof]) <= f ->
  exists st, rexpr f ctx 0 (matched (repeat lparen k ++ yield t ++ repeat rparen j ++ [eof])) = Ok (wrapped k t, st) /\
             tokens st = repeat rparen (j - k) ++ [eof].
Proof.
  intros R En. induction k as [|k IH]; intros j f ctx F.
  - cbn [repeat app] in *. rewrite Nat.sub_0_r. exists (matched (repeat rparen j ++ [eof])). split; [|reflexivity].
    apply sentence_prefix; try assumption. destruct j; reflexivity.
  - cbn [repeat app wrapped] in F |- *. unfold parse_fuel in F. cbn [length] in F. destruct f as [|f]; [lia|].
    rewrite rexpr_paren.
    destruct (IH j f (InParen :: ctx)) as [st1 [E1 T1]]; [unfold parse_fuel; lia|].
    rewrite E1. clear E1 IH. destruct f as [|f]; [lia|]. cbn [bind fst snd].
    destruct (j - k) as [|m] eqn:Ej.
    + replace (j - S k) with 0 by lia. cbn [repeat app] in *.
      assert (A : la1 st1 = T_EOF /\ la2 st1 = T_EOF) by (unfold la1, lt1, la2; rewrite T1; split; reflexivity). destruct A as [A1 A2].
      unfold match_set. rewrite A1, A2. change (is_kind T_RPAREN T_EOF) with false. cbv iota.
      destruct (context_has (InOps :: ctx) T_EOF).
      * cbn [bind]. rewrite loop_stops by (unfold la1, lt1; cbn [tokens]; rewrite T1; reflexivity). eexists. split; [reflexivity|]. exact T1.
      * cbn [bind]. eexists. split; [reflexivity|]. apply recover_end. exact T1.
    + replace (j - S k) with m by lia. cbn [repeat app] in T1.
      assert (A : la1 st1 = T_RPAREN) by (unfold la1, lt1; rewrite T1; reflexivity).
      unfold match_set. rewrite A. change (is_kind T_RPAREN T_RPAREN) with true. cbv iota. cbn [bind].
      unfold next_state. rewrite T1. cbn [tl]. rewrite loop_stops by (destruct m; reflexivity). eexists. split; reflexivity.
Qed.
Lemma unbalanced_accepted t k j : reads 0 t eof -> ends_operand (yield t) -> parse_any (repeat lparen k ++ yield t ++ repeat rparen j) = Ok (wrapped k t).
Proof.
  intros R En. unfold parse_any. rewrite <- !app_assoc.
  destruct (unbalanced t R En k j (parse_fuel (repeat lparen k ++ yield t ++ repeat rparen j ++ [eof])) [InParse] (le_n _)) as [st [E _]].
  rewrite E. reflexivity.
Qed.

(** ** Lists that are not closed *)
Lemma unclosed f : forall a rest items ctx s0 s1, pitems f (a ++ rparen :: rest) = Ok (items, rest) -> ender (kind (last a eof)) = true ->
  exists st, ritems f ctx s0 s1 (matched (a ++ [eof])) = Ok (items, true, st) /\ tokens st = [eof].
Proof.
  induction f as [|f IH]; [discriminate|]. intros a rest items ctx s0 s1 H En. cbn [pitems] in H. dbind H er He. destruct er as [e r]. cbn [fst snd] in H.
  destruct r as [|x r]; [discriminate|].
  assert (Ex : ends_item (kind x) = true) by (destruct (kind x); try discriminate; reflexivity).
  assert (Lr : exists c, rest = c /\ r = rest \/ exists c q, kind q = T_RPAREN /\ r = c ++ q :: rest).
  { destruct (kind x); try discriminate.
    - dbind H ir Hi. destruct ir as [i r']. cbn [fst snd] in H. injection H as _ ->. exists rest. right. destruct (proj2 (proj2 (proj2 (consumes f))) _ _ _ Hi) as [c [q [K ->]]]. exists c, q. auto.
    - injection H as _ ->. exists rest. left. auto. }
  pose proof (item_begins _ _ _ _ _ He Ex) as Bg.
  destruct (proj1 (consumes f) _ _ _ _ He) as [a1 E1].
  assert (Na : a <> []) by (intros ->; discriminate En).
  assert (Bg' : begins_item (head_kind (a ++ [eof])) = true) by (destruct a; [congruence|exact Bg]).
  cbn [ritems]. rewrite sync_hit by exact Bg'.
  destruct (kind x) eqn:K; try discriminate.
  - dbind H ir Hi. destruct ir as [i r']. cbn [fst snd] in H. injection H as <- ->.
    destruct (proj2 (proj2 (proj2 (consumes f))) _ _ _ Hi) as [c [q [Kq Er]]].
    assert (Eb : exists b, r = b ++ rparen :: rest /\ a = a1 ++ x :: b).
    { rewrite Er in E1. exists c. assert (Eq : q = rparen /\ a = a1 ++ x :: c).
      { change (a1 ++ x :: c ++ q :: rest) with (a1 ++ (x :: c) ++ q :: rest) in E1. rewrite app_assoc in E1.
        replace (a ++ rparen :: rest) with ((a ++ [rparen]) ++ rest) in E1 by (rewrite <- app_assoc; reflexivity).
        replace ((a1 ++ x :: c) ++ q :: rest) with (((a1 ++ x :: c) ++ [q]) ++ rest) in E1 by (rewrite <- app_assoc; reflexivity).
        apply app_inv_tail in E1. apply app_inj_tail in E1. destruct E1; auto. }
      destruct Eq as [-> ->]. split; [exact Er|reflexivity]. }
    destruct Eb as [b [-> ->]].
    assert (He' : pexpr f 0 ((a1 ++ x :: b) ++ [eof]) = Ok (e, (x :: b) ++ [eof])).
    { destruct (retail (rparen :: rest) [eof] eq_refl f) as [Rt _]. apply Rt; [exact He|left; discriminate]. }
    rewrite (proj1 (agree f) _ _ _ _ (InWords :: ctx) x He'); [|left; cbn [app head_kind context_has follow_has]; rewrite K; exact Ex]. cbn [bind fst snd].
    change ((x :: b) ++ [eof]) with (x :: b ++ [eof]).
    rewrite sync_hit by (cbn [head_kind]; rewrite K; exact Ex). rewrite la1_matched. cbn [head_kind]. rewrite K. change (is_kind T_COMMA T_COMMA) with true. cbv iota.
    change (next_state (matched (x :: b ++ [eof]))) with (matched (b ++ [eof])).
    destruct (IH b rest i ctx 110 117 Hi) as [st [E T]].
    { rewrite last_append, last_cons in En. destruct b as [|y b]; [cbn in En; rewrite K in En; discriminate|]. rewrite (last_default _ (y :: b) eof x) by discriminate. exact En. }
    rewrite E. cbn [bind]. eauto.
  - injection H as <- ->.
    assert (Eq : x = rparen /\ a = a1).
    { replace (a ++ rparen :: rest) with ((a ++ [rparen]) ++ rest) in E1 by (rewrite <- app_assoc; reflexivity).
      replace (a1 ++ x :: rest) with ((a1 ++ [x]) ++ rest) in E1 by (rewrite <- app_assoc; reflexivity).
      apply app_inv_tail in E1. apply app_inj_tail in E1. destruct E1; auto. }
    destruct Eq as [-> <-].
    assert (He' : pexpr f 0 (a ++ [eof]) = Ok (e, [] ++ [eof])).
    { destruct (retail (rparen :: rest) [eof] eq_refl f) as [Rt _]. apply Rt; [exact He|right; exact En]. }
    cbn [app] in He'.
    rewrite (proj1 (agree f) _ _ _ _ (InWords :: ctx) eof He'); [|right; exists a; split; [reflexivity|exact En]]. cbn [bind fst snd].
    change (sync ends_item (matched [eof])) with (@None pstate). cbv iota. eexists. split; [reflexivity|]. apply recover_end. reflexivity.
Qed.

Lemma items_parse items : reads_items items -> forall h, 3 * length (sep_yield items) + 7 <= h -> pitems h (sep_yield items ++ [rparen]) = Ok (items, []).
Proof.
  intros R h Lh. destruct (proj2 parse_complete items R []) as [f E].
  assert (W := proj2 (proj2 (proj2 (fuel_enough h))) (sep_yield items ++ [rparen]) (length (sep_yield items ++ [rparen])) (le_n _) ltac:(rewrite app_length; cbn [length]; lia)).
  destruct (Nat.le_ge_cases f h) as [L|L].
  - rewrite (pitems_mono _ _ _ L); [exact E|]. rewrite E. discriminate.
  - rewrite <- (pitems_mono _ _ _ L); [exact E|]. intro F. rewrite F in W. discriminate W.
Qed.
Lemma unclosed_list items : reads_items items -> ends_operand (sep_yield items) -> forall f ctx, 3 * length (sep_yield items) + 8 <= f ->
  exists st, rwords f ctx (matched (lparen :: sep_yield items ++ [eof])) = Ok (items, true, false, st) /\ tokens st = [eof].
Proof.
  intros R En f ctx Lf. destruct f as [|f]; [lia|].
  change (rwords (S f) ctx (matched (lparen :: sep_yield items ++ [eof]))) with
    (ir <- ritems f ctx 96 103 (matched (sep_yield items ++ [eof])) ;; let '(items, failed, st2) := ir in Ok (items, failed, false, st2)).
  destruct (unclosed f (sep_yield items) [] items ctx 96 103) as [st [E T]]; [apply items_parse; [exact R|lia]|apply ends_last; exact En|].
  rewrite E. exists st. auto.
Qed.
Lemma loop_end f ctx p l st : tokens st = [eof] -> 1 <= f -> rloop f ctx p l st = Ok (l, st).
Proof. intros T F. destruct f; [lia|]. apply loop_stops. unfold la1, lt1. rewrite T. reflexivity. Qed.

Lemma parse_any_of ts t : (forall f, 3 * length ts + 5 <= f -> exists st, rexpr (S f) [InParse] 0 (matched (ts ++ [eof])) = Ok (t, st)) -> parse_any ts = Ok t.
Proof.
  intros H. unfold parse_any, parse_fuel. rewrite app_length. cbn [length].
  destruct (H (3 * length ts + 5) (le_n _)) as [st E]. replace (3 * (length ts + 1) + 3) with (S (3 * length ts + 5)) by lia. rewrite E. reflexivity.
Qed.
Lemma unclosed_function fn items : function_kind (kind fn) -> reads_items items -> ends_operand (sep_yield items) ->
  parse_any (fn :: lparen :: sep_yield items) = Ok (PFuncErr fn items).
Proof.
  intros K R En. apply parse_any_of. cbn [app length]. intros f Lf. cbn [rexpr]. cbv zeta.
  change (lt1 (matched (fn :: lparen :: sep_yield items ++ [eof]))) with fn.
  change (next_state (matched (fn :: lparen :: sep_yield items ++ [eof]))) with (matched (lparen :: sep_yield items ++ [eof])).
  destruct (unclosed_list items R En f [InOps; InParse] ltac:(lia)) as [st [E T]]. exists st.
  destruct (kind fn) eqn:Kf; cbn in K; decompose [or] K; try discriminate; try contradiction; cbn [is_function];
    rewrite E; cbn [bind]; rewrite loop_end by (exact T || lia); reflexivity.
Qed.
Lemma unclosed_in f it items : kind f = T_FIELD -> kind it = T_IN -> reads_items items -> ends_operand (sep_yield items) ->
  parse_any (f :: it :: lparen :: sep_yield items) = Ok (PIn f None it items).
Proof.
  intros Kf Ki R En. apply parse_any_of. cbn [app length]. intros n Ln. cbn [rexpr]. cbv zeta.
  change (lt1 (matched (f :: it :: lparen :: sep_yield items ++ [eof]))) with f.
  change (next_state (matched (f :: it :: lparen :: sep_yield items ++ [eof]))) with (matched (it :: lparen :: sep_yield items ++ [eof])).
  change (lt1 (matched (it :: lparen :: sep_yield items ++ [eof]))) with it.
  change (next_state (matched (it :: lparen :: sep_yield items ++ [eof]))) with (matched (lparen :: sep_yield items ++ [eof])).
  destruct (unclosed_list items R En n [InOps; InParse] ltac:(lia)) as [st [E T]]. exists st.
  rewrite Kf, Ki, E. cbn [bind]. rewrite loop_end by (exact T || lia). reflexivity.
Qed.
Lemma unclosed_not_in f n it items : kind f = T_FIELD -> kind n = T_NOT -> kind it = T_IN -> reads_items items -> ends_operand (sep_yield items) ->
  parse_any (f :: n :: it :: lparen :: sep_yield items) = Ok (PIn f (Some n) it items).
Proof.
  intros Kf Kn Ki R En. apply parse_any_of. cbn [app length]. intros m Lm. cbn [rexpr]. cbv zeta.
  change (lt1 (matched (f :: n :: it :: lparen :: sep_yield items ++ [eof]))) with f.
  change (next_state (matched (f :: n :: it :: lparen :: sep_yield items ++ [eof]))) with (matched (n :: it :: lparen :: sep_yield items ++ [eof])).
  change (lt1 (matched (n :: it :: lparen :: sep_yield items ++ [eof]))) with n.
  change (next_state (matched (n :: it :: lparen :: sep_yield items ++ [eof]))) with (matched (it :: lparen :: sep_yield items ++ [eof])).
  destruct (unclosed_list items R En m [InOps; InParse] ltac:(lia)) as [st [E T]]. exists st.
  rewrite Kf, Kn, match_hit by (rewrite Ki; reflexivity). cbn [last]. rewrite E. cbn [bind]. rewrite loop_end by (exact T || lia). reflexivity.
Qed.
Lemma unclosed_array f op items : kind f = T_FIELD -> kind op = T_CONTAINS_ALL \/ kind op = T_CONTAINS_ANY -> reads_items items -> ends_operand (sep_yield items) ->
  parse_any (f :: op :: lparen :: sep_yield items) = Ok (PArray f op items).
Proof.
  intros Kf Ki R En. apply parse_any_of. cbn [app length]. intros n Ln. cbn [rexpr]. cbv zeta.
  change (lt1 (matched (f :: op :: lparen :: sep_yield items ++ [eof]))) with f.
  change (next_state (matched (f :: op :: lparen :: sep_yield items ++ [eof]))) with (matched (op :: lparen :: sep_yield items ++ [eof])).
  change (lt1 (matched (op :: lparen :: sep_yield items ++ [eof]))) with op.
  change (next_state (matched (op :: lparen :: sep_yield items ++ [eof]))) with (matched (lparen :: sep_yield items ++ [eof])).
  destruct (unclosed_list items R En n [InOps; InParse] ltac:(lia)) as [st [E T]]. exists st.
  rewrite Kf. destruct Ki as [Ki|Ki]; rewrite Ki, E; cbn [bind]; rewrite loop_end by (exact T || lia); reflexivity.
Qed.
