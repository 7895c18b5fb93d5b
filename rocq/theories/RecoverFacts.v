(** The recovering parser: it always ends, and on sentences of the grammar it is the parser of Grammar.v. *)
From Verif Require Import Base Lexer Grammar Recover SpecGrammar ParseFuel ParseFacts.

Definition size (st : pstate) : nat := length (tokens st).
(** [r] succeeds and leaves at most [n] tokens *)
Definition leaves {A} (n : nat) (r : res (A * pstate)) : Prop := exists x st, r = Ok (x, st) /\ size st <= n.
Lemma leaves_weaken A n m (r : res (A * pstate)) : n <= m -> leaves n r -> leaves m r.
Proof. intros L [x [st [E S]]]. exists x, st. split; [exact E|lia]. Qed.
Lemma leaves_ok A n (x : A) st : size st <= n -> leaves n (Ok (x, st)).
Proof. intros S. exists x, st. auto. Qed.
Lemma bind_leaves A B n m (a : res (A * pstate)) (k : A * pstate -> res (B * pstate)) :
  leaves n a -> (forall x st, size st <= n -> leaves m (k (x, st))) -> leaves m (bind a k).
Proof. intros [x [st [E S]]] H. rewrite E. cbn [bind]. apply H. exact S. Qed.

Lemma is_kind_true a k : is_kind a k = true <-> k = a.
Proof. unfold is_kind, tkind_eqb. destruct (tkind_eq_dec k a); split; congruence. Qed.
Lemma next_size st : size (next_state st) = size st - 1.
Proof. unfold size, next_state. cbn. destruct (tokens st); cbn; lia. Qed.
Lemma la1_size st : la1 st <> T_EOF -> 1 <= size st.
Proof. unfold la1, lt1, size. destruct (tokens st); cbn; [congruence|lia]. Qed.
Lemma advance_size ts : length (advance ts) <= length ts.
Proof. destruct ts as [|t ts]; cbn; [lia|]. destruct (tkind_eqb _ _); cbn; lia. Qed.
Lemma skip_size stop ts : length (snd (skip_until stop ts)) <= length ts.
Proof. induction ts as [|t ts IH]; cbn; [lia|]. destruct (_ || _); cbn; lia. Qed.
Lemma recover_size s ctx st : size (snd (recover s ctx st)) <= size st.
Proof.
  unfold recover, size. cbv zeta. cbn [snd tokens]. pose proof (advance_size (tokens st)).
  destruct (match error_at st with Some n => _ | None => false end); etransitivity; try apply skip_size; lia.
Qed.
Lemma match_size fits next st :
  match match_set fits next st with Matched _ st' | Inserted st' => size st' <= size st | Mismatch => True end.
Proof.
  unfold match_set. destruct (fits (la1 st)); [rewrite next_size; lia|].
  destruct (fits (la2 st)). { unfold size, matched; cbn. destruct (tokens st) as [|a [|b l]]; cbn; lia. }
  destruct (next (la1 st)); auto.
Qed.
Lemma sync_size fits st st' : sync fits st = Some st' -> size st' <= size st.
Proof.
  unfold sync. destruct (_ || _); [intro E; injection E as <-; lia|].
  destruct (fits _); [|discriminate]. intro E; injection E as <-. apply advance_size.
Qed.

Lemma upper_size ctx f lo tt st : size (snd (range_upper ctx f lo tt st)) <= size st.
Proof.
  unfold range_upper. pose proof (match_size is_numeric_type (context_has (InOps :: ctx)) st) as M.
  destruct (match_set _ _ st) as [[|x [|y l]] st'|st'|]; cbn [snd]; try exact M. apply recover_size.
Qed.

Lemma rparse_ends f :
  (forall ctx p st n, size st <= n -> 3 * n + 2 <= f -> leaves n (rexpr f ctx p st)) /\
  (forall ctx p l st n, size st <= n -> 3 * n + 1 <= f -> leaves n (rloop f ctx p l st)) /\
  (forall ctx st n, size st <= n -> 3 * n + 4 <= f -> leaves n (rwords f ctx st)) /\
  (forall ctx s0 s1 st n, size st <= n -> 3 * n + 3 <= f -> leaves n (ritems f ctx s0 s1 st)).
Proof.
  induction f as [|f [I1 [I2 [I3 I4]]]].
  { repeat split; intros; exfalso; lia. }
  split; [|split; [|split]].
  - intros ctx p st n L F. cbn [rexpr]. cbv zeta.
    match goal with |- leaves n (bind ?a _) => cut (exists l st' c, a = Ok (l, st', c) /\ size st' <= n) end.
    { intros [l [st' [c [E S]]]]. rewrite E. cbn [bind]. destruct c; [apply I2; lia|apply leaves_ok; exact S]. }
    assert (P : forall k, kind (lt1 st) = k -> k <> T_EOF -> 1 <= size st) by (intros k E N; apply la1_size; unfold la1; congruence).
    pose proof (next_size st) as Ns.
    assert (W : forall st1 B (k : list ptree * bool * bool -> pstate -> B) , size st1 + 1 <= n ->
      exists items failed childless st2, rwords f (InOps :: ctx) st1 = Ok (items, failed, childless, st2) /\ size st2 <= n).
    { intros st1 B k S. destruct (I3 (InOps :: ctx) st1 (n - 1)) as [[[i fl] c] [st2 [E S2]]]; [lia|lia|]. exists i, fl, c, st2. split; [exact E|lia]. }
    assert (W' : forall st1, size st1 + 1 <= n ->
      exists items failed childless st2, rwords f (InOps :: ctx) st1 = Ok (items, failed, childless, st2) /\ size st2 <= n).
    { intros st1. apply (W st1 nat (fun _ _ => 0)). }
    clear W.
    destruct (kind (lt1 st)) eqn:K; cbn [is_function is_type];
      try (eexists _, _, _; split; [reflexivity|lia]);
      try (specialize (P _ eq_refl ltac:(discriminate));
           destruct (W' (next_state st) ltac:(lia)) as [i [fl [c [st2 [E S2]]]]]; rewrite E; cbn [bind]; eexists _, _, _; split; [reflexivity|lia]);
      specialize (P _ eq_refl ltac:(discriminate)).
    + destruct (I1 (InOps :: ctx) not_prec (next_state st) (n - 1)) as [e [st1 [E S1]]]; [lia|lia|].
      rewrite E. cbn [bind fst snd]. eexists _, _, _; split; [reflexivity|lia].
    + destruct (operand_ok ctx (tl (tokens st))).
      * destruct (I1 (InOps :: ctx) neg_prec (next_state st) (n - 1)) as [e [st1 [E S1]]]; [lia|lia|].
        rewrite E. cbn [bind fst snd]. eexists _, _, _; split; [reflexivity|lia].
      * eexists _, _, _; split; [reflexivity|]. pose proof (recover_size 53 ctx st). lia.
    + destruct (I1 (InParen :: ctx) 0 (next_state st) (n - 1)) as [e [st1 [E S1]]]; [lia|lia|].
      rewrite E. cbn [bind fst snd].
      pose proof (match_size (is_kind T_RPAREN) (context_has (InOps :: ctx)) st1) as M.
      destruct (match_set _ _ st1); [| |pose proof (recover_size 28 ctx st1)]; eexists _, _, _; (split; [reflexivity|lia]).
    + pose proof (next_size (next_state st)) as Ns2.
      destruct (kind (lt1 (next_state st))) eqn:K2;
        try (eexists _, _, _; split; [reflexivity|lia]);
        try (destruct (W' (next_state (next_state st)) ltac:(lia)) as [i [fl [c [st2 [E S2]]]]]; rewrite E; cbn [bind]; eexists _, _, _; split; [reflexivity|lia]).
      * pose proof (match_size (is_kind T_IN) (is_kind T_LPAREN) (next_state (next_state st))) as M.
        destruct (match_set (is_kind T_IN) (is_kind T_LPAREN) (next_state (next_state st))) as [us st3|st3|].
        -- destruct (W' st3 ltac:(lia)) as [i [fl [c [st4 [E S4]]]]]. rewrite E. cbn [bind]. eexists _, _, _; split; [reflexivity|lia].
        -- destruct (W' st3 ltac:(lia)) as [i [fl [c [st4 [E S4]]]]]. rewrite E. cbn [bind]. eexists _, _, _; split; [reflexivity|lia].
        -- eexists _, _, _; split; [reflexivity|]. pose proof (recover_size 47 ctx (next_state (next_state st))). lia.
      * pose proof (match_size (is_kind T_TO) is_numeric_type (next_state (next_state st))) as M.
        destruct (match_set (is_kind T_TO) is_numeric_type (next_state (next_state st))) as [us st3|st3|].
        -- eexists _, _, _; split; [reflexivity|]. etransitivity; [apply upper_size|lia].
        -- eexists _, _, _; split; [reflexivity|]. etransitivity; [apply upper_size|lia].
        -- eexists _, _, _; split; [reflexivity|]. pose proof (recover_size 40 ctx (next_state (next_state st))). lia.
      * pose proof (match_size (is_kind T_TO) is_numeric_type (next_state (next_state st))) as M.
        destruct (match_set (is_kind T_TO) is_numeric_type (next_state (next_state st))) as [us st3|st3|].
        -- eexists _, _, _; split; [reflexivity|]. etransitivity; [apply upper_size|lia].
        -- eexists _, _, _; split; [reflexivity|]. etransitivity; [apply upper_size|lia].
        -- eexists _, _, _; split; [reflexivity|]. pose proof (recover_size 40 ctx (next_state (next_state st))). lia.
  - intros ctx p l st n L F. cbn [rloop].
    destruct (infix_prec (la1 st)) as [q|] eqn:Q; [|apply leaves_ok; lia].
    destruct (p <=? q); [|apply leaves_ok; lia].
    assert (1 <= size st) by (apply la1_size; intro E; rewrite E in Q; discriminate Q).
    pose proof (next_size st).
    apply bind_leaves with (n := n - 1); [apply I1; lia|]. intros x st1 S1. cbn [fst snd].
    apply leaves_weaken with (n - 1); [lia|]. apply I2; lia.
  - intros ctx st n L F. cbn [rwords]. pose proof (match_size (is_kind T_LPAREN) begins_item st) as M.
    destruct (match_set _ _ st) as [us st1|st1|].
    + destruct (I4 ctx 96 103 st1 n) as [[i fl] [st2 [E S2]]]; [lia|lia|]. rewrite E. cbn [bind]. apply leaves_ok. exact S2.
    + destruct (I4 ctx 96 103 st1 n) as [[i fl] [st2 [E S2]]]; [lia|lia|]. rewrite E. cbn [bind]. apply leaves_ok. exact S2.
    + cbv zeta. apply leaves_ok. pose proof (recover_size 92 ctx st). lia.
  - intros ctx s0 s1 st n L F. cbn [ritems].
    destruct (sync begins_item st) as [st1|] eqn:Sy.
    2:{ apply leaves_ok. pose proof (recover_size s0 ctx st). lia. }
    apply sync_size in Sy.
    destruct (I1 (InWords :: ctx) 0 st1 n) as [e [st2 [E S2]]]; [lia|lia|]. rewrite E. cbn [bind fst snd].
    destruct (sync ends_item st2) as [st3|] eqn:Sy2.
    2:{ apply leaves_ok. pose proof (recover_size s1 ctx st2). lia. }
    apply sync_size in Sy2.
    destruct (is_kind T_COMMA (la1 st3)) eqn:C.
    + apply is_kind_true in C. assert (1 <= size st3) by (apply la1_size; congruence). pose proof (next_size st3).
      destruct (I4 ctx 110 117 (next_state st3) (n - 1)) as [[i fl] [st4 [E4 S4]]]; [lia|lia|]. rewrite E4. cbn [bind].
      apply leaves_ok. lia.
    + pose proof (match_size (is_kind T_RPAREN) (context_has ctx) st3) as M.
      destruct (match_set _ _ st3) as [us st4|st4|]; apply leaves_ok; [lia|lia|]. pose proof (recover_size 125 ctx st3). lia.
Qed.

Lemma parse_any_total ts : exists t, parse_any ts = Ok t.
Proof.
  unfold parse_any. set (i := ts ++ [eof]).
  destruct (proj1 (rparse_ends (parse_fuel i)) [InParse] 0 (matched i) (length i)) as [t [st [E _]]].
  - unfold size. cbn. lia.
  - unfold parse_fuel. lia.
  - rewrite E. cbn. eauto.
Qed.

(** ** Sentences of the grammar *)
Definition head_kind (ts : list token) : tkind := match ts with t :: _ => kind t | [] => T_EOF end.
Lemma la1_matched ts : la1 (matched ts) = head_kind ts.
Proof. destruct ts; reflexivity. Qed.
(** Tokens after which an operand is complete, whatever follows. *)
Definition ender (k : tkind) : bool :=
  match k with T_RPAREN | T_INTEGER | T_DECIMAL | T_APP_VERSION | T_TRUE | T_FALSE | T_WORD | T_DATE | T_DATETIME => true | _ => false end.

Ltac dbind H x Hx := apply bind_ok in H; destruct H as [x [Hx H]].
Lemma consumes f :
  (forall p ts t rest, pexpr f p ts = Ok (t, rest) -> exists a, ts = a ++ rest) /\
  (forall p l ts t rest, ploop f p l ts = Ok (t, rest) -> exists a, ts = a ++ rest) /\
  (forall ts items rest, pwordlist f ts = Ok (items, rest) -> exists a c, kind c = T_RPAREN /\ ts = a ++ c :: rest) /\
  (forall ts items rest, pitems f ts = Ok (items, rest) -> exists a c, kind c = T_RPAREN /\ ts = a ++ c :: rest).
Proof.
  induction f as [|f [I1 [I2 [I3 I4]]]].
  { split; [|split; [|split]]; intros; discriminate. }
  split; [|split; [|split]].
  - intros p ts t rest H. cbn [pexpr] in H. dbind H lr Hp. destruct lr as [l mid]. cbn [fst snd] in H.
    destruct (I2 _ _ _ _ _ H) as [b E]. cut (exists a, ts = a ++ mid); [intros [a ->]; exists (a ++ b); rewrite E; apply app_assoc|].
    clear H E. destruct ts as [|x ts]; [discriminate|].
    assert (W : forall us items r, pwordlist f us = Ok (items, r) -> exists a, us = a ++ r).
    { intros us items r Hw. destruct (I3 _ _ _ Hw) as [a [c [_ ->]]]. exists (a ++ [c]). rewrite <- app_assoc. reflexivity. }
    destruct (kind x) eqn:K; cbn [is_function is_type] in Hp;
      try (injection Hp as <- <-; exists []; reflexivity);
      try (injection Hp as <- <-; exists [x]; reflexivity);
      try (dbind Hp wr Hw; destruct wr as [w r]; cbn [fst snd] in Hp; injection Hp as <- <-;
           first [destruct (W _ _ _ Hw) as [a ->] | destruct (I1 _ _ _ _ Hw) as [a ->]]; exists (x :: a); reflexivity).
    + dbind Hp er He. destruct er as [e r]. cbn [fst snd] in Hp. dbind Hp cr Hc. destruct cr as [c r']. cbn [fst snd] in Hp. injection Hp as <- <-.
      apply expect_ok in Hc. destruct Hc as [-> _]. destruct (I1 _ _ _ _ He) as [a ->]. exists (x :: a ++ [c]). cbn. rewrite <- app_assoc. reflexivity.
    + destruct ts as [|y ts]; [injection Hp as <- <-; exists [x]; reflexivity|].
      destruct (kind y) eqn:K2;
        try (injection Hp as <- <-; exists [x]; reflexivity);
        try (dbind Hp wr Hw; destruct wr as [w r]; cbn [fst snd] in Hp; injection Hp as <- <-;
             destruct (W _ _ _ Hw) as [a ->]; exists (x :: y :: a); reflexivity).
      * dbind Hp ir Hi. destruct ir as [i r]. cbn [fst snd] in Hp. dbind Hp wr Hw. destruct wr as [w r']. cbn [fst snd] in Hp. injection Hp as <- <-.
        apply expect_ok in Hi. destruct Hi as [-> _]. destruct (W _ _ _ Hw) as [a ->]. exists (x :: y :: i :: a). reflexivity.
      * dbind Hp ir Hi. destruct ir as [i r]. cbn [fst snd] in Hp. apply expect_ok in Hi. destruct Hi as [-> _].
        destruct r as [|h r]; [discriminate|]. destruct (is_numeric_type (kind h)); [|discriminate]. injection Hp as <- <-. exists [x; y; i; h]. reflexivity.
      * dbind Hp ir Hi. destruct ir as [i r]. cbn [fst snd] in Hp. apply expect_ok in Hi. destruct Hi as [-> _].
        destruct r as [|h r]; [discriminate|]. destruct (is_numeric_type (kind h)); [|discriminate]. injection Hp as <- <-. exists [x; y; i; h]. reflexivity.
  - intros p l ts t rest H. cbn [ploop] in H. destruct ts as [|x ts]; [injection H as <- <-; exists []; reflexivity|].
    destruct (infix_prec (kind x)) as [q|]; [|injection H as <- <-; exists []; reflexivity].
    destruct (p <=? q); [|injection H as <- <-; exists []; reflexivity].
    dbind H rr Hr. destruct rr as [r mid]. cbn [fst snd] in H. destruct (I1 _ _ _ _ Hr) as [a ->]. destruct (I2 _ _ _ _ _ H) as [b ->].
    exists (x :: a ++ b). cbn. rewrite <- app_assoc. reflexivity.
  - intros ts items rest H. cbn [pwordlist] in H. dbind H lr Hl. destruct lr as [l r]. cbn [fst snd] in H.
    apply expect_ok in Hl. destruct Hl as [-> _]. destruct (I4 _ _ _ H) as [a [c [K ->]]]. exists (l :: a), c. split; [exact K|reflexivity].
  - intros ts items rest H. cbn [pitems] in H. dbind H er He. destruct er as [e r]. cbn [fst snd] in H.
    destruct (I1 _ _ _ _ He) as [a ->]. destruct r as [|x r]; [discriminate|].
    destruct (kind x) eqn:K; try discriminate.
    + dbind H ir Hi. destruct ir as [i r']. cbn [fst snd] in H. injection H as <- <-.
      destruct (I4 _ _ _ Hi) as [b [c [Kc ->]]]. exists (a ++ x :: b), c. split; [exact Kc|]. rewrite <- app_assoc. reflexivity.
    + injection H as <- <-. exists a, x. split; [exact K|reflexivity].
Qed.

(** What follows fits the context, or what was read ends with a token that completes an operand. *)
Definition good (ctx : list frame) (prev : token) (ts rest : list token) : Prop :=
  context_has ctx (head_kind rest) = true \/ exists a, ts = a ++ rest /\ ender (kind (last a prev)) = true.

Lemma last_cons A (a : list A) : forall x d, last (x :: a) d = last a x.
Proof. induction a as [|y a IH]; intros x d; [reflexivity|]. change (last (y :: a) d = last (y :: a) x). rewrite !IH. reflexivity. Qed.
Lemma last_append A (a b : list A) : forall d, last (a ++ b) d = last b (last a d).
Proof. induction a as [|x a IH]; intros d; [reflexivity|]. cbn [app]. rewrite !last_cons. apply IH. Qed.

Lemma context_ops ctx k : context_has (InOps :: ctx) k = is_infix k || closes ctx k.
Proof. cbn [context_has]. induction ctx as [|[] ctx IH]; cbn [context_has closes] in *; try reflexivity. rewrite IH. destruct (is_infix k); reflexivity. Qed.

Lemma ploop_head f p l ts t rest : ploop f p l ts = Ok (t, rest) -> ts = rest \/ is_infix (head_kind ts) = true.
Proof.
  destruct f; [discriminate|]. cbn [ploop]. destruct ts as [|x ts]; [intro H; injection H; auto|]. unfold is_infix. cbn [head_kind].
  destruct (infix_prec (kind x)); [auto|intro H; injection H; auto].
Qed.
(** the operand [ts] without [mid] of a larger expression [x :: ts] without [rest] *)
Lemma good_operand ctx prev x ts mid rest :
  good ctx prev (x :: ts) rest -> (exists a, ts = a ++ mid) -> mid = rest \/ is_infix (head_kind mid) = true -> good (InOps :: ctx) x ts mid.
Proof.
  intros G [a E] [->|I]; [|left; cbn; rewrite I; reflexivity].
  destruct G as [C|[b [Eb Lb]]]; [left; cbn; rewrite C; apply orb_true_r|]. right. exists a. split; [exact E|].
  rewrite E in Eb. change (x :: a ++ rest) with ((x :: a) ++ rest) in Eb. apply app_inv_tail in Eb. subst b. rewrite last_cons in Lb. exact Lb.
Qed.
Lemma good_rest ctx prev a mid rest : good ctx prev (a ++ mid) rest -> (exists b, mid = b ++ rest) -> good ctx (last a prev) mid rest.
Proof.
  intros [C|[b [Eb Lb]]] [c E]; [left; exact C|]. right. exists c. split; [exact E|]. subst mid. rewrite app_assoc in Eb. apply app_inv_tail in Eb. subst b.
  rewrite last_append in Lb. exact Lb.
Qed.

Lemma pwordlist_fueled ts : fueled (pwordlist (parse_fuel ts) ts).
Proof.
  assert (W := proj1 (proj2 (proj2 (fuel_enough (parse_fuel ts)))) ts (length ts) (le_n _) ltac:(unfold parse_fuel; lia)).
  intro E. rewrite E in W. discriminate W.
Qed.
Lemma pwordlist_any_fuel f ts x : pwordlist f ts = Ok x -> pwordlist (parse_fuel ts) ts = Ok x.
Proof.
  intros H. destruct (Nat.le_ge_cases f (parse_fuel ts)) as [L|L].
  - rewrite (pwordlist_mono _ _ _ L); [exact H|]. rewrite H. discriminate.
  - rewrite <- (pwordlist_mono _ _ _ L); [exact H|]. apply pwordlist_fueled.
Qed.
Lemma list_parses_ok f ts x : pwordlist f ts = Ok x -> list_parses ts = true.
Proof. intros H. unfold list_parses. rewrite (pwordlist_any_fuel _ _ _ H). reflexivity. Qed.

Lemma operand_good f : forall ctx prev p ts t rest, pexpr f p ts = Ok (t, rest) -> good (InOps :: ctx) prev ts rest ->
  ender (kind prev) = false -> operand_ok ctx ts = true.
Proof.
  induction f as [|f IH]; [discriminate|]. intros ctx prev p ts t rest H G N. cbn [pexpr] in H.
  dbind H lr Hp. destruct lr as [l mid]. cbn [fst snd] in H. pose proof (ploop_head _ _ _ _ _ _ H) as Hd.
  destruct ts as [|x ts]; [discriminate|].
  assert (O : forall p e, pexpr f p ts = Ok (e, mid) -> ender (kind x) = false -> operand_ok ctx ts = true).
  { intros p' e He Nx. apply (IH ctx x p' ts e mid He); [|exact Nx].
    assert (G' := good_operand _ _ _ _ _ _ G (proj1 (consumes f) _ _ _ _ He) Hd).
    destruct G' as [C|R]; [left|right; exact R]. cbn [context_has] in *. destruct (is_infix _); [reflexivity|exact C]. }
  assert (T : forall a, x :: ts = a ++ mid -> ender (kind (last a prev)) = false -> is_infix (head_kind mid) || closes ctx (head_kind mid) = true).
  { intros a Ea La. rewrite <- context_ops. destruct Hd as [->|I]; [|cbn; rewrite I; reflexivity].
    destruct G as [C|[b [Eb Lb]]]; [exact C|]. rewrite Ea in Eb. apply app_inv_tail in Eb. subst b. congruence. }
  cbn [operand_ok]. destruct (kind x) eqn:K; cbn [is_function is_type is_infix infix_prec orb] in Hp |- *; try reflexivity;
    try (injection Hp as <- <-; specialize (T [] eq_refl N); cbn [head_kind] in T; rewrite K in T; exact T);
    try (dbind Hp wr Hw; eapply list_parses_ok; exact Hw).
  - dbind Hp er He. destruct er as [e r]. cbn [fst snd] in Hp. injection Hp as <- ->. apply (O _ _ He). reflexivity.
  - dbind Hp er He. destruct er as [e r]. cbn [fst snd] in Hp. injection Hp as <- ->. apply (O _ _ He). reflexivity.
  - dbind Hp er He. destruct er as [e r]. cbn [fst snd] in Hp. dbind Hp cr Hc. destruct cr as [c r']. apply expect_ok in Hc. destruct Hc as [-> Kc].
    rewrite (pexpr_any_fuel _ _ _ _ He). apply is_kind_true. exact Kc.
  - destruct ts as [|y ts]. { injection Hp as <- <-. specialize (T [x] eq_refl). cbn [last] in T. rewrite K in T. specialize (T eq_refl). exact T. }
    destruct (kind y) eqn:K2; cbn [is_infix infix_prec orb] in Hp |- *; try reflexivity;
      try (injection Hp as <- <-; specialize (T [x] eq_refl); cbn [last] in T; rewrite K in T; specialize (T eq_refl); cbn [head_kind] in T; rewrite K2 in T; exact T);
      try (dbind Hp wr Hw; eapply list_parses_ok; exact Hw).
    + dbind Hp ir Hi. destruct ir as [i r]. cbn [fst snd] in Hp. dbind Hp wr Hw. apply expect_ok in Hi. destruct Hi as [-> Ki]. cbn [fst snd] in Hw.
      rewrite (list_parses_ok _ _ _ Hw), Ki. reflexivity.
    + dbind Hp ir Hi. destruct ir as [i r]. cbn [fst snd] in Hp. apply expect_ok in Hi. destruct Hi as [-> Ki].
      destruct r as [|h r]; [discriminate|]. destruct (is_numeric_type (kind h)) eqn:Nh; [|discriminate]. rewrite Ki. reflexivity.
    + dbind Hp ir Hi. destruct ir as [i r]. cbn [fst snd] in Hp. apply expect_ok in Hi. destruct Hi as [-> Ki].
      destruct r as [|h r]; [discriminate|]. destruct (is_numeric_type (kind h)) eqn:Nh; [|discriminate]. rewrite Ki. reflexivity.
Qed.

Lemma match_hit fits next x ts : fits (kind x) = true -> match_set fits next (matched (x :: ts)) = Matched [x] (matched ts).
Proof. intros H. unfold match_set, la1, lt1. cbn [tokens matched]. rewrite H. reflexivity. Qed.
Lemma sync_hit fits ts : fits (head_kind ts) = true -> sync fits (matched ts) = Some (matched ts).
Proof. intros H. unfold sync. rewrite la1_matched, H. reflexivity. Qed.

Lemma item_begins f p ts t rest : pexpr f p ts = Ok (t, rest) -> ends_item (head_kind rest) = true -> begins_item (head_kind ts) = true.
Proof.
  destruct f; [discriminate|]. intros H En. cbn [pexpr] in H. dbind H lr Hp. destruct lr as [l mid]. cbn [fst snd] in H.
  destruct ts as [|x ts]; [discriminate|]. cbn [head_kind].
  destruct (kind x) eqn:K; try reflexivity; cbn [is_function is_type] in Hp; injection Hp as <- <-;
    (destruct (ploop_head _ _ _ _ _ _ H) as [E|I]; [subst rest; cbn [head_kind] in En|cbn [head_kind] in I]);
    rewrite K in *; discriminate.
Qed.

Lemma agree f :
  (forall p ts t rest ctx prev, pexpr f p ts = Ok (t, rest) -> good ctx prev ts rest -> rexpr f ctx p (matched ts) = Ok (t, matched rest)) /\
  (forall p l ts t rest ctx prev, ploop f p l ts = Ok (t, rest) -> good ctx prev ts rest -> rloop f ctx p l (matched ts) = Ok (t, matched rest)) /\
  (forall ts items rest ctx, pwordlist f ts = Ok (items, rest) -> rwords f ctx (matched ts) = Ok (items, false, false, matched rest)) /\
  (forall ts items rest ctx s0 s1, pitems f ts = Ok (items, rest) -> ritems f ctx s0 s1 (matched ts) = Ok (items, false, matched rest)).
Proof.
  induction f as [|f [I1 [I2 [I3 I4]]]].
  { split; [|split; [|split]]; intros; discriminate. }
  split; [|split; [|split]].
  - intros p ts t rest ctx prev H G. pose proof H as H0. cbn [pexpr] in H. dbind H lr Hp. destruct lr as [l mid]. cbn [fst snd] in H.
    pose proof (ploop_head _ _ _ _ _ _ H) as Hd. destruct (proj1 (proj2 (consumes f)) _ _ _ _ _ H) as [b Eb].
    destruct ts as [|x ts]; [discriminate|].
    assert (L : forall a, x :: ts = a ++ mid -> rloop f ctx p l (matched mid) = Ok (t, matched rest)).
    { intros a Ea. apply I2 with (prev := last a prev); [exact H|]. apply good_rest; [rewrite <- Ea; exact G|eauto]. }
    assert (M : forall us items r, pwordlist f us = Ok (items, r) -> exists a, us = a ++ r).
    { intros us items r Hw. destruct (proj1 (proj2 (proj2 (consumes f))) _ _ _ Hw) as [a [c [_ ->]]]. exists (a ++ [c]). rewrite <- app_assoc. reflexivity. }
    assert (O : forall p e, pexpr f p ts = Ok (e, mid) -> rexpr f (InOps :: ctx) p (matched ts) = Ok (e, matched mid)).
    { intros p' e He. apply I1 with (prev := x); [exact He|]. eapply good_operand; [exact G|eapply (proj1 (consumes f)); exact He|exact Hd]. }
    cbn [rexpr]. cbv zeta. change (lt1 (matched (x :: ts))) with x. change (next_state (matched (x :: ts))) with (matched ts).
    change (tl (tokens (matched (x :: ts)))) with ts.
    destruct (kind x) eqn:K; cbn [is_function is_type] in Hp |- *;
      try (injection Hp as <- <-; cbn [bind]; apply (L []); reflexivity);
      try (injection Hp as <- <-; cbn [bind]; apply (L [x]); reflexivity);
      try (dbind Hp wr Hw; destruct wr as [w r]; cbn [fst snd] in Hp; injection Hp as <- <-;
           rewrite (I3 _ _ _ _ Hw); cbn [bind]; destruct (M _ _ _ Hw) as [a Ea]; apply (L (x :: a)); cbn; congruence).
    + dbind Hp er He. destruct er as [e r]. cbn [fst snd] in Hp. injection Hp as <- ->. rewrite (O _ _ He). cbn [bind fst snd].
      destruct (proj1 (consumes f) _ _ _ _ He) as [a Ea]. apply (L (x :: a)). cbn; congruence.
    + dbind Hp er He. destruct er as [e r]. cbn [fst snd] in Hp. injection Hp as <- ->.
      destruct (proj1 (consumes f) _ _ _ _ He) as [a Ea].
      rewrite (operand_good f ctx x _ _ _ _ He); [|eapply good_operand; [exact G|eauto|exact Hd]|rewrite K; reflexivity].
      rewrite (O _ _ He). cbn [bind fst snd]. apply (L (x :: a)). cbn; congruence.
    + dbind Hp er He. destruct er as [e r]. cbn [fst snd] in Hp. dbind Hp cr Hc. destruct cr as [c r']. cbn [fst snd] in Hp. injection Hp as <- <-.
      apply expect_ok in Hc. destruct Hc as [-> Kc]. destruct (proj1 (consumes f) _ _ _ _ He) as [a Ea].
      rewrite (I1 _ _ _ _ (InParen :: ctx) x He); [|left; cbn; rewrite Kc; reflexivity]. cbn [bind fst snd].
      rewrite match_hit by (apply is_kind_true; exact Kc). cbn [bind]. apply (L (x :: a ++ [c])). rewrite Ea. cbn. rewrite <- app_assoc. reflexivity.
    + destruct ts as [|y ts]. { injection Hp as <- <-. cbn [matched lt1 tokens kind eof bind]. apply (L [x]). reflexivity. }
      change (lt1 (matched (y :: ts))) with y. change (next_state (matched (y :: ts))) with (matched ts).
      destruct (kind y) eqn:K2;
        try (injection Hp as <- <-; cbn [bind]; apply (L [x]); reflexivity);
        try (dbind Hp wr Hw; destruct wr as [w r]; cbn [fst snd] in Hp; injection Hp as <- <-;
             rewrite (I3 _ _ _ _ Hw); cbn [bind]; destruct (M _ _ _ Hw) as [a Ea]; apply (L (x :: y :: a)); cbn; congruence).
      * dbind Hp ir Hi. destruct ir as [i r]. cbn [fst snd] in Hp. dbind Hp wr Hw. destruct wr as [w r']. cbn [fst snd] in Hp. injection Hp as <- <-.
        apply expect_ok in Hi. destruct Hi as [-> Ki]. rewrite match_hit by (apply is_kind_true; exact Ki). cbn [last].
        rewrite (I3 _ _ _ _ Hw). cbn [bind]. destruct (M _ _ _ Hw) as [a Ea]. apply (L (x :: y :: i :: a)). cbn; congruence.
      * dbind Hp ir Hi. destruct ir as [i r]. cbn [fst snd] in Hp. apply expect_ok in Hi. destruct Hi as [-> Ki].
        destruct r as [|h r]; [discriminate|]. destruct (is_numeric_type (kind h)) eqn:Nh; [|discriminate]. injection Hp as <- <-.
        rewrite match_hit by (apply is_kind_true; exact Ki). unfold range_upper. rewrite match_hit by exact Nh. cbn [bind fst snd last].
        apply (L [x; y; i; h]). reflexivity.
      * dbind Hp ir Hi. destruct ir as [i r]. cbn [fst snd] in Hp. apply expect_ok in Hi. destruct Hi as [-> Ki].
        destruct r as [|h r]; [discriminate|]. destruct (is_numeric_type (kind h)) eqn:Nh; [|discriminate]. injection Hp as <- <-.
        rewrite match_hit by (apply is_kind_true; exact Ki). unfold range_upper. rewrite match_hit by exact Nh. cbn [bind fst snd last].
        apply (L [x; y; i; h]). reflexivity.
  - intros p l ts t rest ctx prev H G. cbn [ploop] in H. cbn [rloop]. rewrite la1_matched.
    destruct ts as [|x ts]; [injection H as <- <-; reflexivity|]. cbn [head_kind].
    destruct (infix_prec (kind x)) as [q|]; [|injection H as <- <-; reflexivity].
    destruct (p <=? q); [|injection H as <- <-; reflexivity].
    dbind H rr Hr. destruct rr as [r mid]. cbn [fst snd] in H. destruct (proj1 (consumes f) _ _ _ _ Hr) as [a Ea].
    destruct (proj1 (proj2 (consumes f)) _ _ _ _ _ H) as [b Eb].
    change (next_state (matched (x :: ts))) with (matched ts). change (lt1 (matched (x :: ts))) with x.
    rewrite (I1 _ _ _ _ (InOps :: ctx) x Hr); [|eapply good_operand; [exact G|eauto|eapply ploop_head; exact H]]. cbn [bind fst snd].
    apply I2 with (prev := last (x :: a) prev); [exact H|]. apply good_rest; [|eauto]. cbn. rewrite <- Ea. exact G.
  - intros ts items rest ctx H. cbn [pwordlist] in H. dbind H lr Hl. destruct lr as [l r]. cbn [fst snd] in H.
    apply expect_ok in Hl. destruct Hl as [-> Kl]. cbn [rwords]. rewrite match_hit by (apply is_kind_true; exact Kl).
    rewrite (I4 _ _ _ _ _ _ H). reflexivity.
  - intros ts items rest ctx s0 s1 H. cbn [pitems] in H. dbind H er He. destruct er as [e r]. cbn [fst snd] in H.
    destruct r as [|x r]; [discriminate|].
    assert (En : ends_item (kind x) = true) by (destruct (kind x); try discriminate; reflexivity).
    cbn [ritems]. rewrite sync_hit by (apply (item_begins _ _ _ _ _ He); exact En).
    rewrite (I1 _ _ _ _ (InWords :: ctx) x He); [|left; exact En]. cbn [bind fst snd].
    rewrite sync_hit by exact En. rewrite la1_matched. cbn [head_kind].
    destruct (kind x) eqn:K; try discriminate.
    + dbind H ir Hi. destruct ir as [i r']. cbn [fst snd] in H. injection H as <- <-.
      change (is_kind T_COMMA T_COMMA) with true. cbv iota. change (next_state (matched (x :: r))) with (matched r).
      rewrite (I4 _ _ _ _ _ _ Hi). reflexivity.
    + injection H as <- <-. change (is_kind T_COMMA T_RPAREN) with false. cbv iota. rewrite match_hit by (apply is_kind_true; exact K). reflexivity.
Qed.

(** On a sentence the recovering parser gives its tree. *)
Lemma parse_any_sentence ts t : parse_tokens ts = Ok t -> parse_any ts = Ok t.
Proof.
  unfold parse_tokens, parse_any. cbv zeta. intros H. dbind H er He. destruct er as [e r]. cbn [fst snd] in H.
  destruct r as [|x [|y r]]; try discriminate. unfold tkind_eqb in H. destruct (tkind_eq_dec (kind x) T_EOF) as [Ex|]; [|discriminate].
  injection H as <-. rewrite (proj1 (agree _) _ _ _ _ [InParse] eof He); [reflexivity|]. left. cbn. rewrite Ex. reflexivity.
Qed.
Lemma parse_any_complete t : reads 0 t eof -> parse_any (yield t) = Ok t.
Proof. intros R. apply parse_any_sentence, parse_tokens_complete, R. Qed.
