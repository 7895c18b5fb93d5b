(** The tokens in the operator and function positions of any parse tree, also after recovery from errors, are operators and
    functions. *)
From Verif Require Import Base Lexer Grammar Recover ParseFacts SpecGrammar.

Fixpoint kinds (t : ptree) : Prop :=
  let all := fix all (l : list ptree) : Prop := match l with [] => True | i :: l' => kinds i /\ all l' end in
  match t with
  | PParen t | PNot _ t | PNeg t => kinds t
  | PFunc fn items | PFuncErr fn items => is_function (kind fn) = true /\ all items
  | PTypes _ | PEps _ | PBad _ | PTo _ _ _ _ | PToErr _ _ | PToOdd _ _ _ _ | PInErr _ _ | PArrayErr _ _ => True
  | PIn _ _ _ items => all items
  | PArray _ op items => (kind op = T_CONTAINS_ALL \/ kind op = T_CONTAINS_ANY) /\ all items
  | PCmp l op r => kinds l /\ comparator (kind op) /\ kinds r
  | PArith l op r => kinds l /\ arithmetic_op (kind op) /\ kinds r
  | PBin l _ r => kinds l /\ kinds r
  end.
Definition all_kinds (l : list ptree) : Prop := Forall kinds l.
Lemma all_kinds_eq items :
  (fix all (l : list ptree) : Prop := match l with [] => True | i :: l' => kinds i /\ all l' end) items <-> all_kinds items.
Proof.
  induction items as [|i l IH]; cbn; [split; constructor|]. rewrite IH. split.
  - intros [A B]. constructor; assumption.
  - intros A. inversion A; auto.
Qed.

Definition only {X} (Q : X -> Prop) (r : res (X * pstate)) : Prop := forall x st, r = Ok (x, st) -> Q x.
Lemma only_ok X (Q : X -> Prop) x st : Q x -> only Q (Ok (x, st)).
Proof. intros H y st' E. injection E as <- <-. exact H. Qed.
Lemma only_bind X Y (Q : X -> Prop) (R : Y -> Prop) a k : only Q a -> (forall x st, Q x -> only R (k (x, st))) -> only R (bind a k).
Proof. intros A K. destruct a as [[x st]|e]; cbn; [|intros y st' E; discriminate E]. apply K, (A x st eq_refl). Qed.
Lemma mk_infix_kinds l op r q : kinds l -> kinds r -> infix_prec (kind op) = Some q -> kinds (mk_infix l op r).
Proof.
  intros A B H. unfold mk_infix. destruct (kind op) eqn:K; cbn in H; try discriminate H; cbn [kinds]; rewrite ?K; unfold comparator, arithmetic_op; cbn [In]; tauto.
Qed.
Lemma upper_kinds ctx f lo x st : kinds (fst (range_upper ctx f lo x st)).
Proof. unfold range_upper. destruct (match_set _ _ st) as [[|y [|z l]] st'|st'|]; exact I. Qed.

Lemma parse_kinds f :
  (forall ctx p st, only kinds (rexpr f ctx p st)) /\
  (forall ctx p l st, kinds l -> only kinds (rloop f ctx p l st)) /\
  (forall ctx st, only (fun x => all_kinds (fst (fst x))) (rwords f ctx st)) /\
  (forall ctx s0 s1 st, only (fun x => all_kinds (fst x)) (ritems f ctx s0 s1 st)).
Proof.
  induction f as [|f [I1 [I2 [I3 I4]]]].
  { repeat split; intros; discriminate. }
  split; [|split; [|split]].
  - intros ctx p st. cbn [rexpr]. cbv zeta.
    match goal with |- only _ (bind ?a _) => assert (Q : forall l st' c, a = Ok (l, st', c) -> kinds l) end.
    { intros l st' c.
      assert (Out : forall (a : ptree) (b : pstate) (d : bool), kinds a -> Ok (a, b, d) = Ok (l, st', c) -> kinds l).
      { intros a b d H E. assert (a = l) as <- by congruence. exact H. }
      assert (W : forall st1 (mk : list ptree -> bool -> bool -> ptree),
        (forall items a b, all_kinds items -> kinds (mk items a b)) ->
        (wr <- rwords f (InOps :: ctx) st1 ;; let '(items, a, b, st2) := wr in Ok (mk items a b, st2, true)) = Ok (l, st', c) -> kinds l).
      { intros st1 mk M E. apply bind_ok in E. destruct E as [[[[items a] b] st2] [E1 E]]. refine (Out _ _ _ _ E). apply M, (I3 _ _ _ _ E1). }
      assert (Rg : forall tt st1, Ok (fst (range_upper ctx (lt1 st) (lt1 (next_state st)) tt st1), snd (range_upper ctx (lt1 st) (lt1 (next_state st)) tt st1), true) = Ok (l, st', c) -> kinds l).
      { intros tt st1 E. refine (Out _ _ _ _ E). apply upper_kinds. }
      destruct (kind (lt1 st)) eqn:K; cbn [is_function is_type];
        try (apply Out; exact I);
        try (apply (W _ (fun items a b => if a then PFuncErr (lt1 st) items else PFunc (lt1 st) items));
             intros items a b A; destruct a; cbn [kinds]; rewrite all_kinds_eq, K; auto).
      + intro E. apply bind_ok in E. destruct E as [[e st1] [E1 E]]. refine (Out _ _ _ _ E). exact (I1 _ _ _ _ _ E1).
      + destruct (operand_ok ctx (tl (tokens st))); [|apply Out; exact I].
        intro E. apply bind_ok in E. destruct E as [[e st1] [E1 E]]. refine (Out _ _ _ _ E). exact (I1 _ _ _ _ _ E1).
      + intro E. apply bind_ok in E. destruct E as [[e st1] [E1 E]]. cbn [fst snd] in E. pose proof (I1 _ _ _ _ _ E1) as A.
        destruct (match_set _ _ st1); exact (Out (PParen e) _ _ A E).
      + destruct (kind (lt1 (next_state st))) eqn:K2;
          try (apply Out; exact I);
          try (apply (W _ (fun items a b => if b then PInErr (lt1 st) None else PIn (lt1 st) None (lt1 (next_state st)) items));
               intros items a b A; destruct b; cbn [kinds]; rewrite ?all_kinds_eq; auto; fail);
          try (apply (W _ (fun items a b => if b then PArrayErr (lt1 st) (lt1 (next_state st)) else PArray (lt1 st) (lt1 (next_state st)) items));
               intros items a b A; destruct b; cbn [kinds]; rewrite ?all_kinds_eq, ?K2; auto; fail).
        * destruct (match_set _ _ _) as [us st3|st3|].
          -- apply (W _ (fun items a b => if b then PInErr (lt1 st) (Some (lt1 (next_state st))) else PIn (lt1 st) (Some (lt1 (next_state st))) (last us eof) items)).
             intros items a b A; destruct b; cbn [kinds]; rewrite ?all_kinds_eq; auto.
          -- apply (W _ (fun items a b => if b then PInErr (lt1 st) (Some (lt1 (next_state st))) else PIn (lt1 st) (Some (lt1 (next_state st))) missing_in items)).
             intros items a b A; destruct b; cbn [kinds]; rewrite ?all_kinds_eq; auto.
          -- apply Out. exact I.
        * destruct (match_set _ _ _) as [us st3|st3|]; [apply Rg|apply Rg|apply Out; exact I].
        * destruct (match_set _ _ _) as [us st3|st3|]; [apply Rg|apply Rg|apply Out; exact I]. }
    intros x st' E. apply bind_ok in E. destruct E as [[[l st1] c] [E1 E]]. pose proof (Q _ _ _ E1) as A.
    destruct c; [exact (I2 _ _ _ _ A _ _ E)|]. injection E as <- <-. exact A.
  - intros ctx p l st Hl. cbn [rloop]. destruct (infix_prec (la1 st)) as [q|] eqn:Pq; [|apply only_ok; assumption].
    destruct (p <=? q); [|apply only_ok; assumption].
    apply only_bind with (Q := kinds); [apply I1|]. intros r st1 Hr. cbn [fst snd]. apply I2. apply (mk_infix_kinds _ _ _ q Hl Hr). exact Pq.
  - intros ctx st. cbn [rwords]. destruct (match_set _ _ st) as [us st1|st1|].
    + intros x st' E. apply bind_ok in E. destruct E as [[[items fl] st2] [E1 E]]. injection E as <- <-. exact (I4 _ _ _ _ _ _ E1).
    + intros x st' E. apply bind_ok in E. destruct E as [[[items fl] st2] [E1 E]]. injection E as <- <-. exact (I4 _ _ _ _ _ _ E1).
    + cbv zeta. apply only_ok. constructor.
  - intros ctx s0 s1 st. cbn [ritems]. destruct (sync begins_item st) as [st1|]; [|apply only_ok; constructor].
    apply only_bind with (Q := kinds); [apply I1|]. intros e st2 He. cbn [fst snd].
    destruct (sync ends_item st2) as [st3|]; [|apply only_ok; repeat constructor; exact He].
    destruct (is_kind T_COMMA (la1 st3)).
    + intros x st' E. apply bind_ok in E. destruct E as [[[items fl] st4] [E1 E]]. injection E as <- <-. constructor; [exact He|]. exact (I4 _ _ _ _ _ _ E1).
    + destruct (match_set _ _ st3) as [us st4|st4|]; apply only_ok; repeat constructor; exact He.
Qed.

Lemma parse_any_kinds ts t : parse_any ts = Ok t -> kinds t.
Proof.
  intros E. unfold parse_any in E. apply bind_ok in E. destruct E as [[t' st] [E1 E]]. injection E as <-. exact (proj1 (parse_kinds _) _ _ _ _ _ E1).
Qed.
