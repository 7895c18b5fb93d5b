(** Every token in a parse tree is a token of the text (or the end of the text), also after recovery from errors. *)
From Coq Require Import Lia.
From Verif Require Import Base Lexer Grammar Recover ParseFacts.
From Verif Require Import RecoverFacts.

Section From.
Context (P : token -> Prop).
Definition field (x : token) : Prop := P x /\ kind x = T_FIELD.
Fixpoint from (t : ptree) : Prop :=
  let all := fix all (l : list ptree) : Prop := match l with [] => True | i :: l' => from i /\ all l' end in
  match t with
  | PParen t => from t
  | PNot nt t => P nt /\ from t
  | PNeg t => from t
  | PFunc fn items | PFuncErr fn items => P fn /\ all items
  | PTypes x => P x
  | PEps x | PBad x => P x
  | PTo f lo _ hi => field f /\ P lo /\ P hi
  | PIn f _ _ items => field f /\ all items
  | PArray f op items => field f /\ P op /\ all items
  | PCmp l op r | PArith l op r | PBin l op r => from l /\ P op /\ from r
  | PToErr f lo => field f /\ P lo
  | PToOdd f lo hi txt => field f /\ P lo /\ P hi /\ exists xs, Forall P xs /\ txt = concat (map text xs)
  | PInErr f _ => field f
  | PArrayErr f op => field f /\ P op
  end.
Definition all_from (l : list ptree) : Prop := Forall from l.
Lemma all_from_eq items :
  (fix all (l : list ptree) : Prop := match l with [] => True | i :: l' => from i /\ all l' end) items <-> all_from items.
Proof.
  induction items as [|i l IH]; cbn; [split; constructor|]. rewrite IH. split.
  - intros [A B]. constructor; assumption.
  - intros A. inversion A; auto.
Qed.

Context (Pe : P eof).
Definition source (st : pstate) : Prop := Forall P (tokens st).
Definition gives {X} (Q : X -> Prop) (r : res (X * pstate)) : Prop := forall x st, r = Ok (x, st) -> Q x /\ source st.
Lemma gives_ok X (Q : X -> Prop) x st : Q x -> source st -> gives Q (Ok (x, st)).
Proof. intros H S y st' E. injection E as <- <-. auto. Qed.
Lemma gives_err X (Q : X -> Prop) e : gives Q (Err e : res (X * pstate)).
Proof. intros y st' E. discriminate E. Qed.
Lemma gives_bind X Y (Q : X -> Prop) (R : Y -> Prop) a k : gives Q a -> (forall x st, Q x -> source st -> gives R (k (x, st))) -> gives R (bind a k).
Proof. intros A K. destruct a as [[x st]|e]; cbn; [|apply gives_err]. destruct (A x st eq_refl). apply K; assumption. Qed.

Lemma lt1_from st : source st -> P (lt1 st).
Proof. unfold source, lt1. destruct (tokens st); [auto|]. intro H. inversion H; assumption. Qed.
Lemma forall_tl l : Forall P l -> Forall P (tl l).
Proof. intro H. destruct H; cbn; [constructor|assumption]. Qed.
Lemma next_from st : source st -> source (next_state st).
Proof. unfold source. cbn. apply forall_tl. Qed.
Lemma advance_from l : Forall P l -> Forall P (advance l).
Proof. intro H. destruct H; cbn; [constructor|]. destruct (tkind_eqb _ _); [constructor; assumption|assumption]. Qed.
Lemma skip_from stop l : Forall P l -> Forall P (fst (skip_until stop l)) /\ Forall P (snd (skip_until stop l)).
Proof.
  induction 1 as [|x l Hx H [I1 I2]]; cbn; [split; constructor|]. destruct (_ || _); cbn; [split; [constructor|constructor; assumption]|].
  split; [constructor|]; assumption.
Qed.
Lemma recover_from s ctx st : source st -> Forall P (fst (recover s ctx st)) /\ source (snd (recover s ctx st)).
Proof.
  intros H. unfold recover, source. cbv zeta. cbn [fst snd tokens].
  destruct (match error_at st with Some n => _ | None => false end).
  - destruct (skip_from (recovery_has ctx) (advance (tokens st)) (advance_from _ H)) as [A B]. split; [|exact B].
    cbn [app]. constructor; [apply lt1_from; exact H|exact A].
  - apply skip_from. exact H.
Qed.
Lemma match_from fits next st : source st ->
  match match_set fits next st with Matched us st' => Forall P us /\ source st' | Inserted st' => source st' | Mismatch => True end.
Proof.
  intros H. unfold match_set. destruct (fits (la1 st)); [split; [constructor; [apply lt1_from; exact H|constructor]|apply next_from; exact H]|].
  destruct (fits (la2 st)).
  - split; [|unfold source; cbn [tokens matched]; apply forall_tl, forall_tl; exact H].
    unfold source in H. destruct H as [|a l Ha [|b l' Hb H']]; cbn; repeat constructor; assumption.
  - destruct (next (la1 st)); [exact H|exact I].
Qed.
Lemma sync_from fits st st' : sync fits st = Some st' -> source st -> source st'.
Proof.
  unfold sync. destruct (_ || _); [intros E; injection E as <-; auto|]. destruct (fits _); [|discriminate].
  intros E H. injection E as <-. apply advance_from. exact H.
Qed.
Lemma upper_from ctx f lo tt st : source st -> field f -> P lo ->
  from (fst (range_upper ctx f lo tt st)) /\ source (snd (range_upper ctx f lo tt st)).
Proof.
  intros H Hf Hl. unfold range_upper. pose proof (match_from is_numeric_type (context_has (InOps :: ctx)) st H) as M.
  pose proof (lt1_from st H) as Hx.
  destruct (match_set _ _ st) as [[|x [|y l]] st'|st'|]; cbn [fst snd from].
  - destruct M. repeat (split; auto). exists []. auto.
  - destruct M as [M1 M2]. inversion M1; subst. repeat (split; auto).
  - destruct M as [M1 M2]. repeat (split; auto). exists (x :: y :: l). auto.
  - repeat (split; auto). exists []. auto.
  - destruct (recover_from 129 (InOps :: ctx) st H) as [A B]. repeat (split; auto). eexists; split; [exact A|reflexivity].
Qed.
Lemma last_from us : Forall P us -> P (last us eof).
Proof. induction 1 as [|x l Hx H IH]; [exact Pe|]. destruct l; [exact Hx|exact IH]. Qed.

Lemma out (a : ptree) (b : pstate) (c : bool) l st' c' : Ok (a, b, c) = Ok (l, st', c') -> from a -> source b -> from l /\ source st'.
Proof. intros E. assert (a = l /\ b = st') as [-> ->] by (split; congruence). auto. Qed.
Lemma parse_from f :
  (forall ctx p st, source st -> gives from (rexpr f ctx p st)) /\
  (forall ctx p l st, from l -> source st -> gives from (rloop f ctx p l st)) /\
  (forall ctx st, source st -> gives (fun x => all_from (fst (fst x))) (rwords f ctx st)) /\
  (forall ctx s0 s1 st, source st -> gives (fun x => all_from (fst x)) (ritems f ctx s0 s1 st)).
Proof.
  induction f as [|f [I1 [I2 [I3 I4]]]].
  { repeat split; intros; discriminate. }
  split; [|split; [|split]].
  - intros ctx p st H. cbn [rexpr]. cbv zeta.
    match goal with |- gives _ (bind ?a _) => assert (Q : forall l st' c, a = Ok (l, st', c) -> from l /\ source st') end.
    { pose proof (lt1_from st H) as Ht. pose proof (next_from st H) as Hn.
      pose proof (lt1_from _ Hn) as Ht2. pose proof (next_from _ Hn) as Hn2.
      intros l st' c.
      assert (W : forall st1 (mk : list ptree -> bool -> bool -> ptree),
        source st1 -> (forall items a b, all_from items -> from (mk items a b)) ->
        (wr <- rwords f (InOps :: ctx) st1 ;; let '(items, a, b, st2) := wr in Ok (mk items a b, st2, true)) = Ok (l, st', c) -> from l /\ source st').
      { intros st1 mk S1 M E. apply bind_ok in E. destruct E as [[[[items a] b] st2] [E1 E]]. injection E as <- <- _.
        destruct (I3 _ _ S1 _ _ E1) as [A B]. split; [apply M; exact A|exact B]. }
      assert (Rg : forall tt st1, source st1 -> kind (lt1 st) = T_FIELD -> Ok (fst (range_upper ctx (lt1 st) (lt1 (next_state st)) tt st1), snd (range_upper ctx (lt1 st) (lt1 (next_state st)) tt st1), true) = Ok (l, st', c) -> from l /\ source st').
      { intros tt st1 S1 K E. refine (out _ _ _ _ _ _ E _ _); apply upper_from; try assumption; split; assumption. }
      destruct (kind (lt1 st)) eqn:K; cbn [is_function is_type];
        try (intro E; injection E as <- <- _; split; assumption);
        try (apply (W _ (fun items a b => if a then PFuncErr (lt1 st) items else PFunc (lt1 st) items) Hn);
             intros items a b A; destruct a; cbn [from]; rewrite all_from_eq; auto).
      + intro E. apply bind_ok in E. destruct E as [[e st1] [E1 E]]. injection E as <- <- _. destruct (I1 _ _ _ Hn _ _ E1). cbn [from fst snd]. auto.
      + destruct (operand_ok ctx (tl (tokens st))).
        * intro E. apply bind_ok in E. destruct E as [[e st1] [E1 E]]. injection E as <- <- _. destruct (I1 _ _ _ Hn _ _ E1). cbn [from fst snd]. auto.
        * intro E. refine (out _ _ _ _ _ _ E _ _); [exact Ht|apply recover_from; exact H].
      + intro E. apply bind_ok in E. destruct E as [[e st1] [E1 E]]. destruct (I1 _ _ _ Hn _ _ E1) as [A B]. cbn [fst snd] in E.
        pose proof (match_from (is_kind T_RPAREN) (context_has (InOps :: ctx)) st1 B) as M.
        destruct (match_set _ _ st1); (refine (out _ _ _ _ _ _ E _ _); [exact A|]); [apply M|exact M|apply recover_from; exact B].
      + assert (Fd : field (lt1 st)) by (split; assumption). destruct (kind (lt1 (next_state st))) eqn:K2;
          try (intro E; injection E as <- <- _; split; assumption);
          try (apply (W _ (fun items a b => if b then PInErr (lt1 st) None else PIn (lt1 st) None (lt1 (next_state st)) items) Hn2);
               intros items a b A; destruct b; cbn [from]; rewrite ?all_from_eq; auto; fail);
          try (apply (W _ (fun items a b => if b then PArrayErr (lt1 st) (lt1 (next_state st)) else PArray (lt1 st) (lt1 (next_state st)) items) Hn2);
               intros items a b A; destruct b; cbn [from]; rewrite ?all_from_eq; auto; fail).
        * pose proof (match_from (is_kind T_IN) (is_kind T_LPAREN) _ Hn2) as M.
          destruct (match_set _ _ _) as [us st3|st3|].
          -- apply (W _ (fun items a b => if b then PInErr (lt1 st) (Some (lt1 (next_state st))) else PIn (lt1 st) (Some (lt1 (next_state st))) (last us eof) items) (proj2 M)).
             intros items a b A; destruct b; cbn [from]; rewrite ?all_from_eq; auto.
          -- apply (W _ (fun items a b => if b then PInErr (lt1 st) (Some (lt1 (next_state st))) else PIn (lt1 st) (Some (lt1 (next_state st))) missing_in items) M).
             intros items a b A; destruct b; cbn [from]; rewrite ?all_from_eq; auto.
          -- intro E. refine (out _ _ _ _ _ _ E _ _); [exact Fd|apply recover_from; exact Hn2].
        * pose proof (match_from (is_kind T_TO) is_numeric_type _ Hn2) as M.
          destruct (match_set _ _ _) as [us st3|st3|]; [apply Rg; [apply M|reflexivity]|apply Rg; [apply M|reflexivity]|].
          intro E. refine (out _ _ _ _ _ _ E _ _); [split; assumption|apply recover_from; exact Hn2].
        * pose proof (match_from (is_kind T_TO) is_numeric_type _ Hn2) as M.
          destruct (match_set _ _ _) as [us st3|st3|]; [apply Rg; [apply M|reflexivity]|apply Rg; [apply M|reflexivity]|].
          intro E. refine (out _ _ _ _ _ _ E _ _); [split; assumption|apply recover_from; exact Hn2]. }
    intros x st' E. apply bind_ok in E. destruct E as [[[l st1] c] [E1 E]]. destruct (Q _ _ _ E1) as [A B].
    destruct c; [exact (I2 _ _ _ _ A B _ _ E)|]. injection E as <- <-. auto.
  - intros ctx p l st Hl H. cbn [rloop]. destruct (infix_prec (la1 st)) as [q|]; [|apply gives_ok; assumption].
    destruct (p <=? q); [|apply gives_ok; assumption].
    apply gives_bind with (Q := from); [apply I1, next_from; exact H|]. intros r st1 Hr S1. cbn [fst snd]. apply I2; [|exact S1].
    pose proof (lt1_from st H). unfold mk_infix. destruct (kind (lt1 st)); cbn [from]; auto.
  - intros ctx st H. cbn [rwords]. pose proof (match_from (is_kind T_LPAREN) begins_item st H) as M.
    destruct (match_set _ _ st) as [us st1|st1|].
    + intros x st' E. apply bind_ok in E. destruct E as [[[items fl] st2] [E1 E]]. injection E as <- <-. exact (I4 _ _ _ _ (proj2 M) _ _ E1).
    + intros x st' E. apply bind_ok in E. destruct E as [[[items fl] st2] [E1 E]]. injection E as <- <-. exact (I4 _ _ _ _ M _ _ E1).
    + cbv zeta. apply gives_ok; [constructor|]. apply recover_from; exact H.
  - intros ctx s0 s1 st H. cbn [ritems]. destruct (sync begins_item st) as [st1|] eqn:Sy.
    2:{ apply gives_ok; [constructor|]. apply recover_from; exact H. }
    apply sync_from in Sy; [|exact H].
    apply gives_bind with (Q := from); [apply I1; exact Sy|]. intros e st2 He S2. cbn [fst snd].
    destruct (sync ends_item st2) as [st3|] eqn:Sy2.
    2:{ apply gives_ok; [repeat constructor; exact He|]. apply recover_from; exact S2. }
    apply sync_from in Sy2; [|exact S2].
    destruct (is_kind T_COMMA (la1 st3)).
    + intros x st' E. apply bind_ok in E. destruct E as [[[items fl] st4] [E1 E]]. injection E as <- <-.
      destruct (I4 _ _ _ _ (next_from _ Sy2) _ _ E1) as [A B]. split; [constructor; assumption|exact B].
    + pose proof (match_from (is_kind T_RPAREN) (context_has ctx) st3 Sy2) as M.
      destruct (match_set _ _ st3) as [us st4|st4|]; apply gives_ok; try (repeat constructor; exact He); [apply M|exact M|apply recover_from; exact Sy2].
Qed.

Lemma parse_any_from ts t : Forall P ts -> parse_any ts = Ok t -> from t.
Proof.
  intros H E. unfold parse_any in E. apply bind_ok in E. destruct E as [[t' st] [E1 E]]. injection E as <-.
  apply (proj1 (parse_from _) _ _ _) in E1; [apply E1|]. unfold source. cbn [tokens matched]. apply Forall_app. split; [exact H|]. constructor; [exact Pe|constructor].
Qed.
End From.
