(** The size of parse trees and of expression trees, for any text. *)
From Coq Require Import Lia.
From Verif Require Import Base JNum Values Ops Funcs Ast Lexer Grammar Recover ParseFacts RecoverFacts.
From Verif Require Import Listener ListenFacts ListenAny SpecSize.

Fixpoint psize (t : ptree) : nat :=
  let all := fix all (l : list ptree) : nat := match l with [] => 0 | i :: l' => psize i + all l' end in
  match t with
  | PParen t | PNot _ t | PNeg t => S (psize t)
  | PFunc _ items | PFuncErr _ items | PArray _ _ items => S (all items)
  | PTypes _ | PEps _ | PBad _ | PTo _ _ _ _ | PToErr _ _ | PToOdd _ _ _ _ | PInErr _ _ | PArrayErr _ _ => 1
  | PIn _ neg _ items => S (match neg with Some _ => 1 | None => 0 end + all items)
  | PCmp l _ r | PArith l _ r | PBin l _ r => S (psize l + psize r)
  end.
Definition psizes (l : list ptree) : nat := fold_right (fun i n => psize i + n) 0 l.
Lemma psizes_eq l : (fix all (l : list ptree) : nat := match l with [] => 0 | i :: l' => psize i + all l' end) l = psizes l.
Proof. induction l as [|i l IH]; [reflexivity|]. cbn [psizes fold_right]. fold (psizes l). rewrite <- IH. reflexivity. Qed.
Lemma psize_pos t : 1 <= psize t.
Proof. destruct t; cbn; lia. Qed.

(** The tokens that are left, the end of the text aside. *)
Definition left_of (ts : list token) : nat := length (filter (fun t => negb (tkind_eqb (kind t) T_EOF)) ts).
Definition left (st : pstate) : nat := left_of (tokens st).
Lemma left_tl ts : left_of (tl ts) <= left_of ts.
Proof. unfold left_of. destruct ts as [|t ts]; cbn; [lia|]. destruct (tkind_eqb _ _); cbn; lia. Qed.
Lemma left_step st : la1 st <> T_EOF -> S (left (next_state st)) = left st.
Proof.
  unfold left, left_of, la1, lt1. cbn [next_state matched tokens]. destruct (tokens st) as [|t ts]; cbn; [congruence|]. intro H.
  destruct (tkind_eqb (kind t) T_EOF) eqn:E; [|reflexivity]. destruct (kind t); try discriminate E. congruence.
Qed.
Lemma left_next st : left (next_state st) <= left st.
Proof. apply left_tl. Qed.
Lemma left_advance ts : left_of (advance ts) <= left_of ts.
Proof. destruct ts as [|t ts]; [cbn; lia|]. cbn [advance]. destruct (tkind_eqb _ _) eqn:E; [apply le_n|]. apply (left_tl (t :: ts)). Qed.
Lemma left_skip stop ts : left_of (snd (skip_until stop ts)) <= left_of ts.
Proof.
  induction ts as [|t ts IH]; [cbn; lia|]. cbn [skip_until]. destruct (_ || _); cbn [snd]; [lia|].
  eapply Nat.le_trans; [exact IH|]. apply (left_tl (t :: ts)).
Qed.
Lemma left_recover s ctx st : left (snd (recover s ctx st)) <= left st.
Proof.
  unfold recover, left. cbv zeta. cbn [fst snd tokens]. destruct (match error_at st with Some n => _ | None => false end).
  - eapply Nat.le_trans; [apply left_skip|]. apply left_advance.
  - apply left_skip.
Qed.
Lemma left_match fits next st : match match_set fits next st with Matched _ st' | Inserted st' => left st' <= left st | Mismatch => True end.
Proof.
  unfold match_set. destruct (fits (la1 st)); [apply left_next|]. destruct (fits (la2 st)).
  - unfold left. cbn [tokens matched]. eapply Nat.le_trans; apply left_tl.
  - destruct (next (la1 st)); [apply le_n|exact I].
Qed.
Lemma left_sync fits st st' : sync fits st = Some st' -> left st' <= left st.
Proof.
  unfold sync. destruct (_ || _); [intros [= <-]; lia|]. destruct (fits _); [|discriminate]. intros [= <-]. apply left_advance.
Qed.
Lemma left_upper ctx f lo x st : psize (fst (range_upper ctx f lo x st)) = 1 /\ left (snd (range_upper ctx f lo x st)) <= left st.
Proof.
  unfold range_upper. pose proof (left_match is_numeric_type (context_has (InOps :: ctx)) st) as M.
  destruct (match_set _ _ st) as [[|y [|z l]] st'|st'|]; cbn [fst snd psize]; split; try reflexivity; try exact M. apply left_recover.
Qed.
Lemma infix_size l op r : psize (mk_infix l op r) = S (psize l + psize r).
Proof. unfold mk_infix. destruct (kind op); reflexivity. Qed.
Lemma infix_not_eof st q : infix_prec (la1 st) = Some q -> la1 st <> T_EOF.
Proof. intros H E. rewrite E in H. discriminate H. Qed.

(** What is parsed is paid for by the tokens that are used up. *)
Definition paid {X} (size : X -> nat) (extra : nat) (st : pstate) (r : res (X * pstate)) : Prop :=
  forall x st', r = Ok (x, st') -> size x + 2 * left st' <= 2 * left st + extra.
Lemma parse_size f :
  (forall ctx p st, paid psize 1 st (rexpr f ctx p st)) /\
  (forall ctx p l st, paid psize (psize l) st (rloop f ctx p l st)) /\
  (forall ctx st, paid (fun x => psizes (fst (fst x))) 1 st (rwords f ctx st)) /\
  (forall ctx s0 s1 st, paid (fun x => psizes (fst x)) 1 st (ritems f ctx s0 s1 st)).
Proof.
  induction f as [|f [I1 [I2 [I3 I4]]]].
  { repeat split; intros; intros x st' E; discriminate E. }
  split; [|split; [|split]].
  - intros ctx p st. cbn [rexpr]. cbv zeta.
    match goal with |- paid _ _ _ (bind ?a _) => assert (Q : forall l st' c, a = Ok (l, st', c) -> psize l + 2 * left st' <= 2 * left st + 1) end.
    { intros l st' c.
      assert (Out : forall (a : ptree) (b : pstate) (d : bool), psize a + 2 * left b <= 2 * left st + 1 -> Ok (a, b, d) = Ok (l, st', c) -> psize l + 2 * left st' <= 2 * left st + 1).
      { intros a b d H E. assert (a = l /\ b = st') as [<- <-] by (split; congruence). exact H. }
      assert (W : forall st1 (mk : list ptree -> bool -> bool -> ptree) n,
        (forall items a b, psize (mk items a b) <= n + psizes items) -> n + 2 * left st1 <= 2 * left st ->
        (wr <- rwords f (InOps :: ctx) st1 ;; let '(items, a, b, st2) := wr in Ok (mk items a b, st2, true)) = Ok (l, st', c) -> psize l + 2 * left st' <= 2 * left st + 1).
      { intros st1 mk n M H E. apply bind_ok in E. destruct E as [[[[items a] b] st2] [E1 E]]. refine (Out _ _ _ _ E).
        pose proof (I3 _ _ _ _ E1) as P. cbn [fst] in P. specialize (M items a b). lia. }
      assert (Rg : forall tt st1, left st1 <= left st -> Ok (fst (range_upper ctx (lt1 st) (lt1 (next_state st)) tt st1), snd (range_upper ctx (lt1 st) (lt1 (next_state st)) tt st1), true) = Ok (l, st', c) -> psize l + 2 * left st' <= 2 * left st + 1).
      { intros tt st1 H E. refine (Out _ _ _ _ E). destruct (left_upper ctx (lt1 st) (lt1 (next_state st)) tt st1). lia. }
      pose proof (left_next st) as N1. pose proof (left_next (next_state st)) as N2.
      assert (Step : kind (lt1 st) <> T_EOF -> S (left (next_state st)) = left st) by apply left_step.
      destruct (kind (lt1 st)) eqn:K; cbn [is_function is_type];
        try (apply Out; cbn [psize]; lia);
        try (specialize (Step ltac:(discriminate)));
        try (apply (W _ (fun items a b => if a then PFuncErr (lt1 st) items else PFunc (lt1 st) items) 1);
             [intros items a b; destruct a; cbn [psize]; rewrite psizes_eq; lia|lia]).
      + intro E. apply bind_ok in E. destruct E as [[e st1] [E1 E]]. refine (Out _ _ _ _ E). cbn [psize fst snd]. pose proof (I1 _ _ _ _ _ E1). lia.
      + destruct (operand_ok ctx (tl (tokens st))).
        * intro E. apply bind_ok in E. destruct E as [[e st1] [E1 E]]. refine (Out _ _ _ _ E). cbn [psize fst snd]. pose proof (I1 _ _ _ _ _ E1). lia.
        * apply Out. pose proof (left_recover 53 ctx st). cbn [psize]. lia.
      + intro E. apply bind_ok in E. destruct E as [[e st1] [E1 E]]. pose proof (I1 _ _ _ _ _ E1) as A. cbn [fst snd] in E.
        pose proof (left_match (is_kind T_RPAREN) (context_has (InOps :: ctx)) st1) as M. pose proof (left_recover 28 ctx st1).
        destruct (match_set _ _ st1); (refine (Out _ _ _ _ E); cbn [psize]; lia).
      + assert (Step2 : kind (lt1 (next_state st)) <> T_EOF -> S (left (next_state (next_state st))) = left (next_state st)) by apply left_step.
        destruct (kind (lt1 (next_state st))) eqn:K2;
          try (specialize (Step2 ltac:(discriminate)));
          try (apply Out; cbn [psize]; lia);
          try (apply (W _ (fun items a b => if b then PInErr (lt1 st) None else PIn (lt1 st) None (lt1 (next_state st)) items) 1);
               [intros items a b; destruct b; cbn [psize]; rewrite ?psizes_eq; lia|lia]; fail);
          try (apply (W _ (fun items a b => if b then PArrayErr (lt1 st) (lt1 (next_state st)) else PArray (lt1 st) (lt1 (next_state st)) items) 1);
               [intros items a b; destruct b; cbn [psize]; rewrite ?psizes_eq; lia|lia]; fail).
        * pose proof (left_match (is_kind T_IN) (is_kind T_LPAREN) (next_state (next_state st))) as M.
          destruct (match_set _ _ _) as [us st3|st3|].
          -- apply (W _ (fun items a b => if b then PInErr (lt1 st) (Some (lt1 (next_state st))) else PIn (lt1 st) (Some (lt1 (next_state st))) (last us eof) items) 2); [|lia].
             intros items a b; destruct b; cbn [psize]; rewrite ?psizes_eq; lia.
          -- apply (W _ (fun items a b => if b then PInErr (lt1 st) (Some (lt1 (next_state st))) else PIn (lt1 st) (Some (lt1 (next_state st))) missing_in items) 2); [|lia].
             intros items a b; destruct b; cbn [psize]; rewrite ?psizes_eq; lia.
          -- apply Out. pose proof (left_recover 47 ctx (next_state (next_state st))). cbn [psize]. lia.
        * pose proof (left_match (is_kind T_TO) is_numeric_type (next_state (next_state st))) as M.
          destruct (match_set _ _ _) as [us st3|st3|]; [apply Rg; lia|apply Rg; lia|].
          apply Out. pose proof (left_recover 40 ctx (next_state (next_state st))). cbn [psize]. lia.
        * pose proof (left_match (is_kind T_TO) is_numeric_type (next_state (next_state st))) as M.
          destruct (match_set _ _ _) as [us st3|st3|]; [apply Rg; lia|apply Rg; lia|].
          apply Out. pose proof (left_recover 40 ctx (next_state (next_state st))). cbn [psize]. lia. }
    intros x st' E. apply bind_ok in E. destruct E as [[[l st1] c] [E1 E]]. pose proof (Q _ _ _ E1) as A.
    destruct c; [pose proof (I2 _ _ _ _ _ _ E); lia|]. injection E as <- <-. exact A.
  - intros ctx p l st. cbn [rloop]. destruct (infix_prec (la1 st)) as [q|] eqn:Ip; [|intros x st' [= <- <-]; lia].
    destruct (p <=? q); [|intros x st' [= <- <-]; lia].
    intros x st' E. apply bind_ok in E. destruct E as [[r st1] [E1 E]]. cbn [fst snd] in E.
    pose proof (I1 _ _ _ _ _ E1). pose proof (I2 _ _ _ _ _ _ E) as B. rewrite infix_size in B.
    pose proof (left_step st (infix_not_eof _ _ Ip)). lia.
  - intros ctx st. cbn [rwords]. pose proof (left_match (is_kind T_LPAREN) begins_item st) as M.
    destruct (match_set _ _ st) as [us st1|st1|].
    + intros x st' E. apply bind_ok in E. destruct E as [[[items fl] st2] [E1 E]]. injection E as <- <-. pose proof (I4 _ _ _ _ _ _ E1). cbn [fst] in *. lia.
    + intros x st' E. apply bind_ok in E. destruct E as [[[items fl] st2] [E1 E]]. injection E as <- <-. pose proof (I4 _ _ _ _ _ _ E1). cbn [fst] in *. lia.
    + cbv zeta. intros [[i a] b] st' E. assert (st' = snd (recover 92 ctx st) /\ i = []) as [-> ->] by (split; congruence).
      pose proof (left_recover 92 ctx st). cbn [fst psizes fold_right]. lia.
  - intros ctx s0 s1 st. cbn [ritems]. destruct (sync begins_item st) as [st1|] eqn:Sy.
    2:{ intros [i a] st' E. assert (st' = snd (recover s0 ctx st) /\ i = []) as [-> ->] by (split; congruence). pose proof (left_recover s0 ctx st). cbn [fst psizes fold_right]. lia. }
    apply left_sync in Sy. intros x st' E. apply bind_ok in E. destruct E as [[e st2] [E1 E]]. cbn [fst snd] in E. pose proof (I1 _ _ _ _ _ E1) as A.
    destruct (sync ends_item st2) as [st3|] eqn:Sy2.
    2:{ destruct x as [i a]. assert (st' = snd (recover s1 ctx st2) /\ i = [e]) as [-> ->] by (split; congruence). pose proof (left_recover s1 ctx st2). cbn [fst psizes fold_right]. lia. }
    apply left_sync in Sy2.
    destruct (is_kind T_COMMA (la1 st3)) eqn:Kc.
    + apply bind_ok in E. destruct E as [[[items fl] st4] [E2 E]]. injection E as <- <-. pose proof (I4 _ _ _ _ _ _ E2) as B. cbn [fst psizes fold_right] in *.
      assert (la1 st3 <> T_EOF) by (intro X; rewrite X in Kc; discriminate Kc). pose proof (left_step st3 H). fold (psizes items) in *. lia.
    + pose proof (left_match (is_kind T_RPAREN) (context_has ctx) st3) as M. pose proof (left_recover 125 ctx st3).
      destruct x as [i a]. destruct (match_set _ _ st3) as [us st4|st4|]; [assert (st' = st4 /\ i = [e]) as [-> ->] by (split; congruence)|assert (st' = st4 /\ i = [e]) as [-> ->] by (split; congruence)|assert (st' = snd (recover 125 ctx st3) /\ i = [e]) as [-> ->] by (split; congruence)]; cbn [fst psizes fold_right]; lia.
Qed.

Lemma parse_any_size ts t : parse_any ts = Ok t -> psize t <= 2 * length ts + 1.
Proof.
  intros E. unfold parse_any in E. apply bind_ok in E. destruct E as [[t' st] [E1 E]]. injection E as <-.
  pose proof (proj1 (parse_size _) _ _ _ _ _ E1) as A. unfold left in A at 2. cbn [tokens matched fst] in *.
  enough (left_of (ts ++ [eof]) <= length ts) by lia. unfold left_of. clear. induction ts as [|x ts IH]; cbn; [lia|]. destruct (tkind_eqb _ _); cbn; lia.
Qed.
Opaque best_match error_skip.
Lemma lex_from_size n : forall s ts, lex_from n s = Ok ts -> length ts <= length s.
Proof.
  induction n as [|n IH]; intros s ts E; (destruct s as [|c s]; [cbn in E; injection E as <-; cbn; lia|]); [discriminate E|].
  cbn [lex_from] in E. destruct (best_match (c :: s)) as [k [|m]].
  - apply IH in E. rewrite skipn_length in E. lia.
  - apply bind_ok in E. destruct E as [ts' [E1 E]]. apply IH in E1. rewrite skipn_length in E1. cbn [length] in *.
    assert (length ts <= S (length ts')); [|lia]. injection E as <-. destruct k; cbn; lia.
Qed.
Transparent best_match error_skip.
Lemma lex_size s ts : lex s = Ok ts -> length ts <= length s.
Proof. unfold lex. apply lex_from_size. Qed.

(** The listener: an object of the stack is used at most once, and mapping a context makes at most one object for each part of it. *)
Definition objs (l : list node) : nat := fold_right (fun i n => objects i + n) 0 l.
Lemma objs_eq l : (fix all (l : list node) : nat := match l with [] => 0 | i :: l' => objects i + all l' end) l = objs l.
Proof. induction l as [|i l IH]; [reflexivity|]. cbn [objs fold_right]. fold (objs l). rewrite <- IH. reflexivity. Qed.
Lemma objects_pos n : 1 <= objects n.
Proof. destruct n; cbn; lia. Qed.
Lemma types_objects dflt t m n : as_types dflt t = Some m -> m = Ok n -> objects n = 1.
Proof.
  intros H ->. destruct t; try discriminate H; cbn [as_types] in H; injection H as H; [|subst; reflexivity].
  unfold map_types_token in H. assert (X : (if is_blank (text tok) then Ok (NField dflt) else (v <- convert_value (text tok) (token_data_type tok) ;; Ok (NUnary (token_data_type tok) v))) = Ok n \/ NField (if is_blank (text tok) then dflt else Some (text tok)) = n).
  { destruct (kind tok); auto. right. congruence. }
  destruct X as [X|<-]; [|reflexivity]. destruct (is_blank _); [injection X as <-; reflexivity|]. apply bind_ok in X. destruct X as [v [_ X]]. injection X as <-. reflexivity.
Qed.
Definition made (t : ptree) : Prop := forall dflt s n s', map_context dflt t s = Ok (n, s') -> objects n + objs s' <= psize t + objs s.
Lemma elements_made items : Forall made items -> forall dflt s ns s', map_elements dflt items s = Ok (ns, s') -> objs ns + objs s' <= psizes items + objs s.
Proof.
  induction 1 as [|i l Hi H IH]; intros dflt s ns s' E; cbn [map_elements] in E; [injection E as <- <-; cbn; lia|].
  apply bind_ok in E. destruct E as [[n s1] [E1 E]]. apply bind_ok in E. destruct E as [[ns2 s2] [E2 E]]. injection E as <- <-. cbn [fst snd] in *.
  pose proof (Hi _ _ _ _ E1). pose proof (IH _ _ _ _ E2). cbn [objs psizes fold_right]. fold (objs ns2) (psizes l). lia.
Qed.
Lemma context_made t : made t.
Proof.
  induction t using ptree_full_ind; intros dflt s n s' E; try (cbn in E; discriminate E).
  - rewrite context_func in E. destruct (function_of (kind fn)); [|discriminate E]. apply bind_ok in E. destruct E as [[ns s1] [E1 E]]. injection E as <- <-.
    pose proof (elements_made _ H _ _ _ _ E1). cbn [objects psize fst snd]. rewrite objs_eq, psizes_eq. lia.
  - cbn [map_context] in E. apply bind_ok in E. destruct E as [m [E1 E]]. injection E as <- <-. rewrite (types_objects dflt (PTypes tok) _ m eq_refl E1). cbn. lia.
  - cbn in E. injection E as <- <-. cbn. lia.
  - cbn [map_context] in E. apply bind_ok in E. destruct E as [fl [_ E]]. apply bind_ok in E. destruct E as [a [_ E]]. apply bind_ok in E. destruct E as [b [_ E]]. injection E as <- <-. cbn. lia.
  - rewrite context_in in E. apply bind_ok in E. destruct E as [fl [_ E]]. apply bind_ok in E. destruct E as [[ns s1] [E1 E]]. injection E as <- <-.
    pose proof (elements_made _ H _ _ _ _ E1). destruct neg; cbn [objects psize fst snd]; rewrite objs_eq, psizes_eq; lia.
  - assert (D : forall o dt, (bs <- map_context dflt t2 s ;; as_ <- map_context dflt t1 (snd bs) ;; Ok (NCmp (fst as_) (fst bs) o dt, snd as_)) = Ok (n, s') ->
        objects n + objs s' <= psize (PCmp t1 op t2) + objs s).
    { intros o dt X. apply bind_ok in X. destruct X as [[b s1] [E1 X]]. apply bind_ok in X. destruct X as [[a s2] [E2 X]]. injection X as <- <-. cbn [fst snd] in *.
      pose proof (IHt2 _ _ _ _ E1). pose proof (IHt1 _ _ _ _ E2). cbn [objects psize]. lia. }
    cbn [map_context] in E. cbv zeta in E. pose proof (psize_pos t1). pose proof (psize_pos t2).
    destruct (steals t1 t2 s); [|exact (D _ _ E)].
    destruct (as_types dflt t1) as [ml|] eqn:T1; [|destruct (as_types dflt t2) as [mr|] eqn:T2; [|exact (D _ _ E)]].
    + apply bind_ok in E. destruct E as [a [E1 E]]. apply bind_ok in E. destruct E as [[b s1] [E2 E]]. injection E as <- <-.
      pose proof (types_objects _ _ _ _ T1 E1). destruct s as [|x s]; [discriminate E2|]. injection E2 as <- <-. cbn [objects psize objs fold_right fst snd]. fold (objs s). lia.
    + apply bind_ok in E. destruct E as [a [E1 E]]. apply bind_ok in E. destruct E as [[b s1] [E2 E]]. injection E as <- <-.
      pose proof (types_objects _ _ _ _ T2 E1). destruct s as [|x s]; [discriminate E2|]. injection E2 as <- <-. cbn [objects psize objs fold_right fst snd]. fold (objs s). lia.
  - cbn [map_context] in E. pose proof (psize_pos t1). pose proof (psize_pos t2).
    destruct (as_types dflt t1) as [ml|] eqn:T1, (as_types dflt t2) as [mr|] eqn:T2.
    + apply bind_ok in E. destruct E as [a [E1 E]]. apply bind_ok in E. destruct E as [b [E2 E]]. injection E as <- <-.
      pose proof (types_objects _ _ _ _ T1 E1). pose proof (types_objects _ _ _ _ T2 E2). cbn [objects psize]. lia.
    + apply bind_ok in E. destruct E as [a [E1 E]]. apply bind_ok in E. destruct E as [[b s1] [E2 E]]. injection E as <- <-.
      pose proof (types_objects _ _ _ _ T1 E1). destruct s as [|x s]; [discriminate E2|]. injection E2 as <- <-. cbn [objects psize objs fold_right fst snd]. fold (objs s). lia.
    + apply bind_ok in E. destruct E as [a [E1 E]]. apply bind_ok in E. destruct E as [[b s1] [E2 E]]. injection E as <- <-.
      pose proof (types_objects _ _ _ _ T2 E1). destruct s as [|x s]; [discriminate E2|]. injection E2 as <- <-. cbn [objects psize objs fold_right fst snd]. fold (objs s). lia.
    + destruct s as [|b [|a s]]; try discriminate E. injection E as <- <-. cbn [objects psize objs fold_right]. fold (objs s). lia.
  - cbn [map_context] in E. apply bind_ok in E. destruct E as [fl [_ E]]. apply bind_ok in E. destruct E as [a [_ E]]. discriminate E.
  - cbn [map_context] in E. apply bind_ok in E. destruct E as [fl [_ E]]. apply bind_ok in E. destruct E as [a [_ E]]. apply bind_ok in E. destruct E as [b [_ E]]. injection E as <- <-. cbn. lia.
  - cbn [map_context] in E. apply bind_ok in E. destruct E as [fl [_ E]]. discriminate E.
Qed.
Lemma push_made dflt t st st' : push_context dflt t st = Ok st' -> objs (stack st') <= psize t + objs (stack st).
Proof.
  intros E. unfold push_context in E. apply bind_ok in E. destruct E as [[n s] [E1 E]]. injection E as <-. pose proof (context_made t _ _ _ _ E1). exact H.
Qed.

Definition grows (t : ptree) : Prop := forall dflt st st', walk dflt t st = Ok st' -> objs (stack st') <= psize t * psize t + objs (stack st).
Lemma items_grow items : Forall grows items -> forall dflt st st', walk_list dflt items st = Ok st' -> objs (stack st') <= psizes items * psizes items + objs (stack st).
Proof.
  induction 1 as [|i l Hi H IH]; intros dflt st st' E; cbn [walk_list] in E; [injection E as <-; lia|].
  apply bind_ok in E. destruct E as [st1 [E1 E]]. pose proof (Hi _ _ _ E1). pose proof (IH _ _ _ E). cbn [psizes fold_right]. fold (psizes l). nia.
Qed.
Lemma square_next a b : a * a + (1 + a + b) <= (1 + a) * (1 + a) + b.
Proof. nia. Qed.
Lemma walk_grows t : grows t.
Proof.
  induction t using ptree_full_ind; intros dflt st st' E.
  - cbn [walk] in E. apply IHt in E. cbn [psize]. pose proof (Nat.mul_le_mono (psize t) (S (psize t)) (psize t) (S (psize t)) (le_S _ _ (le_n _)) (le_S _ _ (le_n _))). lia.
  - cbn [walk] in E. apply bind_ok in E. destruct E as [st1 [E1 E]]. apply IHt in E1. pose proof (psize_pos t). cbn [psize]. unfold exit_not in E.
    destruct (stack st1) as [|x s].
    + destruct (last_token st1); [|discriminate E]. apply bind_ok in E. destruct E as [v [_ E]]. injection E as <-. cbn. nia.
    + injection E as <-. cbn [stack objs fold_right objects] in *. fold (objs s) in *. nia.
  - cbn [walk] in E. apply bind_ok in E. destruct E as [st1 [E1 E]]. apply IHt in E1. pose proof (psize_pos t). cbn [psize]. unfold exit_unary in E.
    assert (T : forall s, s = stack st1 -> match as_types dflt t with Some m => n <- m ;; Ok (LState (NArith n None UNARY :: s) (last_token st1) (token_count st1)) | None => Err ClassCast end = Ok st' ->
      objs (stack st') <= S (psize t) * S (psize t) + objs (stack st)).
    { intros s -> X. destruct (as_types dflt t) as [m|] eqn:T; [|discriminate X]. apply bind_ok in X. destruct X as [n [X1 X]]. injection X as <-.
      pose proof (types_objects _ _ _ _ T X1). cbn [stack objs fold_right objects]. fold (objs (stack st1)). nia. }
    destruct (stack st1) as [|x s] eqn:Es; [exact (T _ eq_refl E)|]. destruct x; try exact (T _ eq_refl E). injection E as <-.
    cbn [stack objs fold_right] in *. fold (objs s) in *. match goal with |- objects ?n + _ <= _ => change (objects n) with (S (objects (NArith x right op) + 0)) end. nia.
  - rewrite walk_func in E. apply bind_ok in E. destruct E as [st1 [E1 E]]. apply push_made in E. apply (items_grow _ H) in E1. cbn [psize] in *. rewrite psizes_eq in *. nia.
  - cbn [walk] in E. injection E as <-. unfold exit_types. cbn [stack psize]. lia.
  - cbn [walk] in E. injection E as <-. unfold exit_types. cbn [stack psize]. lia.
  - cbn [walk] in E. apply push_made in E. cbn [psize] in *. lia.
  - rewrite walk_in in E. apply bind_ok in E. destruct E as [st1 [E1 E]]. apply push_made in E. apply (items_grow _ H) in E1. cbn [psize] in *. rewrite psizes_eq in *. nia.
  - rewrite walk_array in E. apply bind_ok in E. destruct E as [st1 [E1 E]]. apply (items_grow _ H) in E1. unfold exit_array in E.
    apply bind_ok in E. destruct E as [fl [_ E]]. apply bind_ok in E. destruct E as [[ns s] [E2 E]]. injection E as <-.
    assert (M : Forall made items) by (apply Forall_forall; intros x _; apply context_made). pose proof (elements_made _ M _ _ _ _ E2).
    cbn [stack objs fold_right objects psize fst snd]. fold (objs s). rewrite objs_eq, psizes_eq. nia.
  - cbn [walk] in E. apply bind_ok in E. destruct E as [st1 [E1 E]]. apply bind_ok in E. destruct E as [st2 [E2 E]]. apply IHt1 in E1. apply IHt2 in E2. apply push_made in E. cbn [psize] in *. nia.
  - cbn [walk] in E. apply bind_ok in E. destruct E as [st1 [E1 E]]. apply bind_ok in E. destruct E as [st2 [E2 E]]. apply IHt1 in E1. apply IHt2 in E2. apply push_made in E. cbn [psize] in *. nia.
  - cbn [walk] in E. apply bind_ok in E. destruct E as [st1 [E1 E]]. apply bind_ok in E. destruct E as [st2 [E2 E]]. apply IHt1 in E1. apply IHt2 in E2. unfold exit_binary in E.
    destruct (stack st2) as [|b [|a s]]; try discriminate E. injection E as <-. cbn [stack objs fold_right objects psize] in *. fold (objs s) in *. nia.
  - cbn [walk] in E. injection E as <-. unfold exit_types. cbn [stack psize]. lia.
  - change (walk dflt (PFuncErr fn items) st) with (st' <- walk_list dflt items st ;; push_context dflt (PFuncErr fn items) st') in E. apply bind_ok in E. destruct E as [st1 [E1 E]]. apply push_made in E. apply (items_grow _ H) in E1. cbn [psize] in *. rewrite psizes_eq in *. nia.
  - cbn [walk] in E. apply push_made in E. cbn [psize] in *. lia.
  - cbn [walk] in E. apply push_made in E. cbn [psize] in *. lia.
  - cbn [walk] in E. apply push_made in E. cbn [psize] in *. lia.
  - cbn [walk] in E. apply bind_ok in E. destruct E as [fl [_ E]]. discriminate E.
Qed.
Lemma listen_size dflt t n : listen dflt t = Ok n -> objects n <= psize t * psize t.
Proof.
  intros E. unfold listen in E. apply bind_ok in E. destruct E as [st [E1 E]]. apply walk_grows in E1. cbn [stack objs fold_right] in E1. unfold exit_parse in E.
  pose proof (psize_pos t). assert (O : objects n = 1 -> objects n <= psize t * psize t) by nia.
  destruct (stack st) as [|x s].
  - destruct (token_count st) as [|[|c]]; try discriminate E. destruct (last_token st) as [k|]; [|discriminate E]. apply O.
    assert (X : (v <- convert_value (text k) STRING ;; s <- to_string v ;; Ok (NUnary STRING (VStr s))) = Ok n \/ NField (Some (text k)) = n) by (destruct (kind k); auto; right; congruence).
    destruct X as [X|<-]; [|reflexivity]. apply bind_ok in X. destruct X as [v [_ X]]. apply bind_ok in X. destruct X as [w [_ X]]. injection X as <-. reflexivity.
  - injection E as <-. cbn [objs fold_right] in E1. fold (objs s) in E1. lia.
Qed.
