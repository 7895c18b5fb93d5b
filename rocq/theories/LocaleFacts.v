(** The listener in a default locale against the listener that goes by the kinds of tokens. *)
From Verif Require Import RecoverOrigin ListenAny TreeKinds.
From Verif Require Import Base JNum Values Ops Funcs Ast Eval Lexer Grammar Recover Listener Api Locale SpecGrammar FieldFacts ParseFacts ListenFacts.

Definition class (n : node) : nat := match n with NCmp _ _ _ _ | NBool _ _ _ => 0 | NArith _ _ _ => 1 | _ => 2 end.
Definition both_opt (R : node -> node -> Prop) (a b : option node) : Prop :=
  match a, b with Some x, Some y => R x y | None, None => True | _, _ => False end.

Section Sim.
Context (L : locale) (R : node -> node -> Prop) (bail : Prop) (A : token -> Prop) (dflt : option jstr).
Context (RField : forall f, R (NField f) (NField f)) (RUnary : forall dt v, R (NUnary dt v) (NUnary dt v))
  (RRange : forall f a b x y, R (NRange f a b x y) (NRange f a b x y))
  (RArith : forall a a' b b' o, R a a' -> both_opt R b b' -> R (NArith a b o) (NArith a' b' o))
  (RFunc : forall f l l', Forall2 R l l' -> R (NFunc f l) (NFunc f l'))
  (RCmp : forall a a' b b' o dt, R a a' -> R b b' -> R (NCmp a b o dt) (NCmp a' b' o dt))
  (RIn : forall f l l', Forall2 R l l' -> R (NIn f l) (NIn f l'))
  (RBool : forall a a' b b' o, R a a' -> both_opt R b b' -> R (NBool a b o) (NBool a' b' o))
  (RArray : forall f op l l', A op -> Forall2 R l l' -> R (NArray f (operator_of (kind op)) l) (NArray f (operator_in L (text op)) l'))
  (RClass : forall a b, R a b -> class a = class b).

Definition looked_up (t : token) : Prop :=
  (comparator (kind t) \/ arithmetic_op (kind t) -> operator_in L (text t) = operator_of (kind t)) /\
  (is_function (kind t) = true -> function_in L (text t) = function_of (kind t) \/ bail /\ function_in L (text t) = None) /\
  (kind t = T_CONTAINS_ALL \/ kind t = T_CONTAINS_ANY -> A t).
Definition sim {X Y} (S : X -> Y -> Prop) (r : res X) (r' : res Y) : Prop :=
  (bail /\ r' = Err InvalidExpression) \/ match r, r' with Ok a, Ok b => S a b | Err e, Err e' => e = e' | _, _ => False end.
Lemma sim_ok X Y (S : X -> Y -> Prop) a b : S a b -> sim S (Ok a) (Ok b).
Proof. right. assumption. Qed.
Lemma sim_err X Y (S : X -> Y -> Prop) e : sim S (Err e) (Err e).
Proof. right. reflexivity. Qed.
Lemma sim_same X (S : X -> X -> Prop) r : (forall a, r = Ok a -> S a a) -> sim S r r.
Proof. intro H. right. destruct r; auto. Qed.
Lemma sim_bind X Y X' Y' (S : X -> Y -> Prop) (T : X' -> Y' -> Prop) a b k k' : sim S a b -> (forall x y, S x y -> sim T (k x) (k' y)) -> sim T (bind a k) (bind b k').
Proof.
  intros [[B ->]|H] K; [left; split; [exact B|reflexivity]|]. destruct a, b; cbn; try contradiction; [apply K; exact H|subst; apply sim_err].
Qed.
Lemma sim_bind_same X X' Y' (T : X' -> Y' -> Prop) (a : res X) k k' : (forall x, a = Ok x -> sim T (k x) (k' x)) -> sim T (bind a k) (bind a k').
Proof. intros K. destruct a; cbn; [apply K; reflexivity|apply sim_err]. Qed.

Definition stacks := Forall2 R.
Definition pairs (a b : node * list node) : Prop := R (fst a) (fst b) /\ stacks (snd a) (snd b).
Definition lists (a b : list node * list node) : Prop := stacks (fst a) (fst b) /\ stacks (snd a) (snd b).
Definition states (a b : lstate) : Prop := stacks (stack a) (stack b) /\ last_token a = last_token b /\ token_count a = token_count b.

Lemma top_sim s s' : stacks s s' -> top_is_cmp_or_bool s = top_is_cmp_or_bool s'.
Proof. intros [|a b l l' H _]; [reflexivity|]. apply RClass in H. destruct a, b; try reflexivity; discriminate H. Qed.
Lemma steals_sim l r s s' : stacks s s' -> steals l r s = steals l r s'.
Proof. intros H. pose proof (top_sim _ _ H) as T. unfold steals. destruct H; [reflexivity|]. rewrite T. reflexivity. Qed.
Lemma pop_sim s s' : stacks s s' -> sim pairs (pop s) (pop s').
Proof. intros [|a b l l' H H']; [apply sim_err|]. apply sim_ok. split; assumption. Qed.
Lemma token_self t n : map_types_token dflt t = Ok n -> R n n.
Proof.
  unfold map_types_token. intro H.
  assert (B : (if is_blank (text t) then Ok (NField dflt) else v <- convert_value (text t) (token_data_type t) ;; Ok (NUnary (token_data_type t) v)) = Ok n -> R n n).
  { destruct (is_blank (text t)); [intro E; injection E as <-; apply RField|]. intro E. apply bind_ok in E. destruct E as [v [_ E]]. injection E as <-. apply RUnary. }
  destruct (kind t); try exact (B H). injection H as <-. apply RField.
Qed.
Lemma types_self t m n : as_types dflt t = Some m -> m = Ok n -> R n n.
Proof. intros E ->. destruct t; try discriminate E; injection E as E; [exact (token_self _ _ E)|subst n; apply RField]. Qed.
Lemma context_func_in fn items s : map_context_in L dflt (PFunc fn items) s =
  match function_in L (text fn) with None => Err InvalidExpression | Some ft => is <- map_elements_in L dflt items s ;; Ok (NFunc ft (fst is), snd is) end.
Proof.
  cbn [map_context_in]. destruct (function_in L (text fn)); [|reflexivity]. f_equal. revert s. induction items as [|i l IH]; intro s; [reflexivity|].
  cbn [map_elements_in]. destruct (map_context_in L dflt i s); [|reflexivity]. cbn [bind]. rewrite IH. reflexivity.
Qed.
Lemma context_in_in g neg it items s : map_context_in L dflt (PIn g neg it items) s =
  (fld <- named_field dflt g ;; is <- map_elements_in L dflt items s ;; Ok (match neg with None => NIn fld (fst is) | Some _ => NBool (NIn fld (fst is)) None NOT end, snd is)).
Proof.
  cbn [map_context_in]. destruct (named_field dflt g); [|reflexivity]. cbn [bind]. f_equal. revert s. induction items as [|i l IH]; intro s; [reflexivity|].
  cbn [map_elements_in]. destruct (map_context_in L dflt i s); [|reflexivity]. cbn [bind]. rewrite IH. reflexivity.
Qed.

Definition fit (t : ptree) : Prop := from looked_up t /\ kinds t.
Lemma elements_sim items : Forall (fun t => fit t -> forall s s', stacks s s' -> sim pairs (map_context dflt t s) (map_context_in L dflt t s')) items ->
  Forall fit items -> forall s s', stacks s s' -> sim lists (map_elements dflt items s) (map_elements_in L dflt items s').
Proof.
  induction 1 as [|i l H0 H IH]; intros F s s' Hs; cbn [map_elements map_elements_in]; [apply sim_ok; split; [constructor|exact Hs]|]. inversion F; subst.
  apply sim_bind with (S := pairs); [apply H0; assumption|]. intros [n u] [n' u'] [B C]. cbn [fst snd] in *.
  apply sim_bind with (S := lists); [apply IH; assumption|]. intros [ns v] [ns' v'] [D E]. cbn [fst snd] in *. apply sim_ok. split; [constructor|]; assumption.
Qed.
Lemma fit_items items : all_from looked_up items -> all_kinds items -> Forall fit items.
Proof. unfold all_from, all_kinds. rewrite !Forall_forall. intros H K x I. split; auto. Qed.
Lemma fit_func fn items : fit (PFunc fn items) -> looked_up fn /\ is_function (kind fn) = true /\ Forall fit items.
Proof. intros [H K]. cbn [from kinds] in H, K. rewrite all_from_eq in H. rewrite all_kinds_eq in K. repeat split; try apply H; try apply K. apply fit_items; [apply H|apply K]. Qed.
Lemma fit_func_err fn items : fit (PFuncErr fn items) -> Forall fit items.
Proof. intros [H K]. cbn [from kinds] in H, K. rewrite all_from_eq in H. rewrite all_kinds_eq in K. apply fit_items; [apply H|apply K]. Qed.
Lemma fit_in g neg it items : fit (PIn g neg it items) -> Forall fit items.
Proof. intros [H K]. cbn [from kinds] in H, K. rewrite all_from_eq in H. rewrite all_kinds_eq in K. apply fit_items; [apply H|apply K]. Qed.
Lemma fit_array g op items : fit (PArray g op items) -> A op /\ Forall fit items.
Proof. intros [H K]. cbn [from kinds] in H, K. rewrite all_from_eq in H. rewrite all_kinds_eq in K. destruct H as [_ [[_ [_ H]] H']]. split; [apply H, K|]. apply fit_items; [apply H'|apply K]. Qed.
Lemma fit_cmp l op r : fit (PCmp l op r) -> operator_in L (text op) = operator_of (kind op) /\ fit l /\ fit r.
Proof. intros [[H1 [[H2 _] H3]] [K1 [K2 K3]]]. split; [apply H2; left; exact K2|split; split; assumption]. Qed.
Lemma fit_arith l op r : fit (PArith l op r) -> operator_in L (text op) = operator_of (kind op) /\ fit l /\ fit r.
Proof. intros [[H1 [[H2 _] H3]] [K1 [K2 K3]]]. split; [apply H2; right; exact K2|split; split; assumption]. Qed.
Lemma fit_bin l op r : fit (PBin l op r) -> fit l /\ fit r.
Proof. intros [[H1 [_ H3]] [K1 K3]]. split; split; assumption. Qed.

Lemma context_sim t : fit t -> forall s s', stacks s s' -> sim pairs (map_context dflt t s) (map_context_in L dflt t s').
Proof.
  induction t using ptree_full_ind; intros Hf s s' Hs; try apply sim_err.
  - rewrite context_func, context_func_in. apply fit_func in Hf. destruct Hf as [[_ [Hl _]] [Hk Hi]].
    destruct (Hl Hk) as [-> | [B ->]]; [|left; auto]. destruct (function_of (kind fn)); [|apply sim_err].
    apply sim_bind with (S := lists); [apply elements_sim; assumption|]. intros [n u] [n' u'] [B C]. apply sim_ok. split; [apply RFunc; exact B|exact C].
  - cbn [map_context map_context_in]. apply sim_bind_same. intros n E. apply sim_ok. split; [exact (token_self _ _ E)|exact Hs].
  - cbn [map_context map_context_in map_types_empty bind]. apply sim_ok. split; [apply RField|exact Hs].
  - cbn [map_context map_context_in]. do 3 (apply sim_bind_same; intros ? _). apply sim_ok. split; [apply RRange|exact Hs].
  - rewrite context_in, context_in_in. apply fit_in in Hf. apply sim_bind_same. intros fld _.
    apply sim_bind with (S := lists); [apply elements_sim; assumption|]. intros [n u] [n' u'] [B C]. apply sim_ok. split; [|exact C].
    destruct neg; cbn [fst]; [apply RBool; [|exact I]|]; apply RIn; exact B.
  - apply fit_cmp in Hf. destruct Hf as [O [Hl Hr]]. cbn [map_context map_context_in]. cbv zeta. rewrite O, <- (steals_sim t1 t2 s s' Hs).
    assert (Deep : sim pairs
      (bs <- map_context dflt t2 s ;; as_ <- map_context dflt t1 (snd bs) ;; Ok (NCmp (fst as_) (fst bs) (operator_of (kind op)) (token_data_type (start t2)), snd as_))
      (bs <- map_context_in L dflt t2 s' ;; as_ <- map_context_in L dflt t1 (snd bs) ;; Ok (NCmp (fst as_) (fst bs) (operator_of (kind op)) (token_data_type (start t2)), snd as_))).
    { apply sim_bind with (S := pairs); [apply IHt2; assumption|]. intros [b u] [b' u'] [B1 B2]. cbn [fst snd] in *.
      apply sim_bind with (S := pairs); [apply IHt1; assumption|]. intros [a v] [a' v'] [A1 A2]. cbn [fst snd] in *. apply sim_ok. split; [apply RCmp; assumption|assumption]. }
    destruct (steals t1 t2 s).
    + destruct (as_types dflt t1) as [ml|] eqn:E1.
      * apply sim_bind_same. intros a Ea. apply sim_bind with (S := pairs); [apply pop_sim; exact Hs|]. intros [b u] [b' u'] [B1 B2]. apply sim_ok. split; [apply RCmp; [exact (types_self _ _ _ E1 Ea)|assumption]|assumption].
      * destruct (as_types dflt t2) as [mr|] eqn:E2; [|exact Deep].
        apply sim_bind_same. intros b Eb. apply sim_bind with (S := pairs); [apply pop_sim; exact Hs|]. intros [a u] [a' u'] [B1 B2]. apply sim_ok. split; [apply RCmp; [assumption|exact (types_self _ _ _ E2 Eb)]|assumption].
    + destruct (as_types dflt t1), (as_types dflt t2); exact Deep.
  - apply fit_arith in Hf. destruct Hf as [O [Hl Hr]]. cbn [map_context map_context_in]. rewrite O.
    destruct (as_types dflt t1) as [ml|] eqn:E1, (as_types dflt t2) as [mr|] eqn:E2.
    + apply sim_bind_same. intros a Ea. apply sim_bind_same. intros b Eb. apply sim_ok. split; [apply RArith; [exact (types_self _ _ _ E1 Ea)|exact (types_self _ _ _ E2 Eb)]|exact Hs].
    + apply sim_bind_same. intros a Ea. apply sim_bind with (S := pairs); [apply pop_sim; exact Hs|]. intros [b u] [b' u'] [B1 B2]. apply sim_ok. split; [apply RArith; [exact (types_self _ _ _ E1 Ea)|exact B1]|exact B2].
    + apply sim_bind_same. intros b Eb. apply sim_bind with (S := pairs); [apply pop_sim; exact Hs|]. intros [a u] [a' u'] [B1 B2]. apply sim_ok. split; [apply RArith; [exact B1|exact (types_self _ _ _ E2 Eb)]|exact B2].
    + destruct Hs as [|b b' u u' Hb [|a a' v v' Ha Hv]]; [apply sim_err|apply sim_err|]. apply sim_ok. split; [apply RArith; [exact Ha|exact Hb]|exact Hv].
  - cbn [map_context map_context_in]. do 2 (apply sim_bind_same; intros ? _). apply sim_err.
  - cbn [map_context map_context_in]. do 3 (apply sim_bind_same; intros ? _). apply sim_ok. split; [apply RRange|exact Hs].
  - cbn [map_context map_context_in]. apply sim_bind_same; intros ? _. apply sim_err.
Qed.

Lemma push_sim t st st' : fit t -> states st st' -> sim states (push_context dflt t st) (push_context_in L dflt t st').
Proof.
  intros H [B [C D]]. unfold push_context, push_context_in. apply sim_bind with (S := pairs); [apply context_sim; assumption|].
  intros [n s] [n' s'] [E F]. apply sim_ok. split; [constructor; assumption|split; assumption].
Qed.
Fixpoint walk_list_in (l : list ptree) (st : lstate) : res lstate :=
  match l with [] => Ok st | i :: l' => st' <- walk_locale L dflt i st ;; walk_list_in l' st' end.
Lemma walk_list_sim items : Forall (fun t => fit t -> forall st st', states st st' -> sim states (walk dflt t st) (walk_locale L dflt t st')) items ->
  Forall fit items -> forall st st', states st st' -> sim states (walk_list dflt items st) (walk_list_in items st').
Proof.
  induction 1 as [|i l H0 H IH]; intros F st st' Hs; [apply sim_ok; exact Hs|]. inversion F; subst.
  change (walk_list dflt (i :: l) st) with (u <- walk dflt i st ;; walk_list dflt l u). cbn [walk_list_in].
  apply sim_bind with (S := states); [apply H0; assumption|]. intros u u' Hu. apply IH; assumption.
Qed.
Lemma walk_func_in fn items st : walk_locale L dflt (PFunc fn items) st = (st' <- walk_list_in items st ;; push_context_in L dflt (PFunc fn items) st').
Proof. reflexivity. Qed.
Lemma walk_in_in g neg it items st : walk_locale L dflt (PIn g neg it items) st = (st' <- walk_list_in items st ;; push_context_in L dflt (PIn g neg it items) st').
Proof. reflexivity. Qed.
Lemma walk_array_in g op items st : walk_locale L dflt (PArray g op items) st = (st' <- walk_list_in items st ;; exit_array_in L dflt g op items st').
Proof. reflexivity. Qed.
Lemma not_sim st st' : states st st' -> sim states (exit_not st) (exit_not st').
Proof.
  intros [B [C D]]. unfold exit_not. rewrite <- C, <- D. destruct B as [|n n' s s' Hn Hs].
  - destruct (last_token st); [|apply sim_err]. apply sim_bind_same. intros v _. apply sim_ok. split; [|auto]. constructor; [|constructor]. apply RBool; [apply RUnary|exact I].
  - apply sim_ok. split; [|auto]. constructor; [|exact Hs]. apply RBool; [exact Hn|exact I].
Qed.
Lemma unary_sim t st st' : states st st' -> sim states (exit_unary dflt t st) (exit_unary dflt t st').
Proof.
  intros [B [C D]]. unfold exit_unary. rewrite <- C, <- D.
  assert (G : sim states (match as_types dflt t with Some m => n <- m ;; Ok (LState (NArith n None UNARY :: stack st) (last_token st) (token_count st)) | None => Err ClassCast end)
                         (match as_types dflt t with Some m => n <- m ;; Ok (LState (NArith n None UNARY :: stack st') (last_token st) (token_count st)) | None => Err ClassCast end)).
  { destruct (as_types dflt t) eqn:E; [|apply sim_err]. apply sim_bind_same. intros n En. apply sim_ok. split; [|auto]. constructor; [|exact B]. apply RArith; [exact (types_self _ _ _ E En)|exact I]. }
  destruct B as [|n n' s s' Hn Hs]; [exact G|]. pose proof (RClass _ _ Hn) as K.
  destruct n, n'; try discriminate K; try exact G. apply sim_ok. split; [|auto]. constructor; [|exact Hs]. apply RArith; [exact Hn|exact I].
Qed.
Lemma walk_sim t : fit t -> forall st st', states st st' -> sim states (walk dflt t st) (walk_locale L dflt t st').
Proof.
  induction t using ptree_full_ind; intros Hf st st' Hs.
  - cbn [walk walk_locale]. apply IHt; assumption.
  - cbn [walk walk_locale]. apply sim_bind with (S := states); [apply IHt; [destruct Hf as [[_ ?] ?]; split; assumption|assumption]|]. apply not_sim.
  - cbn [walk walk_locale]. apply sim_bind with (S := states); [apply IHt; assumption|]. apply unary_sim.
  - rewrite walk_func, walk_func_in. apply sim_bind with (S := states); [apply walk_list_sim; [assumption|apply (fit_func _ _ Hf)|assumption]|]. intros u u' Hu. apply push_sim; assumption.
  - cbn [walk walk_locale]. apply sim_ok. destruct Hs as [B [C D]]. split; [exact B|]. cbn. auto.
  - cbn [walk walk_locale]. apply sim_ok. destruct Hs as [B [C D]]. split; [exact B|]. cbn. auto.
  - apply push_sim; assumption.
  - rewrite walk_in, walk_in_in. apply sim_bind with (S := states); [apply walk_list_sim; [assumption|apply (fit_in _ _ _ _ Hf)|assumption]|]. intros u u' Hu. apply push_sim; assumption.
  - rewrite walk_array, walk_array_in. apply fit_array in Hf. destruct Hf as [Ha Hi]. apply sim_bind with (S := states); [apply walk_list_sim; assumption|].
    intros u u' [B [C D]]. unfold exit_array, exit_array_in. rewrite <- C, <- D. apply sim_bind_same. intros fld _.
    apply sim_bind with (S := lists). { apply elements_sim; [|assumption|exact B]. apply Forall_forall. intros t _. apply context_sim. }
    intros [ns s] [ns' s'] [E F]. apply sim_ok. split; [|auto]. constructor; [|exact F]. apply RArray; assumption.
  - cbn [walk walk_locale]. pose proof (fit_cmp _ _ _ Hf) as [_ [Hl Hr]]. apply sim_bind with (S := states); [apply IHt1; assumption|]. intros u u' Hu.
    apply sim_bind with (S := states); [apply IHt2; assumption|]. intros v v' Hv. apply push_sim; assumption.
  - cbn [walk walk_locale]. pose proof (fit_arith _ _ _ Hf) as [_ [Hl Hr]]. apply sim_bind with (S := states); [apply IHt1; assumption|]. intros u u' Hu.
    apply sim_bind with (S := states); [apply IHt2; assumption|]. intros v v' Hv. apply push_sim; assumption.
  - cbn [walk walk_locale]. pose proof (fit_bin _ _ _ Hf) as [Hl Hr]. apply sim_bind with (S := states); [apply IHt1; assumption|]. intros u u' Hu.
    apply sim_bind with (S := states); [apply IHt2; assumption|]. intros v v' [B [C D]]. unfold exit_binary. rewrite <- C, <- D.
    destruct B as [|b b' w w' Hb [|a a' x x' Ha Hx]]; [apply sim_err|apply sim_err|]. apply sim_ok. split; [|auto]. constructor; [|exact Hx]. apply RBool; [exact Ha|exact Hb].
  - apply sim_ok. exact Hs.
  - change (walk dflt (PFuncErr fn items) st) with (u <- walk_list dflt items st ;; push_context dflt (PFuncErr fn items) u).
    change (walk_locale L dflt (PFuncErr fn items) st') with (u <- walk_list_in items st' ;; push_context_in L dflt (PFuncErr fn items) u).
    apply sim_bind with (S := states); [apply walk_list_sim; [assumption|apply (fit_func_err _ _ Hf)|assumption]|]. intros u u' Hu. apply push_sim; assumption.
  - apply push_sim; assumption.
  - apply push_sim; assumption.
  - apply push_sim; assumption.
  - cbn [walk walk_locale]. apply sim_bind_same. intros fld _. apply sim_err.
Qed.
Lemma listen_sim t : fit t -> sim R (listen dflt t) (listen_in L dflt t).
Proof.
  intros H. unfold listen, listen_in. apply sim_bind with (S := states); [apply walk_sim; [exact H|split; [constructor|auto]]|].
  intros st st' [B [C D]]. unfold exit_parse. destruct B as [|n n' s s' Hn Hs]; [|apply sim_ok; exact Hn].
  rewrite <- C, <- D. apply sim_same. intros a E. destruct (token_count st) as [|[|k]]; try discriminate E. destruct (last_token st) as [x|]; [|discriminate E].
  destruct (kind x);
    (injection E as <-; apply RField) || (apply bind_ok in E; destruct E as [v [_ E]]; apply bind_ok in E; destruct E as [w [_ E]]; injection E as <-; apply RUnary).
Qed.
End Sim.
