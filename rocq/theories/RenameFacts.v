(** Texts that differ in the names of their fields only. *)
From Verif Require Import RecoverFacts.
From Verif Require Import Base JNum Values Ops Funcs Ast Eval Lexer Grammar Listener Api SpecBool SpecCompare SpecPath SpecName BoolFacts CompareFacts ValuesFacts NameFacts FieldFacts SpecLex SpecGrammar SpecSyntax SpecText SpecDefault SpecRename
  LexFacts LexSplit LexWords LexApi LexCases SyntaxFacts ParseFuel ParseFacts ParseShapes ListenFacts TextFacts TextApi DefaultFacts.

(** ** The trees the evaluators see *)
Section Nodes.
Context (R : option jstr -> option jstr -> Prop) (E : env) (d d' : data).
Context (RV : forall f f', R f f' -> field_value f d = field_value f' d') (RN : forall f f', R f f' -> field_is_null f = field_is_null f').

Definition cond (n : node) : Prop := match n with NUnary dt _ => dt = BOOLEAN | _ => True end.
Inductive alike : node -> node -> Prop :=
| al_field f f' : R f f' -> alike (NField f) (NField f')
| al_unary dt v : alike (NUnary dt v) (NUnary dt v)
| al_arith l l' r r' op : alike l l' -> alike r r' -> alike (NArith l (Some r) op) (NArith l' (Some r') op)
| al_minus l l' op : alike l l' -> alike (NArith l None op) (NArith l' None op)
| al_func f items items' : Forall2 alike items items' -> alike (NFunc f items) (NFunc f items')
| al_cmp l l' r r' op dt : alike l l' -> alike r r' -> alike (NCmp l r op dt) (NCmp l' r' op dt)
| al_range f f' a b t1 t2 : R f f' -> alike (NRange f a b t1 t2) (NRange f' a b t1 t2)
| al_in f f' items items' : R f f' -> Forall2 alike items items' -> alike (NIn f items) (NIn f' items')
| al_array f f' op items items' : R f f' -> Forall2 alike items items' -> alike (NArray f op items) (NArray f' op items')
| al_bool l l' r r' op : cond l -> cond r -> alike l l' -> alike r r' -> alike (NBool l (Some r) op) (NBool l' (Some r') op)
| al_not l l' op : cond l -> alike l l' -> alike (NBool l None op) (NBool l' None op)
| al_name f f' : R (Some f) (Some f') -> alike (NBool (NUnary STRING (VStr f)) None NOT) (NBool (NUnary STRING (VStr f')) None NOT).

Lemma or_fail f f' : R f f' -> field_value_or_fail f d = field_value_or_fail f' d'.
Proof. intros H. unfold field_value_or_fail. rewrite (RV _ _ H). reflexivity. Qed.
Lemma mapM_alike A B (g h : A -> res B) (P : A -> A -> Prop) l l' : Forall2 P l l' -> (forall a a', In a l -> P a a' -> g a = h a') -> mapM g l = mapM h l'.
Proof.
  induction 1 as [|a a' l l' H F IH]; intros X; [reflexivity|]. cbn [mapM]. rewrite (X a a') by (cbn; auto). rewrite IH; [reflexivity|]. intros b b' I. apply X. right. exact I.
Qed.
Lemma arith_alike n : forall n', alike n n' -> arith_eval E d n = arith_eval E d' n'.
Proof.
  induction n using node_ind'; intros n' A; inversion A; subst; try reflexivity.
  - cbn [arith_eval]. apply or_fail. assumption.
  - cbn [arith_eval]. rewrite (IHn l') by assumption. cbn [opt_P] in H. rewrite (H r') by assumption. reflexivity.
  - cbn [arith_eval]. rewrite (IHn l') by assumption. reflexivity.
  - rewrite !arith_func. f_equal. unfold arith_items. rewrite Forall_forall in H. eapply mapM_alike; [eassumption|]. auto.
Qed.
Lemma base_alike n n' : alike n n' -> is_arith_base n = is_arith_base n'.
Proof. intros A. inversion A; reflexivity. Qed.
Lemma null_alike n n' : alike n n' -> node_is_null_field n = node_is_null_field n'.
Proof. intros A. inversion A; subst; try reflexivity. apply RN. assumption. Qed.
Lemma check_alike l l' r r' op : alike l l' -> alike r r' -> is_null_check l r op = is_null_check l' r' op.
Proof. intros A B. unfold is_null_check. rewrite (null_alike _ _ A), (null_alike _ _ B). reflexivity. Qed.
Lemma base_cond n : is_arith_base n = false -> cond n.
Proof. destruct n; try discriminate; intros _; exact Logic.I. Qed.
Definition same_bool (n : node) : Prop := forall n', alike n n' -> cond n -> bool_eval E d n = bool_eval E d' n'.
Lemma item_alike n n' : same_bool n -> alike n n' -> item_eval E d n = item_eval E d' n'.
Proof.
  intros H A. unfold item_eval. rewrite <- (base_alike _ _ A). destruct (is_arith_base n) eqn:B; [apply arith_alike, A|]. rewrite (H n' A (base_cond _ B)). reflexivity.
Qed.
Lemma operand_alike n n' : same_bool n -> alike n n' -> operand_value E d n = operand_value E d' n'.
Proof.
  intros H A. unfold operand_value. rewrite <- (base_alike _ _ A). destruct (is_arith_base n) eqn:B; [|rewrite (H n' A (base_cond _ B)); reflexivity].
  pose proof (arith_alike _ _ A) as X. inversion A; subst; try discriminate B; try reflexivity; try (rewrite X; reflexivity). apply RV. assumption.
Qed.
Lemma bool_alike n : same_bool n.
Proof.
  induction n using node_ind'; intros n' A C; inversion A; subst; try reflexivity.
  - cbn [cond] in C. subst. reflexivity.
  - rewrite !cmp_unfold. rewrite (operand_alike n1 l' IHn1), (operand_alike n2 r' IHn2), (check_alike n1 l' n2 r') by assumption. reflexivity.
  - cbn [bool_eval]. rewrite (or_fail f f') by assumption. reflexivity.
  - rewrite !in_unfold. rewrite (or_fail f f') by assumption. rewrite Forall_forall in H. erewrite (mapM_alike _ _ (item_eval E d)); [reflexivity|eassumption|]. intros a a' I. apply item_alike; auto.
  - rewrite !array_unfold. rewrite (or_fail f f') by assumption. rewrite Forall_forall in H. erewrite (mapM_alike _ _ (item_eval E d)); [reflexivity|eassumption|]. intros a a' I. apply item_alike; auto.
  - cbn [opt_P] in H. cbn [bool_eval]. rewrite (IHn l'), (H r') by assumption. reflexivity.
  - cbn [bool_eval]. rewrite (IHn l') by assumption. reflexivity.
  - cbn [bool_eval dtype_eqb to_string bind]. change (show (VStr f)) with f. change (show (VStr f')) with f'. rewrite (or_fail (Some f) (Some f')) by assumption. reflexivity.
Qed.
End Nodes.

(** ** The trees the parser makes *)
Section Trees.
Context (R : option jstr -> option jstr -> Prop) (dflt dflt' : option jstr) (RD : R dflt dflt').
Notation alike := (alike R).

Definition a_name (f : jstr) : Prop := is_blank f = false /\ convert_value f STRING = Ok (VStr f).
Definition twin_token (x x' : token) : Prop :=
  (kind x = T_FIELD /\ kind x' = T_FIELD /\ a_name (text x) /\ a_name (text x') /\ R (Some (text x)) (Some (text x'))) \/ (kind x <> T_FIELD /\ x' = x /\ is_blank (text x) = false).
Inductive twin : ptree -> ptree -> Prop :=
| tw_paren t t' : twin t t' -> twin (PParen t) (PParen t')
| tw_not nt t t' : twin t t' -> (forall x, lone t = Some x -> In (kind x) [T_FIELD; T_TRUE; T_FALSE]) -> twin (PNot nt t) (PNot nt t')
| tw_neg t t' : twin t t' -> twin (PNeg t) (PNeg t')
| tw_func fn items items' : Forall2 twin items items' -> twin (PFunc fn items) (PFunc fn items')
| tw_types x x' : twin_token x x' -> twin (PTypes x) (PTypes x')
| tw_eps x : kind x <> T_FIELD -> twin (PEps x) (PEps x)
| tw_to f f' lo tt hi : kind f = T_FIELD -> twin_token f f' -> twin (PTo f lo tt hi) (PTo f' lo tt hi)
| tw_in f f' neg it items items' : kind f = T_FIELD -> twin_token f f' -> Forall2 twin items items' -> twin (PIn f neg it items) (PIn f' neg it items')
| tw_array f f' op items items' : kind f = T_FIELD -> twin_token f f' -> Forall2 twin items items' -> twin (PArray f op items) (PArray f' op items')
| tw_cmp l l' op r r' : twin l l' -> twin r r' -> twin (PCmp l op r) (PCmp l' op r')
| tw_arith l l' op r r' : twin l l' -> twin r r' -> twin (PArith l op r) (PArith l' op r')
| tw_bin l l' op r r' : twin l l' -> twin r r' -> twin (PBin l op r) (PBin l' op r').

Definition rel {A} (P : A -> A -> Prop) (r r' : res A) : Prop := match r, r' with Ok a, Ok a' => P a a' | Err e, Err e' => e = e' | _, _ => False end.
Lemma rel_bind A B (P : A -> A -> Prop) (Q : B -> B -> Prop) r r' k k' : rel P r r' -> (forall a a', r = Ok a -> r' = Ok a' -> P a a' -> rel Q (k a) (k' a')) -> rel Q (bind r k) (bind r' k').
Proof. intros H K. destruct r, r'; cbn in *; try contradiction; [auto|assumption]. Qed.

Lemma type_twin x x' : twin_token x x' -> token_data_type x = token_data_type x'.
Proof. intros [[K [K' _]]|[_ [-> _]]]; [|reflexivity]. unfold token_data_type. rewrite K, K'. reflexivity. Qed.
Lemma start_twin t t' : twin t t' -> token_data_type (start t) = token_data_type (start t').
Proof.
  revert t'. induction t using ptree_ind'; intros t' T; inversion T; subst; cbn [start]; try reflexivity; auto using type_twin; discriminate.
Qed.
Lemma token_twin x x' : twin_token x x' -> rel alike (map_types_token dflt x) (map_types_token dflt' x').
Proof.
  intros [[K [K' [[B C] [[B' C'] H]]]]|[K [-> B]]]; unfold map_types_token.
  - rewrite K, K', B, B'. cbn. apply al_field, H.
  - assert (X : forall D, (match kind x with T_FIELD => Ok (NField (if is_blank (text x) then D else Some (text x))) | _ => if is_blank (text x) then Ok (NField D) else v <- convert_value (text x) (token_data_type x);; Ok (NUnary (token_data_type x) v) end)
       = (v <- convert_value (text x) (token_data_type x);; Ok (NUnary (token_data_type x) v))) by (intros D; rewrite B; destruct (kind x); try reflexivity; contradiction).
    rewrite !X. destruct (convert_value (text x) (token_data_type x)); cbn; [apply al_unary|reflexivity].
Qed.
Lemma field_twin f f' : kind f = T_FIELD -> twin_token f f' -> rel R (named_field dflt f) (named_field dflt' f').
Proof. intros K [[_ [K' [[B _] [[B' _] H]]]]|[X _]]; [|contradiction]. unfold named_field. rewrite B, B'. cbn. exact H. Qed.
Lemma as_types_twin t t' : twin t t' -> match as_types dflt t, as_types dflt' t' with Some r, Some r' => rel alike r r' | None, None => True | _, _ => False end.
Proof. intros T. inversion T; subst; cbn [as_types]; try exact Logic.I; [apply token_twin; assumption|]. cbn. apply al_field, RD. Qed.
Lemma parent_twin t t' : twin t t' -> is_parent t = is_parent t'.
Proof. intros T. inversion T; reflexivity. Qed.

Definition stk : list node -> list node -> Prop := Forall2 (fun n n' => alike n n' /\ cond n).
Definition out (x x' : node * list node) : Prop := alike (fst x) (fst x') /\ stk (snd x) (snd x').
Definition outs (x x' : list node * list node) : Prop := Forall2 alike (fst x) (fst x') /\ stk (snd x) (snd x').
Lemma steals_twin l l' r r' s s' : twin l l' -> twin r r' -> stk s s' -> steals l r s = steals l' r' s'.
Proof.
  intros A B S. unfold steals. rewrite (parent_twin _ _ A), (parent_twin _ _ B). destruct S as [|n n' s s' [H _] S]; [reflexivity|]. f_equal. f_equal. inversion H; reflexivity.
Qed.
Lemma pop_twin s s' : stk s s' -> rel out (pop s) (pop s').
Proof. intros S. destruct S as [|n n' s s' [H _] S]; [reflexivity|]. split; assumption. Qed.
Definition contexts (t : ptree) : Prop := forall t' s s', twin t t' -> stk s s' -> rel out (map_context dflt t s) (map_context dflt' t' s').
Lemma elements_twin items : Forall contexts items -> forall items' s s', Forall2 twin items items' -> stk s s' -> rel outs (map_elements dflt items s) (map_elements dflt' items' s').
Proof.
  induction 1 as [|t items H F IH]; intros items' s s' T S; inversion T; subst; cbn [map_elements]; [split; [apply Forall2_nil|exact S]|].
  eapply rel_bind; [apply H; eassumption|]. intros [n r] [n' r'] _ _ [A B]. cbn [fst snd] in *. eapply rel_bind; [apply IH; eassumption|].
  intros [ns q] [ns' q'] _ _ [C D]. cbn [fst snd] in *. split; [apply Forall2_cons; assumption|exact D].
Qed.
Lemma context_twin t : contexts t.
Proof.
  induction t using ptree_ind'; intros t' s s' T S; inversion T; subst; try reflexivity; try discriminate.
  - rewrite !context_func. destruct (function_of (kind fn)); [|reflexivity]. eapply rel_bind; [apply elements_twin; eassumption|].
    intros [ns q] [ns' q'] _ _ [C D]. split; [apply al_func, C|exact D].
  - cbn [map_context]. eapply rel_bind; [apply token_twin; eassumption|]. intros n n' _ _ A. split; assumption.
  - cbn. split; [apply al_field, RD|exact S].
  - cbn [map_context]. eapply rel_bind; [apply field_twin; eassumption|]. intros x x' _ _ A.
    destruct (convert_value (text lo) (token_data_type lo)); [|reflexivity]. destruct (convert_value (text hi) (token_data_type hi)); [|reflexivity]. split; [apply al_range, A|exact S].
  - rewrite !context_in. eapply rel_bind; [apply field_twin; eassumption|]. intros x x' _ _ A.
    eapply rel_bind; [apply elements_twin; eassumption|]. intros [ns q] [ns' q'] _ _ [C D]. cbn [fst snd] in *.
    split; [|exact D]. cbn [fst]. destruct neg; [apply al_not; [exact Logic.I|]|]; apply al_in; assumption.
  - cbn [map_context]. rewrite <- (steals_twin t1 l' t2 r' s s'), <- (start_twin t1 l'), <- (start_twin t2 r') by assumption.
    assert (Plain : rel out (bs <- map_context dflt t2 s;; as_ <- map_context dflt t1 (snd bs);; Ok (NCmp (fst as_) (fst bs) (operator_of (kind op)) (token_data_type (start t2)), snd as_))
      (bs <- map_context dflt' r' s';; as_ <- map_context dflt' l' (snd bs);; Ok (NCmp (fst as_) (fst bs) (operator_of (kind op)) (token_data_type (start t2)), snd as_))).
    { eapply rel_bind; [apply IHt2; eassumption|]. intros [b q] [b' q'] _ _ [C D]. cbn [fst snd] in *. eapply rel_bind; [apply IHt1; eassumption|].
      intros [a q1] [a' q1'] _ _ [C1 D1]. cbn [fst snd] in *. split; [apply al_cmp; assumption|exact D1]. }
    pose proof (as_types_twin t1 l' ltac:(assumption)) as X. pose proof (as_types_twin t2 r' ltac:(assumption)) as Y.
    destruct (steals t1 t2 s); [|exact Plain].
    destruct (as_types dflt t1) as [ml|], (as_types dflt' l') as [ml'|]; try contradiction.
    + eapply rel_bind; [exact X|]. intros a a' _ _ A. eapply rel_bind; [apply pop_twin, S|]. intros [b q] [b' q'] _ _ [C D]. cbn [fst snd] in *. split; [apply al_cmp; assumption|exact D].
    + destruct (as_types dflt t2) as [mr|], (as_types dflt' r') as [mr'|]; try contradiction; [|exact Plain].
      eapply rel_bind; [exact Y|]. intros a a' _ _ A. eapply rel_bind; [apply pop_twin, S|]. intros [b q] [b' q'] _ _ [C D]. cbn [fst snd] in *. split; [apply al_cmp; assumption|exact D].
  - cbn [map_context]. pose proof (as_types_twin t1 l' ltac:(assumption)) as X. pose proof (as_types_twin t2 r' ltac:(assumption)) as Y.
    destruct (as_types dflt t1) as [ml|], (as_types dflt' l') as [ml'|]; try contradiction;
      destruct (as_types dflt t2) as [mr|], (as_types dflt' r') as [mr'|]; try contradiction.
    + eapply rel_bind; [exact X|]. intros a a' _ _ A. eapply rel_bind; [exact Y|]. intros b b' _ _ B. split; [apply al_arith; assumption|exact S].
    + eapply rel_bind; [exact X|]. intros a a' _ _ A. eapply rel_bind; [apply pop_twin, S|]. intros [b q] [b' q'] _ _ [C D]. cbn [fst snd] in *. split; [apply al_arith; assumption|exact D].
    + eapply rel_bind; [exact Y|]. intros a a' _ _ A. eapply rel_bind; [apply pop_twin, S|]. intros [b q] [b' q'] _ _ [C D]. cbn [fst snd] in *. split; [apply al_arith; assumption|exact D].
    + destruct S as [|b b' s s' [Hb _] S]; [reflexivity|]. destruct S as [|a a' s s' [Ha _] S]; [reflexivity|]. split; [apply al_arith; assumption|exact S].
Qed.
Lemma context_cond D t s n r : map_context D t s = Ok (n, r) -> as_types D t = None -> cond n.
Proof.
  intros H T. destruct t; try discriminate T; try (cbn in H; discriminate H).
  - rewrite context_func in H. destruct (function_of (kind fn)); [|discriminate]. apply bind_ok in H. destruct H as [x [_ H]]. injection H as <- _. exact Logic.I.
  - cbn [map_context] in H. apply bind_ok in H. destruct H as [x [_ H]]. apply bind_ok in H. destruct H as [y [_ H]]. apply bind_ok in H. destruct H as [z [_ H]]. injection H as <- _. exact Logic.I.
  - rewrite context_in in H. apply bind_ok in H. destruct H as [x [_ H]]. apply bind_ok in H. destruct H as [y [_ H]]. injection H as <- _. destruct neg; exact Logic.I.
  - cbn [map_context] in H.
    destruct (steals t1 t2 s), (as_types D t1), (as_types D t2); repeat (apply bind_ok in H; let x := fresh in destruct H as [x [_ H]]); injection H as <- _; exact Logic.I.
  - cbn [map_context] in H.
    destruct (as_types D t1), (as_types D t2); repeat (apply bind_ok in H; let x := fresh in destruct H as [x [_ H]]); try (injection H as <- _; exact Logic.I).
    destruct s as [|b [|a s]]; try discriminate H. injection H as <- _. exact Logic.I.
  - cbn [map_context] in H. repeat (apply bind_ok in H; let x := fresh in destruct H as [x [_ H]]); discriminate.
  - cbn [map_context] in H. repeat (apply bind_ok in H; let x := fresh in destruct H as [x [_ H]]); injection H as <- _; exact Logic.I.
  - cbn [map_context] in H. repeat (apply bind_ok in H; let x := fresh in destruct H as [x [_ H]]); discriminate.
Qed.

Definition lt (o o' : option token) : Prop := match o, o' with None, None => True | Some x, Some x' => twin_token x x' \/ (x = x' /\ kind x <> T_FIELD) | _, _ => False end.
Definition st_rel (a a' : lstate) : Prop := stk (stack a) (stack a') /\ lt (last_token a) (last_token a') /\ token_count a = token_count a'.
Lemma push_twin t t' a a' : twin t t' -> as_types dflt t = None -> st_rel a a' -> rel st_rel (push_context dflt t a) (push_context dflt' t' a').
Proof.
  intros T N [S [L C]]. unfold push_context. eapply rel_bind; [apply context_twin; eassumption|]. intros [n r] [n' r'] M _ [A B]. cbn [fst snd] in *.
  split; [|split; assumption]. cbn [stack]. apply Forall2_cons; [|exact B]. split; [exact A|]. eapply context_cond; eassumption.
Qed.
Definition walks (t : ptree) : Prop := forall t' a a', twin t t' -> st_rel a a' -> rel st_rel (walk dflt t a) (walk dflt' t' a').
Lemma walk_list_twin items : Forall walks items -> forall items' a a', Forall2 twin items items' -> st_rel a a' -> rel st_rel (walk_list dflt items a) (walk_list dflt' items' a').
Proof.
  induction 1 as [|t items H F IH]; intros items' s s' T S; inversion T; subst; [exact S|]. unfold walk_list. fold (walk_list dflt). fold (walk_list dflt').
  eapply rel_bind; [apply H; eassumption|]. intros a a' _ _ A. apply IH; assumption.
Qed.
Lemma single_core t x : core t = PTypes x \/ core t = PEps x -> lone t = Some x.
Proof. induction t; cbn; try (intros [X|X]; discriminate X); auto; intros [X|X]; congruence. Qed.
Lemma walk_single t st st' : walk dflt t st = Ok st' -> stack st' = [] -> twin t t \/ (exists t', twin t t') -> exists x, last_token st' = Some x /\ lone t = Some x.
Proof.
  intros W S T. destruct (walk_empty dflt t st st' W S) as [B|[x [L C]]].
  - exfalso. assert (X : exists t', twin t t') by (destruct T; eauto). destruct X as [t' X]. clear -B X. revert t' X.
    induction t; intros t' X; cbn in B; try discriminate; inversion X; subst; eauto.
  - exists x. split; [exact L|apply single_core, C].
Qed.
Lemma walk_twin t : walks t.
Proof.
  induction t using ptree_ind'; intros t' a a' T S; inversion T; subst; try discriminate.
  - cbn [walk]. apply IHt; assumption.
  - cbn [walk]. eapply rel_bind; [apply IHt; eassumption|]. intros b b' W _ [B [L C]]. unfold exit_not. inversion B as [Sb Sb'|n n' q q' [Hn Cn] B' Sb Sb'].
    + destruct (walk_single t a b W (eq_sym Sb)) as [x [Lx Sx]]; [eauto|]. rewrite Lx in *. destruct (last_token b') as [x'|] eqn:Lx'; [|contradiction L].
      match goal with H : forall x, lone t = Some x -> _ |- _ => specialize (H x Sx); rename H into K end. cbn [lt] in L.
      assert (Z : (kind x = T_FIELD /\ kind x' = T_FIELD /\ a_name (text x) /\ a_name (text x') /\ R (Some (text x)) (Some (text x'))) \/ (x' = x /\ (kind x = T_TRUE \/ kind x = T_FALSE))).
      { destruct L as [[L|[N [-> _]]]|[L N]].
        - left; exact L.
        - right. split; [reflexivity|]. destruct K as [K|[K|[K|[]]]]; auto. congruence.
        - subst x'. destruct K as [K|[K|[K|[]]]]; auto. congruence. }
      destruct Z as [Z|[-> K1]].
      * pose proof Z as Z'. destruct Z' as [K1 [K2 [[_ N1] [[_ N2] H]]]]. unfold token_data_type. rewrite K1, K2, N1, N2. cbn [bind rel]. split; [|split; [left; left; exact Z|exact C]]. cbn [stack]. apply Forall2_cons; [|apply Forall2_nil]. split; [apply al_name, H|exact Logic.I].
      * assert (Y : token_data_type x = BOOLEAN) by (unfold token_data_type; destruct K1 as [-> | ->]; reflexivity). rewrite Y.
        destruct (convert_value (text x) BOOLEAN); [|reflexivity]. split; [|split; [right; split; [reflexivity|destruct K1; congruence]|exact C]]. cbn [stack]. apply Forall2_cons; [|apply Forall2_nil]. split; [apply al_not; [reflexivity|apply al_unary]|exact Logic.I].
    + cbn [rel]. split; [|split; assumption]. cbn [stack]. apply Forall2_cons; [|assumption]. split; [apply al_not; assumption|exact Logic.I].
  - cbn [walk]. eapply rel_bind; [apply IHt; eassumption|]. intros b b' W _ [B [L C]]. unfold exit_unary.
    pose proof (as_types_twin t t'0 ltac:(assumption)) as X. inversion B as [Sb Sb'|n n' q q' [Hn Cn] B' Sb Sb'].
    + destruct (as_types dflt t), (as_types dflt' t'0); try contradiction; [|reflexivity]. eapply rel_bind; [exact X|]. intros m m' _ _ A. split; [|split; assumption].
      apply Forall2_cons; [|apply Forall2_nil]. split; [apply al_minus, A|exact Logic.I].
    + assert (Y : rel st_rel (match as_types dflt t with Some m => m0 <- m ;; Ok (LState (NArith m0 None UNARY :: n :: q) (last_token b) (token_count b)) | None => Err ClassCast end)
        (match as_types dflt' t'0 with Some m => m0 <- m ;; Ok (LState (NArith m0 None UNARY :: n' :: q') (last_token b') (token_count b')) | None => Err ClassCast end)).
      { destruct (as_types dflt t), (as_types dflt' t'0); try contradiction; [|reflexivity]. eapply rel_bind; [exact X|]. intros m m' _ _ A. split; [|split; assumption].
        cbn [stack]. apply Forall2_cons; [split; [apply al_minus, A|exact Logic.I]|]. apply Forall2_cons; [split; assumption|assumption]. }
      destruct Hn; try exact Y; (split; [|split; assumption]; cbn [stack]; apply Forall2_cons; [|assumption]; split; [|exact Logic.I]); [apply al_minus, al_arith|apply al_minus, al_minus]; assumption.
  - rewrite !walk_func. eapply rel_bind; [apply walk_list_twin; eassumption|]. intros b b' _ _ B. apply push_twin; auto.
  - cbn [walk rel]. destruct S as [S [L C]]. split; [exact S|]. split; [left; assumption|]. cbn. congruence.
  - cbn [walk rel]. destruct S as [S [L C]]. split; [exact S|]. split; [right; split; [reflexivity|assumption]|]. cbn. congruence.
  - cbn [walk]. apply push_twin; auto.
  - rewrite !walk_in. eapply rel_bind; [apply walk_list_twin; eassumption|]. intros b b' _ _ B. apply push_twin; auto.
  - rewrite !walk_array. eapply rel_bind; [apply walk_list_twin; eassumption|]. intros b b' _ _ [B [L C]]. unfold exit_array. eapply rel_bind; [apply field_twin; eassumption|].
    intros x x' _ _ A. eapply rel_bind; [apply elements_twin; [apply Forall_forall; intros i _; apply context_twin|eassumption|exact B]|].
    intros [ns q] [ns' q'] _ _ [D1 D2]. cbn [fst snd] in *. split; [|split; assumption]. cbn [stack]. apply Forall2_cons; [|exact D2]. split; [apply al_array; assumption|exact Logic.I].
  - cbn [walk]. eapply rel_bind; [apply IHt1; eassumption|]. intros b b' _ _ B. eapply rel_bind; [apply IHt2; eassumption|]. intros c c' _ _ C. apply push_twin; auto.
  - cbn [walk]. eapply rel_bind; [apply IHt1; eassumption|]. intros b b' _ _ B. eapply rel_bind; [apply IHt2; eassumption|]. intros c c' _ _ C. apply push_twin; auto.
  - cbn [walk]. eapply rel_bind; [apply IHt1; eassumption|]. intros b b' _ _ B. eapply rel_bind; [apply IHt2; eassumption|]. intros c c' _ _ [C1 [C2 C3]]. unfold exit_binary.
    destruct C1 as [|n n' q q' [Hn Cn] C1]; [reflexivity|]. destruct C1 as [|m m' q q' [Hm Cm] C1]; [reflexivity|].
    split; [|split; assumption]. cbn [stack]. apply Forall2_cons; [|exact C1]. split; [apply al_bool; assumption|exact Logic.I].
Qed.
Lemma listen_twin t t' : twin t t' -> rel (fun n n' => alike n n' /\ (not_literal t -> cond n)) (listen dflt t) (listen dflt' t').
Proof.
  intros T. unfold listen. eapply rel_bind; [apply (walk_twin t t' (LState [] None 0) (LState [] None 0) T)|].
  { split; [apply Forall2_nil|]. split; [exact Logic.I|reflexivity]. }
  intros b b' W _ [B [L C]]. unfold exit_parse. inversion B as [Sb Sb'|n n' q q' [Hn Cn] B' Sb Sb']; [|split; auto].
  destruct (walk_single t _ b W (eq_sym Sb)) as [x [Lx Sx]]; [eauto|]. rewrite Lx, <- C in *. destruct (last_token b') as [x'|] eqn:Lx'; [|contradiction L].
  destruct (token_count b) as [|[|k]]; try reflexivity. destruct L as [[[K1 [K2 [_ [_ H]]]]|[N [-> _]]]|[L NF]].
  - rewrite K1, K2. split; [apply al_field, H|intros _; exact Logic.I].
  - assert (NL : ~ not_literal t) by (intros Q; apply N, Q, Sx).
    destruct (kind x); try contradiction; (destruct (convert_value (text x) STRING); [|reflexivity]; cbn [bind]; destruct (to_string a); [|reflexivity]; split; [apply al_unary|contradiction]).
  - subst x'.
    assert (NL : ~ not_literal t) by (intros Q; apply NF, Q, Sx).
    destruct (kind x); try contradiction; (destruct (convert_value (text x) STRING); [|reflexivity]; cbn [bind]; destruct (to_string a); [|reflexivity]; split; [apply al_unary|contradiction]).
Qed.
End Trees.

(** ** From the tokens to the trees *)
Section Tokens.
Context (R : option jstr -> option jstr -> Prop).
Notation twin_token := (twin_token R).
Notation twin := (twin R).
Lemma other_token x x' : twin_token x x' -> kind x <> T_FIELD -> x' = x.
Proof. intros [[K _]|[_ [-> _]]] N; [contradiction|reflexivity]. Qed.
Lemma field_kind x x' : twin_token x x' -> kind x' = kind x.
Proof. intros [[K [K' _]]|[_ [-> _]]]; congruence. Qed.
Definition follows (x x' : token) : Prop := kind x' = kind x /\ (kind x <> T_FIELD -> x' = x).
Lemma follows_same x : follows x x.
Proof. split; auto. Qed.
Lemma follows_twin x x' : twin_token x x' -> follows x x'.
Proof. intros T. split; [apply field_kind, T|]. apply other_token, T. Qed.
Definition rebuilt (n : nat) (t : ptree) (next : token) : Prop := nots_named t -> forall ts', Forall2 twin_token (yield t) ts' ->
  exists t', yield t' = ts' /\ twin t t' /\ forall next', follows next next' -> reads n t' next'.
Definition rebuilt_items (items : list ptree) : Prop := Forall nots_named items -> forall ts', Forall2 twin_token (sep_yield items) ts' ->
  exists items', sep_yield items' = ts' /\ Forall2 twin items items' /\ reads_items items'.
Ltac others := repeat match goal with
  | H : Forall2 _ (_ :: _) _ |- _ => inversion H; clear H; subst
  | H : Forall2 _ [] _ |- _ => inversion H; clear H; subst
  | H : Forall2 _ (_ ++ _) _ |- _ => apply Forall2_app_inv_l in H; destruct H as (? & ? & ? & ? & ->)
  end.
Ltac same x := match goal with H : RenameFacts.twin_token _ x _ |- _ => let e := fresh in pose proof (other_token _ _ H ltac:(discriminate)) as e; subst; clear H end.
Lemma items_nonempty items items' : Forall2 twin items items' -> items <> [] -> items' <> [].
Proof. intros H. inversion H; subst; intros; [contradiction|discriminate]. Qed.
Lemma infix_rebuilt n m l op r next (con : ptree -> token -> ptree -> ptree) : kind op <> T_FIELD -> (forall a o b, yield (con a o b) = yield a ++ o :: yield b) ->
  (forall a b, reads m a op -> (forall next', follows next next' -> reads (S m) b next') -> forall next', follows next next' -> reads n (con a op b) next') ->
  (forall l' r', twin l l' -> twin r r' -> twin (con l op r) (con l' op r')) -> (nots_named (con l op r) -> nots_named l /\ nots_named r) ->
  rebuilt m l op -> rebuilt (S m) r next -> rebuilt n (con l op r) next.
Proof.
  intros K Y RE TW NN Hl Hr N ts' T. destruct (NN N) as [Nl Nr]. rewrite Y in T. apply Forall2_app_inv_l in T. destruct T as (u & v & T1 & T2 & ->). inversion T2 as [|? op' ? v' Top T3]; subst.
  rewrite (other_token _ _ Top K) in *. destruct (Hl Nl u T1) as (l' & <- & Tl & Rl). destruct (Hr Nr v' T3) as (r' & <- & Tr & Rr).
  exists (con l' op r'). split; [apply Y|]. split; [apply TW; assumption|]. apply RE; [apply Rl, follows_same|exact Rr].
Qed.
Lemma list_rebuilt items pre ts' : rebuilt_items items -> Forall nots_named items -> Forall2 twin_token (pre ++ lparen :: sep_yield items ++ [rparen]) ts' ->
  exists pre' items', Forall2 twin_token pre pre' /\ ts' = pre' ++ lparen :: sep_yield items' ++ [rparen] /\ Forall2 twin items items' /\ reads_items items'.
Proof.
  intros H N T. apply Forall2_app_inv_l in T. destruct T as (u & v & T1 & T2 & ->). inversion T2 as [|? lp ? v' T3 T4]; subst. apply Forall2_app_inv_l in T4. destruct T4 as (w & z & T5 & T6 & ->).
  inversion T6 as [|? rp ? z' T7 T8]; subst. inversion T8; subst. pose proof (other_token _ _ T3 ltac:(discriminate)) as ->. pose proof (other_token _ _ T7 ltac:(discriminate)) as ->.
  destruct (H N w T5) as (items' & <- & A & B). exists u, items'. auto.
Qed.
Lemma rebuild : (forall n t next, reads n t next -> rebuilt n t next) /\ (forall items, reads_items items -> rebuilt_items items).
Proof.
  apply (reads_mut rebuilt rebuilt_items).
  - intros n t next _ IH N ts' T. cbn [nots_named yield] in *. inversion T as [|? lp ? v T1 T2]; subst. apply Forall2_app_inv_l in T2. destruct T2 as (w & z & T3 & T4 & ->).
    inversion T4 as [|? rp ? z' T5 T6]; subst. inversion T6; subst. pose proof (other_token _ _ T1 ltac:(discriminate)) as ->. pose proof (other_token _ _ T5 ltac:(discriminate)) as ->.
    destruct (IH N w T3) as (t' & <- & Tt & Rt). exists (PParen t'). split; [reflexivity|]. split; [apply tw_paren, Tt|]. intros next' _. apply r_paren, Rt, follows_same.
  - intros n nt t next K _ IH [Q N] ts' T. cbn [yield] in T. inversion T as [|? nt' ? w T1 T2]; subst. pose proof (other_token _ _ T1 ltac:(congruence)) as ->.
    destruct (IH N w T2) as (t' & <- & Tt & Rt). exists (PNot nt t'). split; [reflexivity|]. split; [apply tw_not; assumption|]. intros next' F. apply r_not; auto.
  - intros n t next _ IH C N ts' T. cbn [yield nots_named] in *. inversion T as [|? mi ? w T1 T2]; subst. pose proof (other_token _ _ T1 ltac:(discriminate)) as ->.
    destruct (IH N w T2) as (t' & <- & Tt & Rt). exists (PNeg t'). split; [reflexivity|]. split; [apply tw_neg; assumption|]. intros next' F. apply r_neg; [auto|]. rewrite (proj1 F). exact C.
  - intros n tok next K N ts' T. cbn [yield] in T. inversion T as [|? x' ? w T1 T2]; subst. inversion T2; subst. exists (PTypes x'). split; [reflexivity|]. split; [apply tw_types, T1|].
    intros next' _. apply r_operand. rewrite (field_kind _ _ T1). exact K.
  - intros n next S N ts' T. cbn [yield] in T. inversion T; subst. exists (PEps next). assert (K : kind next <> T_FIELD) by (intros E; apply S; rewrite E; right; left; cbn; tauto).
    split; [reflexivity|]. split; [apply tw_eps, K|]. intros next' [_ F]. rewrite (F K). apply r_missing, S.
  - intros n f lo to hi next Kf Kl Kt Kh N ts' T. cbn [yield] in T. inversion T as [|? f' ? v1 T1 T2]; subst. inversion T2 as [|? lo' ? v2 T3 T4]; subst. inversion T4 as [|? to' ? v3 T5 T6]; subst. inversion T6 as [|? hi' ? v4 T7 T8]; subst. inversion T8; subst.
    assert (NK : forall k, number_kind k -> k <> T_FIELD) by (intros k [<-|[<-|[]]]; discriminate).
    pose proof (other_token _ _ T3 (NK _ Kl)) as ->. pose proof (other_token _ _ T5 ltac:(congruence)) as ->. pose proof (other_token _ _ T7 (NK _ Kh)) as ->.
    exists (PTo f' lo to hi). split; [reflexivity|]. split; [apply tw_to; assumption|]. intros next' _. apply r_range; try assumption. rewrite (field_kind _ _ T1). exact Kf.
  - intros n fn items next K _ IH N ts' T. cbn [nots_named] in N. apply all_forall in N. rewrite yield_func in T. destruct (list_rebuilt items [fn] ts' IH N T) as (pre' & items' & T1 & -> & T2 & T3).
    inversion T1 as [|? fn' ? v T4 T5]; subst. inversion T5; subst. assert (NK : kind fn <> T_FIELD) by (intros X; rewrite X in K; cbn in K; decompose [or] K; try discriminate; contradiction).
    pose proof (other_token _ _ T4 NK) as ->. exists (PFunc fn items'). split; [apply yield_func|]. split; [apply tw_func, T2|]. intros next' _. apply r_func; assumption.
  - intros n f it items next Kf Ki _ IH N ts' T. cbn [nots_named] in N. apply all_forall in N. rewrite yield_in in T. destruct (list_rebuilt items [f; it] ts' IH N T) as (pre' & items' & T1 & -> & T2 & T3).
    inversion T1 as [|? f' ? v T4 T5]; subst. inversion T5 as [|? it' ? v' T6 T7]; subst. inversion T7; subst. pose proof (other_token _ _ T6 ltac:(congruence)) as ->.
    exists (PIn f' None it items'). split; [apply yield_in|]. split; [apply tw_in; assumption|]. intros next' _. apply r_in; try assumption. rewrite (field_kind _ _ T4). exact Kf.
  - intros n f nt it items next Kf Kn Ki _ IH N ts' T. cbn [nots_named] in N. apply all_forall in N. rewrite yield_in in T. destruct (list_rebuilt items [f; nt; it] ts' IH N T) as (pre' & items' & T1 & -> & T2 & T3).
    inversion T1 as [|? f' ? v T4 T5]; subst. inversion T5 as [|? nt' ? v' T6 T7]; subst. inversion T7 as [|? it' ? v'' T8 T9]; subst. inversion T9; subst.
    pose proof (other_token _ _ T6 ltac:(congruence)) as ->. pose proof (other_token _ _ T8 ltac:(congruence)) as ->.
    exists (PIn f' (Some nt) it items'). split; [apply yield_in|]. split; [apply tw_in; assumption|]. intros next' _. apply r_not_in; try assumption. rewrite (field_kind _ _ T4). exact Kf.
  - intros n f op items next Kf Ko _ IH N ts' T. cbn [nots_named] in N. apply all_forall in N. rewrite yield_array in T. destruct (list_rebuilt items [f; op] ts' IH N T) as (pre' & items' & T1 & -> & T2 & T3).
    inversion T1 as [|? f' ? v T4 T5]; subst. inversion T5 as [|? op' ? v' T6 T7]; subst. inversion T7; subst. pose proof (other_token _ _ T6 ltac:(destruct Ko; congruence)) as ->.
    exists (PArray f' op items'). split; [apply yield_array|]. split; [apply tw_array; assumption|]. intros next' _. apply r_array; try assumption. rewrite (field_kind _ _ T4). exact Kf.
  - intros n m l op r next C L Le _ Hl _ Hr. apply (infix_rebuilt n m l op r next PCmp); auto using tw_cmp.
    + intros X. rewrite X in C. cbn in C. decompose [or] C; try discriminate; contradiction.
    + intros a b Ra Rb next' F. eapply r_cmp; eauto.
  - intros n m l op r next C L Le _ Hl _ Hr. apply (infix_rebuilt n m l op r next PArith); auto using tw_arith.
    + intros X. rewrite X in C. cbn in C. decompose [or] C; try discriminate; contradiction.
    + intros a b Ra Rb next' F. eapply r_arith; eauto.
  - intros n m l op r next C L Le _ Hl _ Hr. apply (infix_rebuilt n m l op r next PBin); auto using tw_bin.
    + intros X. rewrite X in C. cbn in C. decompose [or] C; try discriminate; contradiction.
    + intros a b Ra Rb next' F. eapply r_bin; eauto.
  - intros t _ IH N ts' T. inversion N; subst. destruct (IH ltac:(assumption) ts' T) as (t' & <- & Tt & Rt). exists [t']. split; [reflexivity|]. split; [apply Forall2_cons; [exact Tt|apply Forall2_nil]|]. apply r_last, Rt, follows_same.
  - intros t ts _ IH RI IHs N ts' T. inversion N; subst. pose proof (reads_items_nonempty _ RI) as NE. rewrite sep_yield_cons in T by exact NE.
    apply Forall2_app_inv_l in T. destruct T as (u & v & T1 & T2 & ->). inversion T2 as [|? c ? w T3 T4]; subst. pose proof (other_token _ _ T3 ltac:(discriminate)) as ->.
    destruct (IH ltac:(assumption) u T1) as (t' & <- & Tt & Rt). destruct (IHs ltac:(assumption) w T4) as (ts'' & <- & Tts & Rts).
    exists (t' :: ts''). split; [apply sep_yield_cons, (items_nonempty _ _ Tts NE)|]. split; [apply Forall2_cons; assumption|]. apply r_more; [apply Rt, follows_same|exact Rts].
Qed.
End Tokens.

(** ** The texts *)
Section Texts.
Context (E : env) (d d' : data) (P : proper_data d) (P' : proper_data d').
Definition stands (o o' : option jstr) : Prop := renamed_default d d' o o'.
Lemma stands_value o o' : stands o o' -> field_value o d = field_value o' d'.
Proof.
  destruct o as [f|], o' as [f'|]; cbn [stands renamed_default]; try contradiction; [|reflexivity]. intros [(ks & ks' & L & L' & H) _]. cbn [field_value]. unfold get_value_from_map.
  rewrite (names_split _ _ L), (names_split _ _ L'). pose proof (names_nonempty _ _ L) as N. pose proof (names_nonempty _ _ L') as N'.
  destruct (get_path_total ks d N) as [o G]. destruct (get_path_total ks' d' N') as [o' G']. rewrite G, G'. f_equal.
  destruct o as [v|].
  - apply (get_path_found ks d v P N) in G. apply H in G. apply (get_path_found ks' d' v P' N') in G. congruence.
  - destruct o' as [v|]; [|reflexivity]. apply (get_path_found ks' d' v P' N') in G'. apply H in G'. apply (get_path_found ks d v P N) in G'. congruence.
Qed.
Lemma stands_null o o' : stands o o' -> field_is_null o = field_is_null o'.
Proof.
  destruct o as [f|], o' as [f'|]; cbn [stands renamed_default]; try contradiction; [|reflexivity]. intros [_ H]. cbn [field_is_null]. f_equal. unfold equals_ignore_case.
  change (to_lower (J "null")) with (J "null"). apply eq_true_iff_eq. rewrite !jstr_eqb_iff. exact H.
Qed.
Lemma genuine_name x : genuine x -> kind x = T_FIELD -> a_name (text x).
Proof.
  intros G K. split; [apply genuine_not_blank, G|]. destruct (genuine_rule x G) as [r [I M]]. rewrite K in I. unfold lexicon in I. cbn [In] in I.
  repeat (destruct I as [I|I]; [try discriminate I|]); try contradiction. injection I as <-. apply (matches_plus _ _ _ single_field) in M. destruct M as [N F].
  unfold convert_value, quoted_by. destruct (text x) as [|c f]; [contradiction|]. cbn [forallb] in F. apply andb_true_iff in F. destruct F as [F _].
  assert (NC : (c =? ch "'")%N = false /\ (c =? 34)%N = false).
  { split; apply N.eqb_neq; intros ->; vm_compute in F; discriminate. }
  destruct NC as [-> ->]. reflexivity.
Qed.
Lemma renamed_twin ts ts' : Forall genuine ts -> Forall genuine ts' -> Forall2 (renamed d d') ts ts' -> Forall2 (twin_token stands) ts ts'.
Proof.
  intros G G' F. induction F as [|x x' ts ts' H F IH]; [apply Forall2_nil|]. inversion G; inversion G'; subst. apply Forall2_cons; [|auto].
  destruct H as [[K [K' H]]|[K ->]]; [left|right].
  - split; [exact K|]. split; [exact K'|]. split; [apply genuine_name; assumption|]. split; [apply genuine_name; assumption|]. exact H.
  - split; [exact K|]. split; [reflexivity|]. apply genuine_not_blank. assumption.
Qed.
Lemma parse_renamed s s' t ts' dflt dflt' : renamed_default d d' dflt dflt' -> lex s = Ok (yield t) -> reads 0 t eof -> nots_named t -> lex s' = Ok ts' -> Forall2 (renamed d d') (yield t) ts' ->
  rel (fun n n' => alike stands n n' /\ (not_literal t -> cond n)) (parse_expression s dflt) (parse_expression s' dflt').
Proof.
  intros D L RE N L' F. pose proof (renamed_twin _ _ (lex_genuine _ _ L) (lex_genuine _ _ L') F) as T.
  destruct (proj1 (rebuild stands) 0 t eof RE N ts' T) as (t' & Y & TW & RE'). specialize (RE' eof (follows_same eof)).
  unfold parse_expression. rewrite L, L', <- Y. cbn [bind]. rewrite (parse_any_complete t RE), (parse_any_complete t' RE'). cbn [bind]. apply listen_twin; assumption.
Qed.
Lemma boolean_renamed s s' t ts' dflt dflt' : renamed_default d d' dflt dflt' -> lex s = Ok (yield t) -> reads 0 t eof -> nots_named t -> not_literal t -> lex s' = Ok ts' -> Forall2 (renamed d d') (yield t) ts' ->
  evaluate_boolean E s d dflt = evaluate_boolean E s' d' dflt'.
Proof.
  intros D L RE N NL L' F. pose proof (parse_renamed s s' t ts' dflt dflt' D L RE N L' F) as H. unfold evaluate_boolean.
  destruct (parse_expression s dflt) as [n|e], (parse_expression s' dflt') as [n'|e']; cbn in H; try contradiction; [|subst; reflexivity]. cbn [bind]. destruct H as [A C].
  apply (bool_alike stands E d d' stands_value stands_null); auto.
Qed.
Lemma arith_renamed s s' t ts' : lex s = Ok (yield t) -> reads 0 t eof -> nots_named t -> lex s' = Ok ts' -> Forall2 (renamed d d') (yield t) ts' ->
  evaluate_arith E s d = evaluate_arith E s' d'.
Proof.
  intros L RE N L' F. pose proof (parse_renamed s s' t ts' None None Logic.I L RE N L' F) as H. unfold evaluate_arith.
  destruct (parse_expression s None) as [n|e], (parse_expression s' None) as [n'|e']; cbn in H; try contradiction; [|subst; reflexivity]. cbn [bind]. destruct H as [A _].
  apply (arith_alike stands E d d' stands_value); auto.
Qed.
End Texts.

(** ** Nested data *)
Lemma nested_found p d ks v : ks <> [] -> found (nested p d) (p :: ks) v <-> found d ks v.
Proof.
  intros N. split; intros H.
  - inversion H as [? ? ? I|? ? es ? ? I F]; subst; [contradiction|]. destruct I as [I|[]]. injection I as <-. exact F.
  - eapply found_step; [left; reflexivity|exact H].
Qed.
Lemma under_leads p f ks : ~ In (ch ".") p -> f <> [] -> leads_to f ks -> leads_to (under p f) (p :: ks).
Proof.
  intros D N L. inversion L as [|ks' n Hn Hd Hl]; subst; [contradiction|]. unfold under. destruct ks as [|k ks]; [contradiction|].
  replace (p ++ J "." ++ path_text (k :: ks) ++ SpecName.dots n) with (path_text (p :: k :: ks) ++ SpecName.dots n).
  - apply names_keys; [discriminate| |exact Hl]. intros x [<-|I]; [exact D|apply Hd, I].
  - change (path_text (p :: k :: ks)) with (p ++ J "." ++ path_text (k :: ks)). rewrite <- !app_assoc. reflexivity.
Qed.
Lemma key_no_dot p : a_key p -> ~ In (ch ".") p.
Proof. intros [H _] I. rewrite Forall_forall in H. destruct (H _ I) as [X|X]; vm_compute in X; discriminate. Qed.
Lemma dot_lower f : In (ch ".") f -> In (ch ".") (to_lower f).
Proof. intros I. apply in_map_iff. exists (ch "."). split; [reflexivity|exact I]. Qed.
Lemma under_dot p f : In (ch ".") (under p f).
Proof. unfold under. apply in_or_app. right. left. reflexivity. Qed.
Lemma under_stands p d f : a_key p -> plain_name f -> stands_for d (nested p d) f (under p f).
Proof.
  intros K [N1 N2]. split.
  - destruct (every_name f) as [[n X]|[ks L]]; [exfalso; apply (N1 _ X)|]. exists ks, (p :: ks). split; [exact L|]. split; [apply under_leads; [apply key_no_dot, K|apply (N1 0)|exact L]|].
    intros v. symmetry. apply nested_found, (names_nonempty _ _ L).
  - split; intros X; [contradiction|]. exfalso. pose proof (dot_lower _ (under_dot p f)) as I. rewrite X in I. vm_compute in I. decompose [or] I; try discriminate; contradiction.
Qed.
Lemma keyword_no_dot w : keyword w -> ~ In (ch ".") w.
Proof.
  intros (k & up & lo & I & W) D. assert (F : forallb (fun e : tkind * jstr * jstr => negb (existsb (N.eqb (ch ".")) (snd (fst e))) && negb (existsb (N.eqb (ch ".")) (snd e))) keywords = true) by (vm_compute; reflexivity).
  rewrite forallb_forall in F. specialize (F _ I). cbn [fst snd] in F. apply andb_true_iff in F. destruct F as [F1 F2].
  assert (Z : existsb (N.eqb (ch ".")) w = true) by (apply existsb_exists; exists (ch "."); split; [exact D|apply N.eqb_refl]).
  destruct W as [-> | ->]; rewrite Z in *; discriminate.
Qed.
Lemma under_name p f : a_key p -> forallb is_field_char f = true -> field_name (under p f).
Proof.
  intros [K1 K2] F. split; [|split].
  - unfold under. apply Forall_app. split; [|apply Forall_app; split].
    + rewrite Forall_forall in *. intros c I. unfold word_char. destruct (K1 c I) as [-> | ->]; reflexivity.
    + repeat constructor.
    + rewrite forallb_forall in F. apply Forall_forall. exact F.
  - unfold under. apply Exists_exists in K2. destruct K2 as [c [I D]]. apply Exists_exists. exists c. split; [apply in_or_app; left; exact I|]. split; [exact D|]. intros ->.
    apply (key_no_dot p); [|exact I]. split; [exact K1|]. apply Exists_exists. eauto.
  - intros W. apply (keyword_no_dot _ W), under_dot.
Qed.
Lemma genuine_chars x : genuine x -> kind x = T_FIELD -> forallb is_field_char (text x) = true.
Proof.
  intros G K. destruct (genuine_rule x G) as [r [I M]]. rewrite K in I. unfold lexicon in I. cbn [In] in I.
  repeat (destruct I as [I|I]; [try discriminate I|]); try contradiction. injection I as <-. apply (matches_plus _ _ _ single_field) in M. apply M.
Qed.
Lemma under_genuine p ts : a_key p -> Forall genuine ts -> Forall genuine (map (under_token p) ts).
Proof.
  intros K G. apply Forall_forall. intros y I. apply in_map_iff in I. destruct I as [x [<- I]]. rewrite Forall_forall in G. specialize (G x I). unfold under_token.
  destruct (tkind_eq_dec (kind x) T_FIELD) as [Kx|]; [|exact G]. apply field_genuine, under_name; [exact K|apply genuine_chars; assumption].
Qed.
Lemma under_renamed p d ts : a_key p -> (forall x, In x ts -> kind x = T_FIELD -> plain_name (text x)) -> Forall2 (renamed d (nested p d)) ts (map (under_token p) ts).
Proof.
  intros K. induction ts as [|x ts IH]; intros H; [apply Forall2_nil|]. cbn [map]. apply Forall2_cons; [|apply IH; intros y I; apply H; right; exact I].
  unfold under_token. destruct (tkind_eq_dec (kind x) T_FIELD) as [Kx|Kx]; [left|right; auto]. split; [exact Kx|]. split; [reflexivity|]. apply under_stands; [exact K|]. apply H; [left; reflexivity|exact Kx].
Qed.
Lemma nested_proper p d : proper_data d -> proper_data (nested p d).
Proof.
  intros P. apply proper_map; [cbn; constructor; [intros []|constructor]|]. intros k v [I|[]]. injection I as <- <-. exact P.
Qed.
Lemma boolean_nested E d p s t dflt : proper_data d -> a_key p -> (forall x, In x (yield t) -> kind x = T_FIELD -> plain_name (text x)) -> (forall f, dflt = Some f -> plain_name f) ->
  lex s = Ok (yield t) -> reads 0 t eof -> nots_named t -> not_literal t ->
  evaluate_boolean E s d dflt = evaluate_boolean E (unwords (map text (map (under_token p) (yield t)))) (nested p d) (option_map (under p) dflt).
Proof.
  intros P K F D L RE N NL. eapply (boolean_renamed E d (nested p d) P (nested_proper p d P) s _ t).
  - destruct dflt as [f|]; [|exact Logic.I]. cbn. apply under_stands; auto.
  - exact L. - exact RE. - exact N. - exact NL.
  - apply unwords_lex, under_genuine; [exact K|]. apply (lex_genuine _ _ L).
  - apply under_renamed; assumption.
Qed.
Lemma arith_nested E d p s t : proper_data d -> a_key p -> (forall x, In x (yield t) -> kind x = T_FIELD -> plain_name (text x)) ->
  lex s = Ok (yield t) -> reads 0 t eof -> nots_named t ->
  evaluate_arith E s d = evaluate_arith E (unwords (map text (map (under_token p) (yield t)))) (nested p d).
Proof.
  intros P K F L RE N. eapply (arith_renamed E d (nested p d) P (nested_proper p d P) s _ t).
  - exact L. - exact RE. - exact N.
  - apply unwords_lex, under_genuine; [exact K|]. apply (lex_genuine _ _ L).
  - apply under_renamed; assumption.
Qed.
