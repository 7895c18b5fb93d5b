(** The default field. *)
From Verif Require Import RecoverFacts.
From Verif Require Import Base JNum Values Ops Funcs Ast Eval Lexer Grammar Listener Api SpecLex SpecGrammar SpecSyntax SpecText SpecDefault
  LexFacts LexSplit LexWords LexApi LexCases SyntaxFacts ParseFuel ParseFacts ParseShapes ListenFacts TextFacts TextApi.

(** The contexts left by a syntax error *)
Definition broken (t : ptree) : bool := match t with PBad _ | PFuncErr _ _ | PToErr _ _ | PToOdd _ _ _ _ | PInErr _ _ | PArrayErr _ _ => true | _ => false end.
Definition ptree_ind' (P : ptree -> Prop)
  (HParen : forall t, P t -> P (PParen t)) (HNot : forall nt t, P t -> P (PNot nt t)) (HNeg : forall t, P t -> P (PNeg t))
  (HFunc : forall fn items, Forall P items -> P (PFunc fn items)) (HTypes : forall tok, P (PTypes tok)) (HEps : forall next, P (PEps next))
  (HTo : forall f lo to hi, P (PTo f lo to hi)) (HIn : forall f neg it items, Forall P items -> P (PIn f neg it items))
  (HArray : forall f op items, Forall P items -> P (PArray f op items))
  (HCmp : forall l op r, P l -> P r -> P (PCmp l op r)) (HArith : forall l op r, P l -> P r -> P (PArith l op r)) (HBin : forall l op r, P l -> P r -> P (PBin l op r))
  (HBroken : forall t, broken t = true -> P t) :
  forall t, P t :=
  fix go (t : ptree) : P t :=
    let gos := fix gos (l : list ptree) : Forall P l := match l with [] => Forall_nil P | x :: l' => Forall_cons x (go x) (gos l') end in
    match t with
    | PParen t => HParen t (go t)
    | PNot nt t => HNot nt t (go t)
    | PNeg t => HNeg t (go t)
    | PFunc fn items => HFunc fn items (gos items)
    | PTypes tok => HTypes tok
    | PEps next => HEps next
    | PTo f lo to hi => HTo f lo to hi
    | PIn f neg it items => HIn f neg it items (gos items)
    | PArray f op items => HArray f op items (gos items)
    | PCmp l op r => HCmp l op r (go l) (go r)
    | PArith l op r => HArith l op r (go l) (go r)
    | PBin l op r => HBin l op r (go l) (go r)
    | t => HBroken t eq_refl
    end.

Lemma all_forall (f : ptree -> Prop) items : fold_right and True (map f items) <-> Forall f items.
Proof. induction items as [|i items IH]; cbn; split; intros H; auto; [destruct H; constructor; tauto|inversion H; tauto]. Qed.
Lemma sep_each i items : In i items -> Forall genuine (sep_yield items) -> Forall genuine (yield i).
Proof.
  induction items as [|j items IH]; intros I G; [contradiction|]. destruct items as [|k items].
  - destruct I as [->|[]]. exact G.
  - rewrite sep_yield_cons in G by discriminate. apply Forall_app in G. destruct G as [G1 G2]. inversion G2; subst. destruct I as [->|I]; auto.
Qed.

(** ** Nothing omitted *)
Section Irrelevant.
Context (d1 d2 : option jstr).
Lemma named_same t : genuine t -> named_field d1 t = named_field d2 t.
Proof. intros G. unfold named_field. rewrite (genuine_not_blank _ G). reflexivity. Qed.
Lemma types_same t : genuine t -> map_types_token d1 t = map_types_token d2 t.
Proof. intros G. unfold map_types_token. rewrite (genuine_not_blank _ G). reflexivity. Qed.
Lemma as_types_same t : complete t -> Forall genuine (yield t) -> as_types d1 t = as_types d2 t.
Proof. intros C G. destruct t; try reflexivity; try contradiction. inversion G; subst. cbn [as_types]. rewrite types_same by assumption. reflexivity. Qed.
Lemma elements_same items : Forall (fun t => complete t -> Forall genuine (yield t) -> forall s, map_context d1 t s = map_context d2 t s) items ->
  Forall complete items -> Forall genuine (sep_yield items) -> forall s, map_elements d1 items s = map_elements d2 items s.
Proof.
  intros H C G. assert (A : Forall (fun t => forall s, map_context d1 t s = map_context d2 t s) items).
  { rewrite Forall_forall in *. intros t I. apply H; [exact I|apply C, I|]. apply (sep_each t items I). rewrite Forall_forall. exact G. }
  clear H C G. induction A as [|t items A As IH]; intros s; [reflexivity|]. cbn [map_elements]. rewrite A. destruct (map_context d2 t s) as [[n r]|]; [|reflexivity]. cbn [bind snd]. rewrite IH. reflexivity.
Qed.
Lemma context_same t : complete t -> Forall genuine (yield t) -> forall s, map_context d1 t s = map_context d2 t s.
Proof.
  induction t using ptree_ind'; intros C G s; try reflexivity.
  - cbn [complete] in C. apply all_forall in C. rewrite !context_func. destruct (function_of (kind fn)); [|reflexivity].
    rewrite yield_func in G. rewrite (elements_same items H C (sep_genuine [fn] _ _ G)). reflexivity.
  - inversion G; subst. cbn [map_context]. rewrite types_same by assumption. reflexivity.
  - contradiction.
  - cbn [yield] in G. inversion G; subst. cbn [map_context]. rewrite named_same by assumption. reflexivity.
  - cbn [complete] in C. apply all_forall in C. rewrite !context_in. rewrite yield_in in G. assert (Gf : genuine f) by (inversion G; assumption). rewrite (named_same f Gf).
    destruct (named_field d2 f); [|reflexivity]. cbn [bind]. assert (Gs : Forall genuine (sep_yield items)) by (destruct neg as [ng|]; [exact (sep_genuine [f; ng; it] _ _ G)|exact (sep_genuine [f; it] _ _ G)]).
    rewrite (elements_same items H C Gs). reflexivity.
  - destruct C as [Cl Cr]. cbn [yield] in G. apply Forall_app in G. destruct G as [Gl G]. inversion G; subst. cbn [map_context].
    rewrite (as_types_same t1 Cl Gl), (as_types_same t2 Cr H2). rewrite (IHt2 Cr H2). destruct (map_context d2 t2 s) as [[n s']|] eqn:E2; cbn [bind fst snd]; [|reflexivity]. rewrite (IHt1 Cl Gl). reflexivity.
  - destruct C as [Cl Cr]. cbn [yield] in G. apply Forall_app in G. destruct G as [Gl G]. inversion G; subst. cbn [map_context].
    rewrite (as_types_same t1 Cl Gl), (as_types_same t2 Cr H2). reflexivity.
  - destruct t; try discriminate; contradiction.
Qed.
Lemma walk_list_same items : Forall (fun t => complete t -> Forall genuine (yield t) -> forall st, walk d1 t st = walk d2 t st) items ->
  Forall complete items -> Forall genuine (sep_yield items) -> forall st, walk_list d1 items st = walk_list d2 items st.
Proof.
  intros H C G. assert (A : Forall (fun t => forall st, walk d1 t st = walk d2 t st) items).
  { rewrite Forall_forall in *. intros t I. apply H; [exact I|apply C, I|]. apply (sep_each t items I). rewrite Forall_forall. exact G. }
  clear H C G. induction A as [|t items A As IH]; intros st; [reflexivity|].
  change (walk_list d1 (t :: items) st) with (st' <- walk d1 t st ;; walk_list d1 items st'). change (walk_list d2 (t :: items) st) with (st' <- walk d2 t st ;; walk_list d2 items st').
  rewrite A. destruct (walk d2 t st) as [st'|]; [|reflexivity]. cbn [bind]. apply IH.
Qed.
Lemma push_same t st : complete t -> Forall genuine (yield t) -> push_context d1 t st = push_context d2 t st.
Proof. intros C G. unfold push_context. rewrite (context_same t C G). reflexivity. Qed.
Lemma walk_same t : complete t -> Forall genuine (yield t) -> forall st, walk d1 t st = walk d2 t st.
Proof.
  induction t using ptree_ind'; intros C G st; try reflexivity.
  - cbn [yield] in G. inversion G; subst. apply Forall_app in H2. cbn [walk]. apply IHt; tauto.
  - cbn [yield] in G. inversion G; subst. cbn [walk]. rewrite (IHt C H2). reflexivity.
  - cbn [yield] in G. inversion G; subst. cbn [walk]. rewrite (IHt C H2). destruct (walk d2 t st) as [st'|]; [|reflexivity]. cbn [bind]. unfold exit_unary. rewrite (as_types_same t C H2). reflexivity.
  - rewrite !walk_func. pose proof C as C'. cbn [complete] in C. apply all_forall in C. pose proof G as G'. rewrite yield_func in G. rewrite (walk_list_same items H C (sep_genuine [fn] _ _ G)).
    destruct (walk_list d2 items st) as [st'|]; [|reflexivity]. cbn [bind]. apply push_same; assumption.
  - cbn [walk]. apply push_same; assumption.
  - rewrite !walk_in. pose proof C as C'. cbn [complete] in C. apply all_forall in C. pose proof G as G'. rewrite yield_in in G.
    assert (Gs : Forall genuine (sep_yield items)) by (destruct neg as [ng|]; [exact (sep_genuine [f; ng; it] _ _ G)|exact (sep_genuine [f; it] _ _ G)]).
    rewrite (walk_list_same items H C Gs). destruct (walk_list d2 items st) as [st'|]; [|reflexivity]. cbn [bind]. apply push_same; assumption.
  - rewrite !walk_array. cbn [complete] in C. apply all_forall in C. rewrite yield_array in G. assert (Gs := sep_genuine [f; op] _ _ G). assert (Gf : genuine f) by (inversion G; assumption).
    rewrite (walk_list_same items H C Gs). destruct (walk_list d2 items st) as [st'|]; [|reflexivity]. cbn [bind]. unfold exit_array. rewrite (named_same f Gf).
    destruct (named_field d2 f); [|reflexivity]. cbn [bind]. rewrite elements_same; [reflexivity| |exact C|exact Gs]. rewrite Forall_forall. intros t _. apply context_same.
  - pose proof C as C'. pose proof G as G'. destruct C as [Cl Cr]. cbn [yield] in G. apply Forall_app in G. destruct G as [Gl G]. inversion G; subst. cbn [walk].
    rewrite (IHt1 Cl Gl). destruct (walk d2 t1 st) as [st1|]; [|reflexivity]. cbn [bind]. rewrite (IHt2 Cr H2). destruct (walk d2 t2 st1) as [st2|]; [|reflexivity]. cbn [bind]. apply push_same; assumption.
  - pose proof C as C'. pose proof G as G'. destruct C as [Cl Cr]. cbn [yield] in G. apply Forall_app in G. destruct G as [Gl G]. inversion G; subst. cbn [walk].
    rewrite (IHt1 Cl Gl). destruct (walk d2 t1 st) as [st1|]; [|reflexivity]. cbn [bind]. rewrite (IHt2 Cr H2). destruct (walk d2 t2 st1) as [st2|]; [|reflexivity]. cbn [bind]. apply push_same; assumption.
  - destruct C as [Cl Cr]. cbn [yield] in G. apply Forall_app in G. destruct G as [Gl G]. inversion G; subst. cbn [walk].
    rewrite (IHt1 Cl Gl). destruct (walk d2 t1 st) as [st1|]; [|reflexivity]. cbn [bind]. rewrite (IHt2 Cr H2). reflexivity.
  - destruct t; try discriminate; contradiction.
Qed.
End Irrelevant.

Lemma default_irrelevant s t d1 d2 : lex s = Ok (yield t) -> reads 0 t eof -> complete t -> parse_expression s d1 = parse_expression s d2.
Proof.
  intros L R C. unfold parse_expression. rewrite L. cbn [bind]. rewrite (parse_any_complete t R). cbn [bind]. unfold listen. rewrite (walk_same d1 d2 t C (lex_genuine _ _ L)). reflexivity.
Qed.

(** ** Omitted operands *)
Fixpoint eps_ok (t : ptree) : Prop :=
  match t with
  | PParen t | PNot _ t | PNeg t => eps_ok t
  | PFunc _ items | PIn _ _ _ items | PArray _ _ items => fold_right and True (map eps_ok items)
  | PTypes _ | PTo _ _ _ _ => True
  | PEps next => ~ operand_kind (kind next)
  | PCmp l _ r | PArith l _ r | PBin l _ r => eps_ok l /\ eps_ok r
  | PBad _ | PFuncErr _ _ | PToErr _ _ | PToOdd _ _ _ _ | PInErr _ _ | PArrayErr _ _ => False
  end.
Lemma reads_eps : (forall n t next, reads n t next -> eps_ok t) /\ (forall items, reads_items items -> Forall eps_ok items).
Proof.
  apply (reads_mut (fun n t next => eps_ok t) (fun items => Forall eps_ok items)); cbn [eps_ok]; intros; try exact I; try assumption; try (split; assumption); try (apply all_forall; assumption).
  - intros H1. apply H. right. left. exact H1.
  - constructor; [assumption|constructor].
  - constructor; assumption.
Qed.

Section Fill.
Context (d : jstr) (ND : is_blank d = false).
Notation D := (Some d).
Lemma field_type : token_data_type (Tok T_FIELD d) = STRING.
Proof. reflexivity. Qed.
Lemma start_type t : eps_ok t -> token_data_type (start (fill d t)) = token_data_type (start t).
Proof.
  induction t using ptree_ind'; intros H0; try reflexivity.
  - cbn [fill start]. cbn in H0. unfold operand_kind in H0. unfold token_data_type. cbn [kind]. destruct (kind next); try reflexivity; exfalso; apply H0; cbn; tauto.
  - destruct H0. cbn [fill start]. auto.
  - destruct H0. cbn [fill start]. auto.
  - destruct H0. cbn [fill start]. auto.
  - destruct t; try discriminate; contradiction.
Qed.
Lemma as_types_fill t : as_types D (fill d t) = as_types D t.
Proof. destruct t; try reflexivity. cbn [fill as_types]. unfold map_types_token, map_types_empty. cbn [kind text]. rewrite ND. reflexivity. Qed.
Lemma is_parent_fill t : is_parent (fill d t) = is_parent t.
Proof. destruct t; reflexivity. Qed.
Lemma steals_fill l r s : steals (fill d l) (fill d r) s = steals l r s.
Proof. unfold steals. rewrite !is_parent_fill. reflexivity. Qed.
Lemma elements_fill items : Forall (fun t => eps_ok t -> forall s, map_context D (fill d t) s = map_context D t s) items ->
  Forall eps_ok items -> forall s, map_elements D (map (fill d) items) s = map_elements D items s.
Proof.
  induction 1 as [|t items A As IH]; intros C s; [reflexivity|]. inversion C; subst. cbn [map map_elements]. rewrite A by assumption. destruct (map_context D t s) as [[n r]|]; [|reflexivity]. cbn [bind snd]. rewrite IH by assumption. reflexivity.
Qed.
Lemma context_fill t : eps_ok t -> forall s, map_context D (fill d t) s = map_context D t s.
Proof.
  induction t using ptree_ind'; intros H0 s; try reflexivity.
  - cbn [eps_ok] in H0. apply all_forall in H0. change (fill d (PFunc fn items)) with (PFunc fn (map (fill d) items)). rewrite !context_func. destruct (function_of (kind fn)); [|reflexivity]. rewrite (elements_fill items H H0). reflexivity.
  - cbn [fill map_context]. unfold map_types_token, map_types_empty. cbn [kind text]. rewrite ND. reflexivity.
  - cbn [eps_ok] in H0. apply all_forall in H0. change (fill d (PIn f neg it items)) with (PIn f neg it (map (fill d) items)). rewrite !context_in. destruct (named_field D f); [|reflexivity]. cbn [bind]. rewrite (elements_fill items H H0). reflexivity.
  - destruct H0 as [Hl Hr]. cbn [fill map_context]. rewrite steals_fill, !as_types_fill, (start_type t1 Hl), (start_type t2 Hr), (IHt2 Hr).
    destruct (map_context D t2 s) as [[n s']|]; cbn [bind fst snd]; [|reflexivity]. rewrite (IHt1 Hl). reflexivity.
  - cbn [fill map_context]. rewrite !as_types_fill. reflexivity.
  - destruct t; try discriminate; contradiction.
Qed.

Definition sim (st st' : lstate) : Prop := stack st = stack st' /\ token_count st = token_count st'.
Definition rsim (r r' : res lstate) : Prop := match r, r' with Ok s, Ok s' => sim s s' | Err e, Err e' => e = e' | _, _ => False end.
Lemma rsim_bind r r' k k' : rsim r r' -> (forall s s', r = Ok s -> r' = Ok s' -> sim s s' -> rsim (k s) (k' s')) -> rsim (bind r k) (bind r' k').
Proof. intros R K. destruct r, r'; cbn in *; try contradiction; [auto|assumption]. Qed.
Lemma push_sim t st st' : eps_ok t -> sim st st' -> rsim (push_context D t st) (push_context D (fill d t) st').
Proof. intros H0 [S C]. unfold push_context. rewrite (context_fill t H0), <- S. destruct (map_context D t (stack st)) as [[n s]|]; cbn; [split; [reflexivity|exact C]|reflexivity]. Qed.

(** what an empty stack means *)
Fixpoint core (t : ptree) : ptree := match t with PParen t => core t | _ => t end.
Lemma push_nonempty dflt t st st' : push_context dflt t st = Ok st' -> stack st' <> [].
Proof. unfold push_context. intros H. apply bind_ok in H. destruct H as [[n s] [_ H]]. injection H as <-. discriminate. Qed.
Lemma walk_empty dflt t : forall st st', walk dflt t st = Ok st' -> stack st' = [] -> broken (core t) = true \/
  exists tok, last_token st' = Some tok /\ (core t = PTypes tok \/ core t = PEps tok).
Proof.
  induction t using ptree_ind'; intros st st' W S.
  - cbn [walk] in W. cbn [core]. eauto.
  - cbn [walk] in W. apply bind_ok in W. destruct W as [st1 [_ W]]. unfold exit_not in W. destruct (stack st1).
    + destruct (last_token st1); [|discriminate]. apply bind_ok in W. destruct W as [v [_ W]]. injection W as <-. discriminate.
    + injection W as <-. discriminate.
  - cbn [walk] in W. apply bind_ok in W. destruct W as [st1 [_ W]]. unfold exit_unary in W. exfalso.
    destruct (stack st1) as [|[]]; try (destruct (as_types dflt t); [|discriminate]; apply bind_ok in W; destruct W as [v [_ W]]); injection W as <-; discriminate.
  - rewrite walk_func in W. apply bind_ok in W. destruct W as [st1 [_ W]]. apply push_nonempty in W. contradiction.
  - cbn in W. injection W as <-. cbn. right. eauto.
  - cbn in W. injection W as <-. cbn. right. eauto.
  - cbn [walk] in W. apply push_nonempty in W. contradiction.
  - rewrite walk_in in W. apply bind_ok in W. destruct W as [st1 [_ W]]. apply push_nonempty in W. contradiction.
  - rewrite walk_array in W. apply bind_ok in W. destruct W as [st1 [_ W]]. unfold exit_array in W. apply bind_ok in W. destruct W as [x [_ W]]. apply bind_ok in W. destruct W as [y [_ W]]. injection W as <-. discriminate.
  - cbn [walk] in W. apply bind_ok in W. destruct W as [st1 [_ W]]. apply bind_ok in W. destruct W as [st2 [_ W]]. apply push_nonempty in W. contradiction.
  - cbn [walk] in W. apply bind_ok in W. destruct W as [st1 [_ W]]. apply bind_ok in W. destruct W as [st2 [_ W]]. apply push_nonempty in W. contradiction.
  - cbn [walk] in W. apply bind_ok in W. destruct W as [st1 [_ W]]. apply bind_ok in W. destruct W as [st2 [_ W]]. unfold exit_binary in W.
    destruct (stack st2) as [|x [|y s]]; try discriminate. injection W as <-. discriminate.
  - left. destruct t; try discriminate; reflexivity.
Qed.
Lemma core_unbroken t : eps_ok t -> broken (core t) = false.
Proof. induction t using ptree_ind'; cbn; auto. destruct t; try discriminate; contradiction. Qed.
Lemma core_omitted t next : core t = PEps next -> omitted t.
Proof. induction t using ptree_ind'; cbn; try discriminate; auto. destruct t; discriminate. Qed.
Lemma core_fill t tok : core t = PTypes tok -> core (fill d t) = PTypes tok.
Proof. induction t using ptree_ind'; cbn; try discriminate; auto. destruct t; discriminate. Qed.
Lemma last_same t st st' x x' : eps_ok t -> ~ omitted t -> walk D t st = Ok x -> walk D (fill d t) st' = Ok x' -> sim x x' -> stack x = [] -> last_token x = last_token x'.
Proof.
  intros H0 NO W W' [S _] E. destruct (walk_empty _ _ _ _ W E) as [B|[tok [L [C|C]]]]; [rewrite (core_unbroken t H0) in B; discriminate| |apply core_omitted in C; contradiction].
  rewrite S in E. destruct (walk_empty _ _ _ _ W' E) as [B|[tok' [L' C']]]; [rewrite (core_fill _ _ C) in B; discriminate|]. rewrite (core_fill _ _ C) in C'. destruct C' as [C'|C']; [|discriminate]. congruence.
Qed.

Lemma walk_list_sim items : Forall (fun t => eps_ok t -> nots_written t -> forall st st', sim st st' -> rsim (walk D t st) (walk D (fill d t) st')) items ->
  Forall eps_ok items -> Forall nots_written items -> forall st st', sim st st' -> rsim (walk_list D items st) (walk_list D (map (fill d) items) st').
Proof.
  induction 1 as [|t items A As IH]; intros C W st st' S; [exact S|]. inversion C; subst. inversion W; subst. cbn [map].
  change (walk_list D (t :: items) st) with (s <- walk D t st ;; walk_list D items s). change (walk_list D (fill d t :: map (fill d) items) st') with (s <- walk D (fill d t) st' ;; walk_list D (map (fill d) items) s).
  apply rsim_bind; [apply A; assumption|]. intros s s' _ _ S'. apply IH; assumption.
Qed.
Lemma walk_fill t : eps_ok t -> nots_written t -> forall st st', sim st st' -> rsim (walk D t st) (walk D (fill d t) st').
Proof.
  induction t using ptree_ind'; intros H0 NW st st' S.
  - cbn [fill walk]. apply IHt; assumption.
  - destruct NW as [NO NW]. cbn [fill walk]. apply rsim_bind; [apply IHt; assumption|]. intros s s' E E' S'. unfold exit_not. pose proof S' as [SS SC]. rewrite <- SS.
    destruct (stack s) as [|n r] eqn:Es.
    + rewrite <- (last_same t st st' s s' H0 NO E E' S' Es). destruct (last_token s); [|reflexivity]. destruct (convert_value _ _); cbn; [split; [reflexivity|exact SC]|reflexivity].
    + cbn. split; [reflexivity|exact SC].
  - cbn [fill walk]. apply rsim_bind; [apply IHt; assumption|]. intros s s' E E' [SS SC]. unfold exit_unary. rewrite <- SS, as_types_fill.
    destruct (stack s) as [|[]]; try (destruct (as_types D t) as [r|]; [destruct r; cbn; [split; [reflexivity|exact SC]|reflexivity]|reflexivity]). cbn. split; [reflexivity|exact SC].
  - cbn [eps_ok nots_written] in H0, NW. pose proof H0 as H0'. apply all_forall in H0, NW. change (fill d (PFunc fn items)) with (PFunc fn (map (fill d) items)). rewrite !walk_func.
    apply rsim_bind; [apply walk_list_sim; assumption|]. intros s s' _ _ S'. apply (push_sim (PFunc fn items)); assumption.
  - cbn [fill walk]. destruct S as [SS SC]. unfold exit_types. cbn. split; [exact SS|cbn; rewrite SC; reflexivity].
  - cbn [fill walk]. destruct S as [SS SC]. unfold exit_types. cbn. split; [exact SS|cbn; rewrite SC; reflexivity].
  - cbn [fill walk]. apply (push_sim (PTo f lo to hi)); assumption.
  - cbn [eps_ok nots_written] in H0, NW. pose proof H0 as H0'. apply all_forall in H0, NW. change (fill d (PIn f neg it items)) with (PIn f neg it (map (fill d) items)). rewrite !walk_in.
    apply rsim_bind; [apply walk_list_sim; assumption|]. intros s s' _ _ S'. apply (push_sim (PIn f neg it items)); assumption.
  - cbn [eps_ok nots_written] in H0, NW. apply all_forall in H0, NW. change (fill d (PArray f op items)) with (PArray f op (map (fill d) items)). rewrite !walk_array.
    apply rsim_bind; [apply walk_list_sim; assumption|]. intros s s' _ _ [SS SC]. unfold exit_array. rewrite <- SS. destruct (named_field D f); cbn [bind]; [|reflexivity].
    rewrite (elements_fill items); [|rewrite Forall_forall; intros x _; apply context_fill|exact H0]. destruct (map_elements D items (stack s)) as [[ns r]|]; cbn; [split; [reflexivity|exact SC]|reflexivity].
  - pose proof H0 as H0'. destruct H0 as [Hl Hr]. destruct NW as [Nl Nr]. cbn [fill walk]. apply rsim_bind; [apply IHt1; assumption|]. intros s s' _ _ S'. apply rsim_bind; [apply IHt2; assumption|].
    intros s2 s2' _ _ S2. apply (push_sim (PCmp t1 op t2)); assumption.
  - pose proof H0 as H0'. destruct H0 as [Hl Hr]. destruct NW as [Nl Nr]. cbn [fill walk]. apply rsim_bind; [apply IHt1; assumption|]. intros s s' _ _ S'. apply rsim_bind; [apply IHt2; assumption|].
    intros s2 s2' _ _ S2. apply (push_sim (PArith t1 op t2)); assumption.
  - destruct H0 as [Hl Hr]. destruct NW as [Nl Nr]. cbn [fill walk]. apply rsim_bind; [apply IHt1; assumption|]. intros s s' _ _ S'. apply rsim_bind; [apply IHt2; assumption|].
    intros s2 s2' _ _ [SS SC]. unfold exit_binary. rewrite <- SS. destruct (stack s2) as [|x [|y r]]; cbn; [reflexivity|reflexivity|split; [reflexivity|exact SC]].
  - destruct t; try discriminate; contradiction.
Qed.
Lemma listen_fill t : eps_ok t -> nots_written t -> ~ omitted t -> listen D t = listen D (fill d t).
Proof.
  intros H0 NW NO. unfold listen. assert (S0 : sim (LState [] None 0) (LState [] None 0)) by (split; reflexivity). pose proof (walk_fill t H0 NW _ _ S0) as R.
  destruct (walk D t (LState [] None 0)) as [s|e] eqn:W, (walk D (fill d t) (LState [] None 0)) as [s'|e'] eqn:W'; cbn in R; try contradiction; [|congruence].
  cbn [bind]. pose proof R as [SS SC]. unfold exit_parse. rewrite <- SS, <- SC. destruct (stack s) eqn:Es; [|reflexivity]. rewrite (last_same t _ _ s s' H0 NO W W' R Es). reflexivity.
Qed.
Lemma fill_complete t : eps_ok t -> complete (fill d t).
Proof.
  induction t using ptree_ind'; cbn [fill complete eps_ok]; intros H0; try exact I; try (apply IHt; assumption); try (destruct H0; split; auto; fail);
    try (apply all_forall in H0; apply all_forall; apply Forall_forall; intros x Hx; apply in_map_iff in Hx; destruct Hx as [y [<- Hy]]; rewrite Forall_forall in H, H0; auto).
  destruct t; try discriminate; contradiction.
Qed.
End Fill.
Lemma reads_fill d : (forall n t next, reads n t next -> reads n (fill d t) next) /\ (forall items, reads_items items -> reads_items (map (fill d) items)).
Proof.
  apply (reads_mut (fun n t next => reads n (fill d t) next) (fun items => reads_items (map (fill d) items))); intros; cbn [fill map]; try (econstructor; eassumption).
  apply r_operand. cbn. tauto.
Qed.

Lemma default_written s s' t d dflt : field_name d -> lex s = Ok (yield t) -> reads 0 t eof -> nots_written t -> ~ omitted t -> lex s' = Ok (yield (fill d t)) ->
  parse_expression s (Some d) = parse_expression s' dflt.
Proof.
  intros F L R NW NO L'. pose proof (proj1 (reads_fill d) 0 t eof R) as R'.
  rewrite (default_irrelevant s' (fill d t) dflt (Some d) L' R' (fill_complete d t (proj1 reads_eps 0 t eof R))).
  unfold parse_expression. rewrite L, L'. cbn [bind]. rewrite (parse_any_complete t R), (parse_any_complete _ R'). cbn [bind].
  apply listen_fill; [apply field_not_blank, F|apply (proj1 reads_eps 0 t eof R)|exact NW|exact NO].
Qed.

Lemma default_comparison E data d dflt o op y n : field_name d -> In (o, op) comparators -> operand y n ->
  evaluate_boolean E (unwords [o; y]) data (Some d) = evaluate_boolean E (unwords [d; o; y]) data dflt.
Proof.
  intros F I Y. destruct (operand_words _ _ Y) as [ky [Gy Ky]]. destruct (comparator_genuine _ _ I) as [k [G K]]. pose proof (field_genuine d F) as Gd.
  unfold evaluate_boolean. rewrite (default_written (unwords [o; y]) (unwords [d; o; y]) (PCmp (PEps (Tok k o)) (Tok k o) (PTypes (Tok ky y))) d dflt); [reflexivity|exact F| | |cbn; tauto|cbn; tauto|].
  - apply (text_tree [Tok k o; Tok ky y]); [reflexivity|genuines].
  - eapply r_cmp; [exact K|apply comparator_level9, K|lia| |apply r_operand; exact Ky]. apply r_missing. cbn [kind]. cbn in K. intros H.
    decompose [or] K; subst; try contradiction; destruct H as [H|[H|H]]; cbn in H; decompose [or] H; try discriminate; contradiction.
  - apply (text_tree [Tok T_FIELD d; Tok k o; Tok ky y]); [reflexivity|genuines].
Qed.
(** a lone NOT, and the empty text, do not use the default field *)
Lemma default_not_used : exists d, field_name d /\ parse_expression [] (Some d) <> parse_expression d None /\ parse_expression (J "NOT") (Some d) <> parse_expression (J "NOT " ++ d) None.
Proof.
  exists (J "a"). split; [field_name_tac|]. split; vm_compute; discriminate.
Qed.
