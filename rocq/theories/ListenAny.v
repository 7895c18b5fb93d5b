(** The listener on every parse tree: how it can fail, and where the fields and the literals of its result come from. *)
From Verif Require Import RecoverOrigin.
From Verif Require Import Base JNum Values Ops Funcs Ast Eval Lexer Grammar Recover Listener Api SpecRecover ParseFacts ListenFacts.

Definition ptree_full_ind (P : ptree -> Prop)
  (HParen : forall t, P t -> P (PParen t)) (HNot : forall nt t, P t -> P (PNot nt t)) (HNeg : forall t, P t -> P (PNeg t))
  (HFunc : forall fn items, Forall P items -> P (PFunc fn items)) (HTypes : forall tok, P (PTypes tok)) (HEps : forall next, P (PEps next))
  (HTo : forall f lo to hi, P (PTo f lo to hi)) (HIn : forall f neg it items, Forall P items -> P (PIn f neg it items))
  (HArray : forall f op items, Forall P items -> P (PArray f op items))
  (HCmp : forall l op r, P l -> P r -> P (PCmp l op r)) (HArith : forall l op r, P l -> P r -> P (PArith l op r)) (HBin : forall l op r, P l -> P r -> P (PBin l op r))
  (HBad : forall x, P (PBad x)) (HFuncErr : forall fn items, Forall P items -> P (PFuncErr fn items)) (HToErr : forall f lo, P (PToErr f lo))
  (HToOdd : forall f lo hi txt, P (PToOdd f lo hi txt)) (HInErr : forall f neg, P (PInErr f neg)) (HArrayErr : forall f op, P (PArrayErr f op)) :
  forall t, P t :=
  fix go (t : ptree) : P t :=
    let gos := fix gos (l : list ptree) : Forall P l := match l with [] => Forall_nil P | x :: l' => Forall_cons x (go x) (gos l') end in
    match t with
    | PParen t => HParen t (go t)
    | PNot nt t => HNot nt t (go t)
    | PNeg t => HNeg t (go t)
    | PFunc fn items => HFunc fn items (gos items)
    | PTypes tok => HTypes tok
    | PEps next => HEps next
    | PTo f lo to hi => HTo f lo to hi
    | PIn f neg it items => HIn f neg it items (gos items)
    | PArray f op items => HArray f op items (gos items)
    | PCmp l op r => HCmp l op r (go l) (go r)
    | PArith l op r => HArith l op r (go l) (go r)
    | PBin l op r => HBin l op r (go l) (go r)
    | PBad x => HBad x
    | PFuncErr fn items => HFuncErr fn items (gos items)
    | PToErr f lo => HToErr f lo
    | PToOdd f lo hi txt => HToOdd f lo hi txt
    | PInErr f neg => HInErr f neg
    | PArrayErr f op => HArrayErr f op
    end.

(** All field names satisfy [F] and all literals [V]. *)
Section Built.
Context (F : jstr -> Prop) (V : jval -> Prop).
Definition built_name (f : option jstr) : Prop := match f with Some s => F s | None => True end.
Fixpoint built (n : node) : Prop :=
  let all := fix all (l : list node) : Prop := match l with [] => True | i :: l' => built i /\ all l' end in
  match n with
  | NField f => built_name f
  | NUnary _ v => V v
  | NArith l r _ => built l /\ match r with Some r' => built r' | None => True end
  | NFunc _ items => all items
  | NCmp l r _ _ => built l /\ built r
  | NRange f _ _ _ _ => built_name f
  | NIn f items | NArray f _ items => built_name f /\ all items
  | NBool l r _ => built l /\ match r with Some r' => built r' | None => True end
  end.
Lemma built_all items : (fix all (l : list node) : Prop := match l with [] => True | i :: l' => built i /\ all l' end) items <-> Forall built items.
Proof.
  induction items as [|i l IH]; cbn; [split; constructor|]. rewrite IH. split; [intros [A B]; constructor; assumption|intros A; inversion A; auto].
Qed.

Context (P : token -> Prop) (dflt : option jstr).
Definition ends {A} (Q : A -> Prop) (r : res A) : Prop := match r with Ok a => Q a | Err e => In e parse_failures end.
Context (HD : built_name dflt) (HF : forall t, P t -> kind t = T_FIELD -> F (text t))
  (HV : forall t dt, P t -> dt = token_data_type t \/ dt = STRING -> ends V (convert_value (text t) dt))
  (HX : forall xs dt, Forall P xs -> ends (fun _ => True) (convert_value (concat (map text xs)) dt)).
Lemma ends_bind A B (Q : A -> Prop) (R : B -> Prop) a k : ends Q a -> (forall x, Q x -> ends R (k x)) -> ends R (bind a k).
Proof. intros H K. destruct a; cbn; [apply K|]; exact H. Qed.

Ltac fails := cbn; tauto.
Lemma token_built t : P t -> ends built (map_types_token dflt t).
Proof.
  intros H. unfold map_types_token.
  assert (B : ends built (if is_blank (text t) then Ok (NField dflt) else v <- convert_value (text t) (token_data_type t);; Ok (NUnary (token_data_type t) v))).
  { destruct (is_blank (text t)); [exact HD|]. apply ends_bind with (Q := V); [apply HV; [exact H|left; reflexivity]|]. intros v Hv. exact Hv. }
  destruct (kind t) eqn:K; try exact B. cbn. destruct (is_blank (text t)); [exact HD|]. apply HF; assumption.
Qed.
Lemma name_built t : field P t -> ends built_name (named_field dflt t).
Proof.
  intros [H K]. unfold named_field. destruct (is_blank (text t)); cbn [andb].
  - destruct (opt_is_blank dflt); [fails|]. exact HD.
  - apply HF; assumption.
Qed.
Definition both (x : node * list node) : Prop := built (fst x) /\ Forall built (snd x).
Lemma types_built t m : from P t -> as_types dflt t = Some m -> ends built m.
Proof. intros H E. destruct t; try discriminate E; injection E as <-; [apply token_built; exact H|exact HD]. Qed.
Lemma pop_built s : Forall built s -> ends both (pop s).
Proof. intros H. destruct H; [fails|]. split; assumption. Qed.
Lemma elements_built items : Forall (fun t => from P t -> forall s, Forall built s -> ends both (map_context dflt t s)) items -> Forall (from P) items ->
  forall s, Forall built s -> ends (fun x => Forall built (fst x) /\ Forall built (snd x)) (map_elements dflt items s).
Proof.
  induction 1 as [|i l H0 H IH]; intros Hf s Hs; cbn [map_elements]; [split; [constructor|exact Hs]|]. inversion Hf; subst.
  apply ends_bind with (Q := both); [apply H0; assumption|]. intros [n s'] [A B]. cbn [fst snd].
  apply ends_bind with (Q := fun x => Forall built (fst x) /\ Forall built (snd x)); [apply IH; assumption|]. intros [ns s2] [C D]. split; [constructor|]; assumption.
Qed.
Lemma context_built t : from P t -> forall s, Forall built s -> ends both (map_context dflt t s).
Proof.
  induction t using ptree_full_ind; intros Hf s Hs; try (cbn [map_context]; fails).
  - rewrite context_func. destruct (function_of (kind fn)); [|fails]. cbn [from] in Hf. rewrite all_from_eq in Hf. destruct Hf as [_ Hi].
    apply ends_bind with (Q := fun x => Forall built (fst x) /\ Forall built (snd x)); [apply elements_built; assumption|].
    intros [ns s2] [C D]. split; [cbn [built fst]; rewrite built_all; exact C|exact D].
  - cbn [map_context]. apply ends_bind with (Q := built); [apply token_built; exact Hf|]. intros n Hn. split; assumption.
  - split; [exact HD|exact Hs].
  - cbn [map_context]. destruct Hf as [Hf [Hl Hh]]. apply ends_bind with (Q := built_name); [apply name_built; exact Hf|]. intros fld Hn.
    apply ends_bind with (Q := V); [apply HV; [exact Hl|left; reflexivity]|]. intros a _. apply ends_bind with (Q := V); [apply HV; [exact Hh|left; reflexivity]|]. intros b _. split; assumption.
  - rewrite context_in. cbn [from] in Hf. rewrite all_from_eq in Hf. destruct Hf as [Hf Hi].
    apply ends_bind with (Q := built_name); [apply name_built; exact Hf|]. intros fld Hn.
    apply ends_bind with (Q := fun x => Forall built (fst x) /\ Forall built (snd x)); [apply elements_built; assumption|].
    intros [ns s2] [C D]. split; [|exact D]. destruct neg; cbn [built fst]; rewrite built_all; auto.
  - destruct Hf as [Hl [_ Hr]]. cbn [map_context]. cbv zeta.
    assert (Deep : ends both (bs <- map_context dflt t2 s ;; as_ <- map_context dflt t1 (snd bs) ;;
      Ok (NCmp (fst as_) (fst bs) (operator_of (kind op)) (token_data_type (start t2)), snd as_))).
    { apply ends_bind with (Q := both); [apply IHt2; assumption|]. intros [b s1] [B1 B2]. cbn [fst snd] in *.
      apply ends_bind with (Q := both); [apply IHt1; assumption|]. intros [a s2] [A1 A2]. cbn [fst snd] in *. split; [split; assumption|assumption]. }
    destruct (steals t1 t2 s).
    + destruct (as_types dflt t1) as [ml|] eqn:E1.
      * apply ends_bind with (Q := built); [exact (types_built _ _ Hl E1)|]. intros a Ha.
        apply ends_bind with (Q := both); [apply pop_built; exact Hs|]. intros [b s1] [B1 B2]. split; [split; assumption|assumption].
      * destruct (as_types dflt t2) as [mr|] eqn:E2; [|exact Deep].
        apply ends_bind with (Q := built); [exact (types_built _ _ Hr E2)|]. intros b Hb.
        apply ends_bind with (Q := both); [apply pop_built; exact Hs|]. intros [a s1] [A1 A2]. split; [split; assumption|assumption].
    + destruct (as_types dflt t1), (as_types dflt t2); exact Deep.
  - destruct Hf as [Hl [_ Hr]]. cbn [map_context].
    destruct (as_types dflt t1) as [ml|] eqn:E1, (as_types dflt t2) as [mr|] eqn:E2.
    + apply ends_bind with (Q := built); [exact (types_built _ _ Hl E1)|]. intros a Ha.
      apply ends_bind with (Q := built); [exact (types_built _ _ Hr E2)|]. intros b Hb. split; [split; assumption|assumption].
    + apply ends_bind with (Q := built); [exact (types_built _ _ Hl E1)|]. intros a Ha.
      apply ends_bind with (Q := both); [apply pop_built; exact Hs|]. intros [b s1] [B1 B2]. split; [split; assumption|assumption].
    + apply ends_bind with (Q := built); [exact (types_built _ _ Hr E2)|]. intros b Hb.
      apply ends_bind with (Q := both); [apply pop_built; exact Hs|]. intros [a s1] [A1 A2]. split; [split; assumption|assumption].
    + destruct Hs as [|b s1 Hb [|a s2 Ha H2]]; [fails|fails|]. split; [split; assumption|assumption].
  - cbn [map_context]. destruct Hf as [Hf Hl]. apply ends_bind with (Q := built_name); [apply name_built; exact Hf|]. intros fld Hn.
    apply ends_bind with (Q := V); [apply HV; [exact Hl|left; reflexivity]|]. intros a _. fails.
  - cbn [map_context]. destruct Hf as [Hf [Hl [Hh [xs [Hx ->]]]]]. apply ends_bind with (Q := built_name); [apply name_built; exact Hf|]. intros fld Hn.
    apply ends_bind with (Q := V); [apply HV; [exact Hl|left; reflexivity]|]. intros a _. apply ends_bind with (Q := fun _ => True); [apply HX; exact Hx|]. intros b _. split; assumption.
  - cbn [map_context]. apply ends_bind with (Q := built_name); [apply name_built; exact Hf|]. intros fld Hn. fails.
Qed.

Definition state_built (st : lstate) : Prop := Forall built (stack st) /\ forall t, last_token st = Some t -> P t.
Lemma push_built t st : from P t -> state_built st -> ends state_built (push_context dflt t st).
Proof.
  intros H [A B]. unfold push_context. apply ends_bind with (Q := both); [apply context_built; assumption|]. intros [n s] [C D]. split; [constructor; assumption|exact B].
Qed.
Lemma walk_list_built items : Forall (fun t => from P t -> forall st, state_built st -> ends state_built (walk dflt t st)) items -> Forall (from P) items ->
  forall st, state_built st -> ends state_built (walk_list dflt items st).
Proof.
  induction 1 as [|i l H0 H IH]; intros Hf st Hs; [exact Hs|]. inversion Hf; subst.
  change (walk_list dflt (i :: l) st) with (st' <- walk dflt i st ;; walk_list dflt l st').
  apply ends_bind with (Q := state_built); [apply H0; assumption|]. intros st' H'. apply IH; assumption.
Qed.
Lemma walk_built t : from P t -> forall st, state_built st -> ends state_built (walk dflt t st).
Proof.
  induction t using ptree_full_ind; intros Hf st Hs.
  - cbn [walk]. apply IHt; assumption.
  - cbn [walk]. destruct Hf as [_ Hf]. apply ends_bind with (Q := state_built); [apply IHt; assumption|]. intros st' [A B]. unfold exit_not.
    destruct A as [|n s Hn A]; [|split; [constructor; [split; [exact Hn|exact I]|exact A]|exact B]].
    destruct (last_token st') as [t0|] eqn:L; [|fails]. apply ends_bind with (Q := V); [apply HV; [apply B; reflexivity|left; reflexivity]|]. intros v Hv.
    split; [constructor; [split; [exact Hv|exact I]|constructor]|exact B].
  - cbn [walk]. cbn [from] in Hf. apply ends_bind with (Q := state_built); [apply IHt; assumption|]. intros st' [A B]. unfold exit_unary.
    assert (G : ends state_built (match as_types dflt t with Some m => n <- m;; Ok (LState (NArith n None UNARY :: stack st') (last_token st') (token_count st')) | None => Err ClassCast end)).
    { destruct (as_types dflt t) eqn:E; [|fails]. apply ends_bind with (Q := built); [exact (types_built _ _ Hf E)|]. intros n Hn.
      split; [constructor; [split; [exact Hn|exact I]|exact A]|exact B]. }
    destruct (stack st') as [|[] s] eqn:S; try exact G.
    inversion A; subst. split; [constructor; [split; [assumption|exact I]|assumption]|exact B].
  - rewrite walk_func. cbn [from] in Hf. pose proof Hf as Hf'. rewrite all_from_eq in Hf'. destruct Hf' as [_ Hi].
    apply ends_bind with (Q := state_built); [apply walk_list_built; assumption|]. intros st' H'. apply push_built; assumption.
  - cbn. destruct Hs as [A B]. split; [exact A|]. intros t E. injection E as <-. exact Hf.
  - cbn. destruct Hs as [A B]. split; [exact A|]. intros t E. injection E as <-. exact Hf.
  - apply push_built; assumption.
  - rewrite walk_in. cbn [from] in Hf. pose proof Hf as Hf'. rewrite all_from_eq in Hf'. destruct Hf' as [_ Hi].
    apply ends_bind with (Q := state_built); [apply walk_list_built; assumption|]. intros st' H'. apply push_built; assumption.
  - rewrite walk_array. cbn [from] in Hf. rewrite all_from_eq in Hf. destruct Hf as [Hf [_ Hi]].
    apply ends_bind with (Q := state_built); [apply walk_list_built; assumption|]. intros st' [A B]. unfold exit_array.
    apply ends_bind with (Q := built_name); [apply name_built; exact Hf|]. intros fld Hn.
    apply ends_bind with (Q := fun x => Forall built (fst x) /\ Forall built (snd x)).
    { apply elements_built; [|assumption|exact A]. apply Forall_forall. intros t _. apply context_built. }
    intros [ns s] [C D]. split; [|exact B]. constructor; [|exact D]. cbn [built fst]. rewrite built_all. auto.
  - cbn [walk]. pose proof Hf as Hf'. destruct Hf' as [Hl [_ Hr]]. apply ends_bind with (Q := state_built); [apply IHt1; assumption|]. intros st1 H1.
    apply ends_bind with (Q := state_built); [apply IHt2; assumption|]. intros st2 H2. apply push_built; assumption.
  - cbn [walk]. pose proof Hf as Hf'. destruct Hf' as [Hl [_ Hr]]. apply ends_bind with (Q := state_built); [apply IHt1; assumption|]. intros st1 H1.
    apply ends_bind with (Q := state_built); [apply IHt2; assumption|]. intros st2 H2. apply push_built; assumption.
  - cbn [walk]. destruct Hf as [Hl [_ Hr]]. apply ends_bind with (Q := state_built); [apply IHt1; assumption|]. intros st1 H1.
    apply ends_bind with (Q := state_built); [apply IHt2; assumption|]. intros st2 [A B]. unfold exit_binary.
    destruct A as [|b s1 Hb [|a s2 Ha H2]]; [fails|fails|]. split; [constructor; [split; assumption|assumption]|exact B].
  - exact Hs.
  - change (walk dflt (PFuncErr fn items) st) with (st' <- walk_list dflt items st ;; push_context dflt (PFuncErr fn items) st').
    cbn [from] in Hf. pose proof Hf as Hf'. rewrite all_from_eq in Hf'. destruct Hf' as [_ Hi].
    apply ends_bind with (Q := state_built); [apply walk_list_built; assumption|]. intros st' H'. apply push_built; assumption.
  - apply push_built; assumption.
  - apply push_built; assumption.
  - apply push_built; assumption.
  - cbn [walk]. destruct Hf as [Hf _]. apply ends_bind with (Q := built_name); [apply name_built; exact Hf|]. intros fld Hn. fails.
Qed.

Lemma convert_string s v : convert_value s STRING = Ok v -> exists s', v = VStr s'.
Proof. unfold convert_value, strip_ends. destruct (quoted_by _ s); [|destruct (quoted_by _ s)]; try destruct (_ <? _); intro E; try discriminate E; injection E as <-; eexists; reflexivity. Qed.
Lemma listen_built t : from P t -> ends built (listen dflt t).
Proof.
  intros H. unfold listen. apply ends_bind with (Q := state_built); [apply walk_built; [exact H|split; [constructor|discriminate]]|].
  intros st [A B]. unfold exit_parse. destruct A as [|n s Hn A]; [|exact Hn].
  destruct (token_count st) as [|[|n]]; [fails| |fails]. destruct (last_token st) as [x|] eqn:L; [|fails].
  specialize (B _ eq_refl).
  assert (G : ends built (v <- convert_value (text x) STRING;; s <- to_string v;; Ok (NUnary STRING (VStr s)))).
  { pose proof (HV x STRING B (or_intror eq_refl)) as C. destruct (convert_value (text x) STRING) as [v|e] eqn:E; [|exact C].
    apply convert_string in E. destruct E as [s' ->]. exact C. }
  destruct (kind x) eqn:K; try exact G. cbn. apply HF; assumption.
Qed.
End Built.
