(** The listener on regular syntax trees. *)
From Verif Require Import Base JNum BigDec Dates Values Ops Funcs Ast Eval Lexer Grammar Listener Api SpecBool SpecCompare SpecPath SpecArith SpecLex SpecDate
  SpecGrammar SpecSyntax NumFacts CacheFacts BoolFacts CompareFacts ValuesFacts FieldFacts LexFacts LexSplit LexWords LexApi SyntaxFacts ParseFuel ParseFacts.

(** ** The data type recorded in a comparison does not matter *)
Fixpoint erase (n : node) : node :=
  match n with
  | NField f => NField f
  | NUnary dt v => NUnary dt v
  | NArith l r op => NArith (erase l) (match r with Some r => Some (erase r) | None => None end) op
  | NFunc f items => NFunc f (map erase items)
  | NCmp l r op _ => NCmp (erase l) (erase r) op STRING
  | NRange f a b t1 t2 => NRange f a b t1 t2
  | NIn f items => NIn f (map erase items)
  | NArray f op items => NArray f op (map erase items)
  | NBool l r op => NBool (erase l) (match r with Some r => Some (erase r) | None => None end) op
  end.
Lemma mapM_map A B C (f : B -> res C) (g : A -> B) l : mapM f (map g l) = mapM (fun a => f (g a)) l.
Proof. induction l as [|a l IH]; [reflexivity|]. cbn. rewrite IH. reflexivity. Qed.
Lemma arith_erase E d n : arith_eval E d (erase n) = arith_eval E d n.
Proof.
  induction n using node_ind'; try reflexivity.
  - cbn [erase arith_eval]. rewrite IHn. destruct (arith_eval E d n); [|reflexivity]. cbn [bind].
    destruct r as [r|]; [|reflexivity]. cbn in H. rewrite H. reflexivity.
  - cbn [erase]. rewrite !arith_func. unfold arith_items. rewrite mapM_map. f_equal. apply mapM_ext. intros a I. rewrite Forall_forall in H. auto.
Qed.
Lemma erase_base n : is_arith_base (erase n) = is_arith_base n.
Proof. destruct n; reflexivity. Qed.
Lemma bool_erase E d n : bool_eval E d (erase n) = bool_eval E d n.
Proof.
  assert (IT : forall items, Forall (fun n => bool_eval E d (erase n) = bool_eval E d n) items -> mapM (item_eval E d) (map erase items) = mapM (item_eval E d) items).
  { intros items F. rewrite mapM_map. apply mapM_ext. intros a I. rewrite Forall_forall in F. unfold item_eval. rewrite erase_base, arith_erase, (F a I). reflexivity. }
  assert (OV : forall n, bool_eval E d (erase n) = bool_eval E d n -> operand_value E d (erase n) = operand_value E d n).
  { intros m H. unfold operand_value. rewrite erase_base, H. destruct (is_arith_base m) eqn:B; [|reflexivity].
    destruct m; try discriminate B; try reflexivity.
    - change (NArith (erase m) (match right with Some r => Some (erase r) | None => None end) op) with (erase (NArith m right op)).
      rewrite <- (arith_erase E d (NArith m right op)). reflexivity.
    - rewrite <- (arith_erase E d (NFunc f items)). reflexivity. }
  induction n using node_ind'; try reflexivity.
  - cbn [erase]. rewrite !cmp_unfold. rewrite (OV n1 IHn1), (OV n2 IHn2).
    assert (NF : forall m, node_is_null_field (erase m) = node_is_null_field m) by (intros m; destruct m; reflexivity).
    unfold is_null_check. rewrite !NF. reflexivity.
  - cbn [erase]. rewrite !in_unfold, (IT items H). reflexivity.
  - cbn [erase]. rewrite !array_unfold, (IT items H). reflexivity.
  - cbn [erase bool_eval]. rewrite IHn. destruct op; [| |reflexivity]; (destruct r as [r|]; [|reflexivity]); cbn in H; rewrite H; reflexivity.
Qed.

(** ** The meaning is determined *)
Lemma operand_functional w n n' : operand w n -> operand w n' -> n = n'.
Proof.
  intros O O'. destruct (operand_token w n O) as [k [G [_ M]]]. destruct (operand_mapped k w n' None G O') as [_ M']. rewrite M in M'. congruence.
Qed.
Lemma comparators_functional w op op' : In (w, op) comparators -> In (w, op') comparators -> op = op'.
Proof. intros I I'. destruct (comparator_token w op I) as [k [G [_ <-]]]. exact (proj2 (comparator_kind k w op' G I')). Qed.
Lemma arithmetic_functional w op op' : In (w, op) arithmetic_symbols -> In (w, op') arithmetic_symbols -> op = op'.
Proof. intros I I'. destruct (arithmetic_token w op I) as [k [G [_ <-]]]. exact (proj2 (arithmetic_kind k w op' G I')). Qed.
Lemma connectives_functional w op op' : In (w, op) connectives -> In (w, op') connectives -> op = op'.
Proof. intros I I'. destruct (connective_token w op I) as [k [G [_ <-]]]. exact (proj2 (connective_kind k w op' G I')). Qed.
Lemma functions_functional w f f' : In (w, f) function_names -> In (w, f') function_names -> f = f'.
Proof. intros I I'. destruct (function_token w f I) as [k [G [_ E]]]. destruct (function_kind_of k w f' G I') as [_ E']. congruence. Qed.
Lemma arrays_functional w op op' : In (w, op) array_operators -> In (w, op') array_operators -> op = op'.
Proof. intros I I'. destruct (array_token w op I) as [k [G [_ <-]]]. exact (proj2 (array_kind k w op' G I')). Qed.

Scheme denotes_ind' := Minimality for denotes Sort Prop
  with denotes_list_ind' := Minimality for denotes_list Sort Prop.
Combined Scheme denotes_mut from denotes_ind', denotes_list_ind'.

Lemma denotes_erase dflt :
  (forall t n, denotes dflt t n -> forall n', denotes dflt t n' -> erase n = erase n') /\
  (forall ts ns, denotes_list dflt ts ns -> forall ns', denotes_list dflt ts ns' -> map erase ns = map erase ns').
Proof.
  apply (denotes_mut dflt (fun t n => forall n', denotes dflt t n' -> erase n = erase n')
                          (fun ts ns => forall ns', denotes_list dflt ts ns' -> map erase ns = map erase ns')).
  - intros t n _ IH n' D. inversion D; subst. auto.
  - intros nt t n _ IH n' D. inversion D; subst. cbn [erase]. f_equal. auto.
  - intros t n _ IH n' D. inversion D; subst. cbn [erase]. f_equal. auto.
  - intros k w n O n' D. inversion D; subst. f_equal. eapply operand_functional; eassumption.
  - intros next n' D. inversion D; subst. reflexivity.
  - intros f to lo hi kl kh a b ta tb F A B n' D. inversion D; subst.
    assert (X := operand_functional _ _ _ A H7). assert (Y := operand_functional _ _ _ B H8). injection X as <- <-. injection Y as <- <-. reflexivity.
  - intros k w fn items ns I _ IH n' D. inversion D; subst. cbn [erase]. match goal with X : In (w, _) _ |- _ => rewrite (functions_functional _ _ _ I X) end. f_equal. auto.
  - intros f it items ns F _ IH n' D. inversion D; subst. cbn [erase]. f_equal. auto.
  - intros f nt it items ns F _ IH n' D. inversion D; subst. cbn [erase]. f_equal. f_equal. auto.
  - intros f k w op items ns F I _ IH n' D. inversion D; subst. cbn [erase]. match goal with X : In (w, _) _ |- _ => rewrite (arrays_functional _ _ _ I X) end. f_equal. auto.
  - intros l k w op r a b dt I _ IHl _ IHr n' D. inversion D; subst. cbn [erase]. match goal with X : In (w, _) _ |- _ => rewrite (comparators_functional _ _ _ I X) end. f_equal; auto.
  - intros l k w op r a b I _ IHl _ IHr n' D. inversion D; subst. cbn [erase]. match goal with X : In (w, _) _ |- _ => rewrite (arithmetic_functional _ _ _ I X) end. f_equal; [auto|f_equal; auto].
  - intros l k w op r a b I _ IHl _ IHr n' D. inversion D; subst. cbn [erase]. match goal with X : In (w, _) _ |- _ => rewrite (connectives_functional _ _ _ I X) end. f_equal; [auto|f_equal; auto].
  - intros ns' D. inversion D. reflexivity.
  - intros t ts n ns _ IH _ IHs ns' D. inversion D; subst. cbn [map]. f_equal; auto.
Qed.
Lemma denotes_same E d dflt t n n' : denotes dflt t n -> denotes dflt t n' ->
  bool_eval E d n = bool_eval E d n' /\ arith_eval E d n = arith_eval E d n'.
Proof.
  intros D D'. assert (X := proj1 (denotes_erase dflt) t n D n' D').
  rewrite <- (bool_erase E d n), <- (bool_erase E d n'), <- (arith_erase E d n), <- (arith_erase E d n'), X. auto.
Qed.

(** ** Walking *)
Definition node_sort (n : node) : sort :=
  match n with
  | NCmp _ _ _ _ | NBool _ _ _ => Logic
  | NRange _ _ _ _ _ | NIn _ _ | NArray _ _ _ => Member
  | NArith _ _ _ => Arithmetic
  | NFunc _ _ => Function
  | NField _ | NUnary _ _ => Nothing
  end.
Definition top_sort (s : list node) : sort := match s with [] => Nothing | n :: _ => node_sort n end.

Definition walk_list (dflt : option jstr) : list ptree -> lstate -> res lstate :=
  fix go (l : list ptree) (st : lstate) {struct l} : res lstate := match l with [] => Ok st | i :: l' => st' <- walk dflt i st ;; go l' st' end.
Definition elements (dflt : option jstr) : list ptree -> list node -> res (list node * list node) :=
  fix go (l : list ptree) (s : list node) {struct l} : res (list node * list node) :=
    match l with [] => Ok ([], s) | i :: l' => ns <- map_context dflt i s ;; rs <- go l' (snd ns) ;; Ok (fst ns :: fst rs, snd rs) end.
Lemma elements_map dflt l : forall s, elements dflt l s = map_elements dflt l s.
Proof. induction l as [|i l IH]; intros s; [reflexivity|]. cbn [map_elements]. change (elements dflt (i :: l) s) with (ns <- map_context dflt i s ;; rs <- elements dflt l (snd ns) ;; Ok (fst ns :: fst rs, snd rs)). destruct (map_context dflt i s); [|reflexivity]. cbn [bind]. rewrite IH. reflexivity. Qed.

Lemma walk_func dflt fn items st : walk dflt (PFunc fn items) st = (st' <- walk_list dflt items st ;; push_context dflt (PFunc fn items) st').
Proof. reflexivity. Qed.
Lemma walk_in dflt f neg it items st : walk dflt (PIn f neg it items) st = (st' <- walk_list dflt items st ;; push_context dflt (PIn f neg it items) st').
Proof. reflexivity. Qed.
Lemma walk_array dflt f op items st : walk dflt (PArray f op items) st = (st' <- walk_list dflt items st ;; exit_array dflt f op items st').
Proof. reflexivity. Qed.
Lemma context_func dflt fn items s : map_context dflt (PFunc fn items) s =
  match function_of (kind fn) with None => Err InvalidExpression | Some ft => is <- map_elements dflt items s ;; Ok (NFunc ft (fst is), snd is) end.
Proof. destruct (function_of (kind fn)) eqn:E; cbn [map_context]; rewrite E; [|reflexivity]. fold (elements dflt). rewrite elements_map. reflexivity. Qed.
Lemma context_in dflt f neg it items s : map_context dflt (PIn f neg it items) s =
  (fld <- named_field dflt f ;; is <- map_elements dflt items s ;;
   Ok (match neg with None => NIn fld (fst is) | Some _ => NBool (NIn fld (fst is)) None NOT end, snd is)).
Proof. cbn [map_context]. fold (elements dflt). destruct (named_field dflt f); [|reflexivity]. cbn [bind]. rewrite elements_map. reflexivity. Qed.

Definition pushed (dflt : option jstr) (t : ptree) (st : lstate) : Prop :=
  exists n st', walk dflt t st = Ok st' /\ stack st' = n :: stack st /\ denotes dflt t n /\ node_sort n = sort_of t.

Lemma plain_walk dflt t st : plain t = true -> exists lt tc, walk dflt t st = Ok (LState (stack st) lt tc).
Proof. destruct t; try discriminate; intros _; cbn; unfold exit_types; eauto. Qed.
Lemma plain_types dflt t n : plain t = true -> Forall genuine (yield t) -> denotes dflt t n -> as_types dflt t = Some (Ok n) /\ forall s, map_context dflt t s = Ok (n, s).
Proof.
  intros P G D. destruct t; try discriminate P.
  - inversion D; subst. inversion G; subst. destruct (operand_mapped k w n dflt H2 H0) as [_ M]. cbn [as_types map_context]. rewrite M. auto.
  - inversion D; subst. auto.
Qed.
Lemma plain_list dflt items ns : forallb plain items = true -> Forall genuine (sep_yield items) -> denotes_list dflt items ns ->
  (forall st, exists lt tc, walk_list dflt items st = Ok (LState (stack st) lt tc)) /\ forall s, map_elements dflt items s = Ok (ns, s).
Proof.
  intros P. revert ns. induction items as [|i items IH]; intros ns G D; inversion D; subst.
  - split; [intros [s lt tc]; cbn; eauto|reflexivity].
  - cbn [forallb] in P. apply andb_true_iff in P. destruct P as [Pi P].
    assert (Gi : Forall genuine (yield i) /\ Forall genuine (sep_yield items)).
    { destruct items as [|j items]; [split; [exact G|constructor]|]. rewrite sep_yield_cons in G by discriminate.
      apply Forall_app in G. destruct G as [G1 G2]. inversion G2; auto. }
    destruct Gi as [Gi Gs]. destruct (IH P _ Gs H3) as [W M]. destruct (plain_types dflt i n Pi Gi H1) as [_ Mi]. split.
    + intros st. cbn [walk_list]. destruct (plain_walk dflt i st Pi) as [lt [tc ->]]. cbn [bind]. apply (W (LState (stack st) lt tc)).
    + intros s. cbn [map_elements]. rewrite Mi. cbn [bind fst snd]. rewrite M. reflexivity.
Qed.
Lemma named_ok dflt f : field_name (text f) -> named_field dflt f = Ok (Some (text f)).
Proof. intros F. unfold named_field. rewrite (field_not_blank _ F). reflexivity. Qed.
Lemma literal_converted k w dt v : genuine (Tok k w) -> operand w (NUnary dt v) -> token_data_type (Tok k w) = dt /\ convert_value w (token_data_type (Tok k w)) = Ok v.
Proof.
  intros G O. destruct (operand_mapped k w _ None G O) as [_ M].
  assert (k <> T_FIELD) as NK by (intros ->; discriminate M). rewrite (map_literal None k w G NK) in M.
  destruct (convert_value w _) as [x|]; [|discriminate M]. cbn in M. injection M as <- <-. auto.
Qed.
Lemma sep_genuine a items b : Forall genuine (a ++ lparen :: sep_yield items ++ b) -> Forall genuine (sep_yield items).
Proof. intros G. apply Forall_app in G. destruct G as [_ G]. inversion G; subst. apply Forall_app in H2. tauto. Qed.

Lemma steals_fit l r n s : node_sort n <> Nothing -> (is_parent l = true \/ is_parent r = true \/ node_sort n <> Logic) -> steals l r (n :: s) = true.
Proof.
  intros N0 H. unfold steals. destruct (is_parent r); [reflexivity|]. destruct (is_parent l); [reflexivity|]. cbn [orb].
  destruct H as [H|[H|H]]; try discriminate H. destruct n; try reflexivity; contradiction H; reflexivity.
Qed.
Lemma steals_not l r s : plain l = true -> plain r = true -> top_sort s = Nothing \/ top_sort s = Logic -> (s = [] \/ node_sort (hd (NField None) s) <> Nothing) -> steals l r s = false.
Proof.
  intros L R T NE. assert (is_parent l = false) as Pl by (destruct l; try discriminate L; reflexivity). assert (is_parent r = false) as Pr by (destruct r; try discriminate R; reflexivity).
  destruct s as [|n s]; [reflexivity|]. unfold steals. rewrite Pl, Pr. cbn in *. destruct NE as [NE|NE]; [discriminate NE|]. destruct T as [T|T]; [contradiction|]. destruct n; try discriminate T; reflexivity.
Qed.
Lemma regular_sort b t : regular b t -> sort_of t <> Nothing /\ as_types None t = None /\ plain t = false.
Proof. induction 1 as [| | | | | |? ? ng| | | | | | | | |]; try (destruct ng); (split; [first [discriminate|apply IHregular]|split; reflexivity]). Qed.
Lemma regular_types b t dflt : regular b t -> as_types dflt t = None.
Proof. intros R. destruct R; reflexivity. Qed.

(** no plain operands on the stack *)
Definition clean (s : list node) : Prop := Forall (fun n => node_sort n <> Nothing) s.

Ltac ren D t Y := match goal with X : denotes _ t _ |- _ => rename X into Y end.
Ltac rens := match goal with X : denotes_list _ _ _ |- _ => rename X into Ds end.
Ltac renw := match goal with X : In (_, _) _ |- _ => rename X into Iw end.
Ltac renf := match goal with X : field_name _ |- _ => rename X into Ff end.
Lemma walk_regular dflt b t : regular b t -> forall n0 st, Forall genuine (yield t) -> denotes dflt t n0 -> clean (stack st) -> top_sort (stack st) = b -> pushed dflt t st.
Proof.
  induction 1 as [b t R IH|b nt t R IH|b t R IH S0|b t P B|b f lo to hi|b fn items P|b f neg it items P|b f op items P
    |b l op r Pl Pr B|b l op r Pl R IH F|b l op r R IH Pr F|b l op r Pl Pr|b l op r Pl R IH|b l op r R IH Pr|b l op r Rl IHl Rr IHr|b l op r Rl IHl Rr IHr];
    intros n0 st G D C T; inversion D; subst; unfold pushed.
  - (* parentheses *)
    ren D t Dt. cbn [yield] in G. inversion G as [|? ? G1 G2]; subst. apply Forall_app in G2. destruct (IH n0 st (proj1 G2) Dt C eq_refl) as [n [st' [W [S [Dn K]]]]].
    exists n, st'. split; [exact W|]. split; [exact S|]. split; [constructor; exact Dn|exact K].
  - (* NOT *)
    ren D t Dt. cbn [yield] in G. inversion G as [|? ? G1 G2]; subst. destruct (IH n st G2 Dt C eq_refl) as [m [st' [W [S [Dn K]]]]].
    cbn [walk]. rewrite W. cbn [bind]. unfold exit_not. rewrite S. eexists _, _. split; [reflexivity|]. split; [reflexivity|]. split; [constructor; exact Dn|reflexivity].
  - (* negation of a compound *)
    ren D t Dt. cbn [yield] in G. inversion G as [|? ? G1 G2]; subst. destruct (IH n st G2 Dt C eq_refl) as [m [st' [W [S [Dn K]]]]].
    rewrite S0 in K. destruct m; try discriminate K. cbn [walk]. rewrite W. cbn [bind]. unfold exit_unary. rewrite S.
    eexists _, _. split; [reflexivity|]. split; [reflexivity|]. split; [constructor; exact Dn|reflexivity].
  - (* negation of a plain operand *)
    ren D t Dt. cbn [yield] in G. inversion G as [|? ? G1 G2]; subst. destruct (plain_walk dflt t st P) as [lt [tc W]]. destruct (plain_types dflt t n P G2 Dt) as [A _].
    cbn [walk]. rewrite W. cbn [bind]. unfold exit_unary. cbn [stack]. rewrite A.
    exists (NArith n None UNARY), (LState (NArith n None UNARY :: stack st) lt tc). split; [|split; [reflexivity|split; [constructor; exact Dt|reflexivity]]].
    destruct (stack st) as [|x s]; [reflexivity|]. destruct x; try reflexivity. contradiction B; reflexivity.
  - (* range *)
    match goal with X : operand lo0 _ |- _ => rename X into Oa end. match goal with X : operand hi0 _ |- _ => rename X into Ob end. renf. cbn [yield] in G. inversion G as [|? ? G1 G2]; subst. inversion G2 as [|? ? G3 G4]; subst. inversion G4 as [|? ? G5 G6]; subst. inversion G6 as [|? ? G7 G8]; subst.
    destruct (literal_converted _ _ _ _ G3 Oa) as [Ta Ca]. destruct (literal_converted _ _ _ _ G7 Ob) as [Tb Cb].
    eexists _, _. split; [|split; [|split; [exact D|reflexivity]]].
    + cbn [walk]. unfold push_context. cbn [map_context text]. rewrite (named_ok dflt f Ff). cbn [bind]. rewrite Ca. cbn [bind]. rewrite Cb. cbn [bind fst snd]. rewrite Ta, Tb. reflexivity.
    + reflexivity.
  - (* function *)
    rens. renw. rewrite yield_func in G. assert (Gs := sep_genuine [Tok k w] _ _ G). inversion G as [|? ? G1 G2]; subst.
    destruct (function_kind_of k w fn0 G1 Iw) as [_ Fo]. destruct (plain_list dflt items ns P Gs Ds) as [W M]. destruct (W st) as [lt [tc Wst]].
    eexists _, _. split; [|split; [|split; [exact D|reflexivity]]].
    + rewrite walk_func, Wst. cbn [bind]. unfold push_context. rewrite context_func. cbn [kind stack]. rewrite Fo, M. reflexivity.
    + reflexivity.
  - (* IN *)
    rens. renf. rewrite yield_in in G. assert (Gs := sep_genuine [f; it] _ _ G). destruct (plain_list dflt items ns P Gs Ds) as [W M]. destruct (W st) as [lt [tc Wst]].
    eexists _, _. split; [|split; [|split; [exact D|reflexivity]]].
    + rewrite walk_in, Wst. cbn [bind]. unfold push_context. rewrite context_in. rewrite (named_ok dflt f Ff). cbn [bind stack]. rewrite M. reflexivity.
    + reflexivity.
  - (* NOT IN *)
    rens. renf. rewrite yield_in in G. assert (Gs := sep_genuine [f; nt; it] _ _ G). destruct (plain_list dflt items ns P Gs Ds) as [W M]. destruct (W st) as [lt [tc Wst]].
    eexists _, _. split; [|split; [|split; [exact D|reflexivity]]].
    + rewrite walk_in, Wst. cbn [bind]. unfold push_context. rewrite context_in. rewrite (named_ok dflt f Ff). cbn [bind stack]. rewrite M. reflexivity.
    + reflexivity.
  - (* CONTAINS *)
    rens. renf. renw. rewrite yield_array in G. assert (Gs := sep_genuine [f; Tok k w] _ _ G). inversion G as [|? ? G1 G2]; subst. inversion G2 as [|? ? G3 G4]; subst.
    destruct (array_kind k w op0 G3 Iw) as [_ Ao]. destruct (plain_list dflt items ns P Gs Ds) as [W M]. destruct (W st) as [lt [tc Wst]].
    eexists _, _. split; [|split; [|split; [exact D|reflexivity]]].
    + rewrite walk_array, Wst. cbn [bind]. unfold exit_array. rewrite (named_ok dflt f Ff). cbn [bind stack kind]. rewrite M, Ao. reflexivity.
    + reflexivity.
  - (* comparison of plain operands *)
    ren D l Dl. ren D r Dr. renw. cbn [yield] in G. apply Forall_app in G. destruct G as [Gl G]. inversion G as [|? ? Go Gr]; subst. destruct (comparator_kind k w op0 Go Iw) as [_ Oo].
    destruct (plain_walk dflt l st Pl) as [lt [tc Wl]]. destruct (plain_walk dflt r (LState (stack st) lt tc) Pr) as [lt' [tc' Wr]].
    destruct (plain_types dflt l a Pl Gl Dl) as [Al Ml]. destruct (plain_types dflt r b0 Pr Gr Dr) as [Ar Mr].
    eexists _, _. split; [|split; [|split; [constructor; eassumption|reflexivity]]].
    + cbn [walk]. rewrite Wl. cbn [bind]. rewrite Wr. cbn [bind]. unfold push_context. cbn [stack]. cbn [map_context].
      rewrite steals_not; [|exact Pl|exact Pr|exact B|]. 2:{ destruct (stack st); [left; reflexivity|right; inversion C; assumption]. }
      rewrite Mr. cbn [bind snd fst]. rewrite Ml. cbn [bind snd fst kind]. rewrite Oo. reflexivity.
    + reflexivity.
  - (* compound on the right *)
    ren D l Dl. ren D r Dr. renw. cbn [yield] in G. apply Forall_app in G. destruct G as [Gl G]. inversion G as [|? ? Go Gr]; subst. destruct (comparator_kind k w op0 Go Iw) as [_ Oo].
    destruct (plain_walk dflt l st Pl) as [lt [tc Wl]]. destruct (plain_types dflt l a Pl Gl Dl) as [Al Ml].
    destruct (IH b0 (LState (stack st) lt tc) Gr Dr C eq_refl) as [m [st' [W [S [Dn K]]]]]. cbn [stack] in S.
    destruct (regular_sort _ _ R) as [NS _].
    eexists _, _. split; [|split; [|split; [constructor; [eassumption|exact Dl|exact Dn]|reflexivity]]].
    + cbn [walk]. rewrite Wl. cbn [bind]. rewrite W. cbn [bind]. unfold push_context. cbn [map_context]. rewrite S.
      rewrite steals_fit; [|congruence|]. 2:{ destruct F as [[t' ->]|F]; [right; left; reflexivity|right; right; congruence]. }
      rewrite Al. cbn [bind pop fst snd kind]. rewrite Oo. reflexivity.
    + reflexivity.
  - (* compound on the left *)
    ren D l Dl. ren D r Dr. renw. cbn [yield] in G. apply Forall_app in G. destruct G as [Gl G]. inversion G as [|? ? Go Gr]; subst. destruct (comparator_kind k w op0 Go Iw) as [_ Oo].
    destruct (IH a st Gl Dl C eq_refl) as [m [st' [W [S [Dn K]]]]]. destruct (plain_walk dflt r st' Pr) as [lt [tc Wr]].
    destruct (plain_types dflt r b0 Pr Gr Dr) as [Ar Mr]. destruct (regular_sort _ _ R) as [NS _].
    eexists _, _. split; [|split; [|split; [constructor; [eassumption|exact Dn|exact Dr]|reflexivity]]].
    + cbn [walk]. rewrite W. cbn [bind]. rewrite Wr. cbn [bind]. unfold push_context. cbn [map_context stack]. rewrite S.
      rewrite steals_fit; [|congruence|]. 2:{ destruct F as [[t' ->]|F]; [left; reflexivity|right; right; congruence]. }
      rewrite (regular_types _ _ dflt R), Ar. cbn [bind pop fst snd kind]. rewrite Oo. reflexivity.
    + reflexivity.
  - (* arithmetic on plain operands *)
    ren D l Dl. ren D r Dr. renw. cbn [yield] in G. apply Forall_app in G. destruct G as [Gl G]. inversion G as [|? ? Go Gr]; subst. destruct (arithmetic_kind k w op0 Go Iw) as [_ Oo].
    destruct (plain_walk dflt l st Pl) as [lt [tc Wl]]. destruct (plain_walk dflt r (LState (stack st) lt tc) Pr) as [lt' [tc' Wr]].
    destruct (plain_types dflt l a Pl Gl Dl) as [Al Ml]. destruct (plain_types dflt r b0 Pr Gr Dr) as [Ar Mr].
    eexists _, _. split; [|split; [|split; [constructor; eassumption|reflexivity]]].
    + cbn [walk]. rewrite Wl. cbn [bind]. rewrite Wr. cbn [bind]. unfold push_context. cbn [stack]. cbn [map_context].
      rewrite Al, Ar. cbn [bind snd fst kind]. rewrite Oo. reflexivity.
    + reflexivity.
  - ren D l Dl. ren D r Dr. renw. cbn [yield] in G. apply Forall_app in G. destruct G as [Gl G]. inversion G as [|? ? Go Gr]; subst. destruct (arithmetic_kind k w op0 Go Iw) as [_ Oo].
    destruct (plain_walk dflt l st Pl) as [lt [tc Wl]]. destruct (plain_types dflt l a Pl Gl Dl) as [Al Ml].
    destruct (IH b0 (LState (stack st) lt tc) Gr Dr C eq_refl) as [m [st' [W [S [Dn K]]]]]. cbn [stack] in S.
    eexists _, _. split; [|split; [|split; [constructor; [eassumption|exact Dl|exact Dn]|reflexivity]]].
    + cbn [walk]. rewrite Wl. cbn [bind]. rewrite W. cbn [bind]. unfold push_context. cbn [map_context]. rewrite S.
      rewrite (regular_types _ _ dflt R), Al. cbn [bind pop fst snd kind]. rewrite Oo. reflexivity.
    + reflexivity.
  - ren D l Dl. ren D r Dr. renw. cbn [yield] in G. apply Forall_app in G. destruct G as [Gl G]. inversion G as [|? ? Go Gr]; subst. destruct (arithmetic_kind k w op0 Go Iw) as [_ Oo].
    destruct (IH a st Gl Dl C eq_refl) as [m [st' [W [S [Dn K]]]]]. destruct (plain_walk dflt r st' Pr) as [lt [tc Wr]].
    destruct (plain_types dflt r b0 Pr Gr Dr) as [Ar Mr].
    eexists _, _. split; [|split; [|split; [constructor; [eassumption|exact Dn|exact Dr]|reflexivity]]].
    + cbn [walk]. rewrite W. cbn [bind]. rewrite Wr. cbn [bind]. unfold push_context. cbn [map_context stack]. rewrite S.
      rewrite (regular_types _ _ dflt R), Ar. cbn [bind pop fst snd kind]. rewrite Oo. reflexivity.
    + reflexivity.
  - ren D l Dl. ren D r Dr. renw. cbn [yield] in G. apply Forall_app in G. destruct G as [Gl G]. inversion G as [|? ? Go Gr]; subst. destruct (arithmetic_kind k w op0 Go Iw) as [_ Oo].
    destruct (IHl a st Gl Dl C eq_refl) as [m [st1 [W1 [S1 [D1 K1]]]]]. destruct (regular_sort _ _ Rl) as [NS _].
    assert (C1 : clean (stack st1)) by (rewrite S1; constructor; [congruence|exact C]).
    assert (T1 : top_sort (stack st1) = sort_of l) by (rewrite S1; exact K1).
    destruct (IHr b0 st1 Gr Dr C1 T1) as [m2 [st2 [W2 [S2 [D2 K2]]]]].
    eexists _, _. split; [|split; [|split; [constructor; [eassumption|exact D1|exact D2]|reflexivity]]].
    + cbn [walk]. rewrite W1. cbn [bind]. rewrite W2. cbn [bind]. unfold push_context. cbn [map_context]. rewrite S2, S1.
      rewrite (regular_types _ _ dflt Rl), (regular_types _ _ dflt Rr). cbn [bind fst snd kind]. rewrite Oo. reflexivity.
    + reflexivity.
  - ren D l Dl. ren D r Dr. renw. cbn [yield] in G. apply Forall_app in G. destruct G as [Gl G]. inversion G as [|? ? Go Gr]; subst. destruct (connective_kind k w op0 Go Iw) as [_ Oo].
    destruct (IHl a st Gl Dl C eq_refl) as [m [st1 [W1 [S1 [D1 K1]]]]]. destruct (regular_sort _ _ Rl) as [NS _].
    assert (C1 : clean (stack st1)) by (rewrite S1; constructor; [congruence|exact C]).
    assert (T1 : top_sort (stack st1) = sort_of l) by (rewrite S1; exact K1).
    destruct (IHr b0 st1 Gr Dr C1 T1) as [m2 [st2 [W2 [S2 [D2 K2]]]]].
    eexists _, _. split; [|split; [|split; [constructor; [eassumption|exact D1|exact D2]|reflexivity]]].
    + cbn [walk]. rewrite W1. cbn [bind]. rewrite W2. cbn [bind]. unfold exit_binary. rewrite S2, S1. cbn [kind]. rewrite Oo. reflexivity.
    + reflexivity.
Qed.
