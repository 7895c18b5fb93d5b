(** List and range tests on values of any types. *)
From Coq Require Import QArith Lia.
From Verif Require Import Base JNum BigDec Dates Version Values Ops Funcs Ast Eval SpecNum SpecDate SpecCompare SpecMixed SpecFunc SpecPath CompareFacts OrderFacts FieldFacts MemberFacts MixedFacts CompareWitness SpecList.
Local Open Scope Z_scope.

Lemma some_any {A} (ask : A -> res bool -> Prop) f l : (forall a r, In a l -> (ask a r <-> f a = r)) -> forall r, some_of ask l r <-> anyM f l = r.
Proof.
  induction l as [|a l IH]; intros H r.
  - split; [intros X; inversion X; reflexivity|cbn; intros <-; constructor].
  - assert (IH' := fun r => IH (fun a r X => H a r (or_intror X)) r). assert (Ha := fun r => H a r (or_introl eq_refl)). cbn [anyM]. split.
    + intros X. inversion X as [|? ? Y|? ? ? Y Z|? ? ? Y]; subst; apply Ha in Y; rewrite Y; cbn [bind]; auto. apply IH'. exact Z.
    + destruct (f a) as [[]|e] eqn:F; cbn [bind].
      * intros <-. apply some_yes, Ha; reflexivity.
      * intros X. apply some_no; [apply Ha; reflexivity|apply IH', X].
      * intros <-. apply some_fail, Ha; reflexivity.
Qed.
Lemma every_all {A} (ask : A -> res bool -> Prop) f l : (forall a r, In a l -> (ask a r <-> f a = r)) -> forall r, every_of ask l r <-> allM f l = r.
Proof.
  induction l as [|a l IH]; intros H r.
  - split; [intros X; inversion X; reflexivity|cbn; intros <-; constructor].
  - assert (IH' := fun r => IH (fun a r X => H a r (or_intror X)) r). assert (Ha := fun r => H a r (or_introl eq_refl)). cbn [allM]. split.
    + intros X. inversion X as [|? ? Y|? ? ? Y Z|? ? ? Y]; subst; apply Ha in Y; rewrite Y; cbn [bind]; auto. apply IH'. exact Z.
    + destruct (f a) as [[]|e] eqn:F; cbn [bind].
      * intros X. apply every_yes; [apply Ha; reflexivity|apply IH', X].
      * intros <-. apply every_no, Ha; reflexivity.
      * intros <-. apply every_fail, Ha; reflexivity.
Qed.
Lemma anyM_map {A B} (g : A -> B) f l : anyM f (map g l) = anyM (fun a => f (g a)) l.
Proof. induction l as [|a l IH]; auto. cbn. rewrite IH. reflexivity. Qed.
Lemma allM_map {A B} (g : A -> B) f l : allM f (map g l) = allM (fun a => f (g a)) l.
Proof. induction l as [|a l IH]; auto. cbn. rewrite IH. reflexivity. Qed.

(** The elements *)
Lemma element_eval E d i x : element E d i x <-> item_eval E d i = x.
Proof.
  unfold item_eval. split.
  - intros X. inversion X as [? B|? ? B R|? ? B R]; subst; rewrite B; auto; rewrite R; reflexivity.
  - destruct (is_arith_base i) eqn:B; [intros <-; constructor; auto|]. destruct (bool_eval E d i) as [b|e] eqn:R; cbn; intros <-; [apply answered|apply unanswered]; auto.
Qed.
Lemma elements_eval E d items ms : elements E d items ms -> exists vs, mapM (item_eval E d) items = Ok vs /\ ms = flat_map flatten_one vs.
Proof.
  intros (vs & H & ->). exists vs. split; [|symmetry; apply flatten_members]. induction H as [|i v is vs Hi _ IH]; auto. cbn. apply element_eval in Hi. rewrite Hi. cbn. rewrite IH. reflexivity.
Qed.

(** Equality with one member *)
Definition equals (v m : jval) : res bool := eval_equals v (get_data_type v) (m, get_data_type m).
Lemma equals_cond v m : v <> VNull -> m <> VNull -> is_valid (get_data_type v) v = Ok true ->
  equals v m = bool_eval witness_env [] (cond (lit v) EQUALS (lit m)).
Proof. intros Hv Hm V. rewrite (cond_yields _ _ _ _ _ _ _ (yields_lit _ _ v Hv) (yields_lit _ _ m Hm)), equals_logical, V. reflexivity. Qed.

Lemma accepts_same c : accepts EQUALS c = Some (same c).
Proof. destruct c; reflexivity. Qed.
Lemma equals_null v : equals v VNull = Err NullPointer.
Proof.
  unfold equals, eval_equals, compare_as. cbn [snd fst get_data_type]. assert (T : equality_type (get_data_type v) STRING = STRING) by (destruct (get_data_type v); reflexivity).
  rewrite T. unfold primitive_value, get_value, get_string. destruct v; reflexivity.
Qed.

Lemma equal_eval v a m : stands v a -> (exists t, member_type m t) -> forall r, equal_to v m r <-> equals v m = r.
Proof.
  intros Hv Hm r. destruct (stands_type v a Hv) as (Ta & Nv & V). rewrite <- Ta in V.
  assert (Fwd : forall r, equal_to v m r -> equals v m = r).
  { clear r. intros r X. destruct X as [m a' b t x y c Sv Sm M Rv Rm C|m a' b Sv Sm I|dbl t Sv N|dbl t a' Sv Na N|].
    - destruct (stands_type m b Sm) as (_ & Nm & _). rewrite equals_cond by auto.
      refine (proj1 (mixed_comparison witness_env [] _ _ EQUALS Eq v m a' b _ (yields_lit _ _ v Nv) (yields_lit _ _ m Nm) Sv Sm) t x y c _ M Rv Rm C (accepts_same c)). discriminate.
    - destruct (stands_type m b Sm) as (_ & Nm & _). rewrite equals_cond by auto.
      refine (proj1 (proj2 (mixed_comparison witness_env [] _ _ EQUALS Eq v m a' b _ (yields_lit _ _ v Nv) (yields_lit _ _ m Nm) Sv Sm)) I). discriminate.
    - rewrite equals_cond by (auto; discriminate). assert (Nm : VFloat dbl t <> VNull) by discriminate.
      apply (not_finite_right witness_env [] _ _ EQUALS Eq dbl t v STRING); auto; try (apply yields_lit; auto). discriminate.
    - rewrite equals_cond by (auto; discriminate). assert (Nm : VFloat dbl t <> VNull) by discriminate.
      rewrite (not_finite_right witness_env [] _ _ EQUALS Eq dbl t v a'); auto; try (apply yields_lit; auto); try discriminate. destruct a'; congruence.
    - apply equals_null. }
  split; [apply Fwd|]. intros <-. enough (exists r, equal_to v m r) as [r X] by (rewrite (Fwd r X); exact X).
  destruct Hm as [t [Sm | [[-> _] | (dbl & s & -> & N & _)]]].
  - destruct (stands_type m t Sm) as (_ & Nm & _).
    destruct (proj2 (proj2 (mixed_comparison witness_env [] _ _ EQUALS Eq v m a t ltac:(discriminate) (yields_lit _ _ v Nv) (yields_lit _ _ m Nm) Hv Sm))) as [I|(t' & x & y & c & b & M & Rv & Rm & C & _)].
    + eexists. eapply equal_refused; eauto.
    + eexists. eapply equal_read; eauto.
  - eexists. apply equal_null.
  - assert (D : a = STRING \/ a <> STRING) by (destruct a; auto; right; discriminate). destruct D as [-> |Na].
    + eexists. apply equal_nan_text; auto.
    + eexists. eapply equal_nan; eauto.
Qed.

Lemma in_outcome E d f v a items ms : arith_eval E d (NField (Some f)) = Ok v -> stands v a -> elements E d items ms -> Forall (fun m => exists t, member_type m t) ms ->
  forall r, some_of (equal_to v) ms r <-> bool_eval E d (NIn (Some f) items) = r.
Proof.
  intros F Hv H T r. destruct (elements_eval _ _ _ _ H) as (vs & Hi & ->). rewrite in_unfold. cbn [arith_eval] in F. rewrite F. cbn [bind]. rewrite Hi. cbn [bind].
  rewrite in_logical. destruct (stands_type v a Hv) as (Ta & Nv & V). rewrite <- Ta in V. rewrite V. cbn [bind]. unfold map_to_evaluated, eval_in. rewrite anyM_map.
  apply some_any. intros m x I. apply (equal_eval v a); auto. rewrite Forall_forall in T. auto.
Qed.
Lemma in_not_finite E d f dbl t items ms : arith_eval E d (NField (Some f)) = Ok (VFloat dbl t) -> not_finite t -> elements E d items ms ->
  bool_eval E d (NIn (Some f) items) = Err InvalidDataType.
Proof.
  intros F N H. destruct (elements_eval _ _ _ _ H) as (vs & Hi & ->). rewrite in_unfold. cbn [arith_eval] in F. rewrite F. cbn [bind]. rewrite Hi. cbn [bind].
  rewrite in_logical. destruct (not_finite_parse t N) as [P _]. cbn. rewrite P. reflexivity.
Qed.

(** CONTAINS *)
Lemma prints_eval m h r : prints_as m h r <-> eval_equals m (get_data_type m) (h, STRING) = r.
Proof.
  assert (Z : m = VNull \/ h = VNull -> eval_equals m (get_data_type m) (h, STRING) = Err NullPointer).
  { intros X. unfold eval_equals, compare_as. cbn [snd fst]. assert (T : equality_type (get_data_type m) STRING = STRING) by (destruct (get_data_type m); reflexivity). rewrite T.
    unfold primitive_value, get_value, get_string. destruct X as [-> | ->]; [reflexivity|destruct m; reflexivity]. }
  split.
  - intros X. inversion X as [h' Nm Nh|h' Y]; subst; [apply text_equal; auto|apply Z; auto].
  - intros <-. destruct m; try (destruct h; try (rewrite text_equal by discriminate; apply prints_same; discriminate); rewrite Z by auto; apply prints_null; auto).
Qed.
Lemma member_own m t : member_type m t -> get_data_type m = t.
Proof. intros [H|[[-> ->]|(dbl & s & -> & _ & ->)]]; [apply stands_type in H; tauto|reflexivity|reflexivity]. Qed.
Lemma mixed_heterogeneous ms ts : Forall2 member_type ms ts -> heterogeneous (map (fun v => (v, get_data_type v)) ms) = false <-> of_one_type ts.
Proof.
  intros H. assert (M : forall m t, In m ms -> In t ts -> True) by auto. split.
  - destruct H as [|m t ms ts H0 H]; [exists STRING; intros ? []|]. cbn [map heterogeneous]. intros X. apply negb_false_iff in X. rewrite forallb_forall in X.
    exists t. intros t' [<- | I]; auto. rewrite <- (member_own m t H0). clear M H0. induction H as [|x u ms ts Hx H IH]; [destruct I|].
    destruct I as [-> | I].
    + specialize (X (x, get_data_type x) (or_introl eq_refl)). cbn in X. rewrite (member_own _ _ Hx) in X. destruct t', (get_data_type m); congruence || discriminate X.
    + apply IH; auto. intros e J. apply X. right. exact J.
  - intros [t O]. apply heterogeneous_false with t. intros m I. clear M. induction H as [|x u ms ts Hx H IH]; [destruct I|]. destruct I as [-> | I].
    + rewrite (member_own _ _ Hx). apply O. left. reflexivity.
    + apply IH; auto. intros t' J. apply O. right. exact J.
Qed.
Lemma array_elements E d f op items ms v : arith_eval E d (NField (Some f)) = Ok v -> elements E d items ms ->
  bool_eval E d (NArray (Some f) op items) =
    if heterogeneous (map (fun v => (v, get_data_type v)) ms) then Err HeterogeneousArray
    else evaluate_logical op LIST v (get_data_type v) (map (fun v => (v, get_data_type v)) ms).
Proof.
  intros F H. destruct (elements_eval _ _ _ _ H) as (vs & Hi & ->). rewrite array_unfold. cbn [arith_eval] in F. rewrite F. cbn [bind]. rewrite Hi. reflexivity.
Qed.
Lemma contains_logical (q : bool) v rs : evaluate_logical (if q then CONTAINS_ALL else CONTAINS_ANY) LIST v (get_data_type v) rs =
  match v with VColl _ _ | VArr _ _ => eval_contains q v STRING rs | _ => Err InvalidDataType end.
Proof.
  unfold evaluate_logical. destruct q; cbn [is_logical negb logical_container container_eqb logical_types]; rewrite mem_all, forallb_all; cbn [negb];
  destruct v; cbn [get_data_type container_is_valid bind negb]; try reflexivity; rewrite allM_true by reflexivity; reflexivity.
Qed.

Lemma contains_outcome E d f (q : bool) items ms ts v : let op := if q then CONTAINS_ALL else CONTAINS_ANY in let x := bool_eval E d (NArray (Some f) op items) in
  arith_eval E d (NField (Some f)) = Ok v -> elements E d items ms -> Forall2 member_type ms ts ->
  (~ of_one_type ts -> x = Err HeterogeneousArray) /\
  (of_one_type ts -> forall have, v = VColl true have -> forall r, (if q then every_of (fun m => some_of (prints_as m) have) ms r else some_of (fun m => some_of (prints_as m) have) ms r) <-> x = r) /\
  (of_one_type ts -> forall l t, v = VColl false l \/ v = VArr l t -> x = Err ClassCast) /\
  (of_one_type ts -> (forall b l, v <> VColl b l) -> (forall l t, v <> VArr l t) -> x = Err InvalidDataType).
Proof.
  cbv zeta. intros F H T. rewrite (array_elements _ _ _ _ _ _ _ F H). pose proof (mixed_heterogeneous ms ts T) as M.
  assert (One : of_one_type ts -> heterogeneous (map (fun v => (v, get_data_type v)) ms) = false) by apply M. split; [|split; [|split]].
  - intros N. destruct (heterogeneous _); auto. exfalso. apply N, M. reflexivity.
  - intros O have -> r. rewrite (One O), contains_logical. unfold eval_contains. cbn [container_is_valid]. rewrite allM_true by reflexivity. cbn [bind].
    assert (A : forall m r, some_of (prints_as m) have r <-> eval_in m (get_data_type m) (map (fun a => (a, STRING)) have) = r).
    { intros m x. unfold eval_in. rewrite anyM_map. apply some_any. intros h y _. apply prints_eval. }
    destruct q; [rewrite allM_map; apply every_all|rewrite anyM_map; apply some_any]; intros m x _; apply A.
  - intros O l t X. rewrite (One O), contains_logical. destruct X as [-> | ->]; unfold eval_contains; cbn [container_is_valid]; rewrite allM_true by reflexivity; reflexivity.
  - intros O N1 N2. rewrite (One O), contains_logical. destruct v; try reflexivity; exfalso; [eapply N1|eapply N2]; reflexivity.
Qed.

(** Missing fields and failing elements come first. *)
Lemma list_missing E d f op items e : arith_eval E d (NField (Some f)) = Err e ->
  bool_eval E d (NIn (Some f) items) = Err e /\ bool_eval E d (NArray (Some f) op items) = Err e.
Proof. intros F. cbn [arith_eval] in F. rewrite in_unfold, array_unfold, F. auto. Qed.
Lemma list_failing E d f op v before i after ms e : arith_eval E d (NField (Some f)) = Ok v -> elements E d before ms -> element E d i (Err e) ->
  bool_eval E d (NIn (Some f) (before ++ i :: after)) = Err e /\ bool_eval E d (NArray (Some f) op (before ++ i :: after)) = Err e.
Proof.
  intros F (vs & H & _) X. apply element_eval in X. rewrite in_unfold, array_unfold. cbn [arith_eval] in F. rewrite F. cbn [bind].
  enough (mapM (item_eval E d) (before ++ i :: after) = Err e) as -> by auto. induction H as [|j w js ws Hj _ IH]; cbn; [rewrite X; reflexivity|].
  apply element_eval in Hj. rewrite Hj. cbn. rewrite IH. reflexivity.
Qed.

(** Ranges *)
Lemma number_own v q : number v q -> v <> VNull.
Proof. intros [ | | |]; discriminate. Qed.
Lemma ordered_cond E d f op v w : op = GREATER_THAN_EQUAL \/ op = LESS_THAN_EQUAL -> arith_eval E d (NField (Some f)) = Ok v -> w <> VNull ->
  bool_eval E d (cond (NField (Some f)) op (lit w)) = evaluate_logical op PRIMITIVE v (get_data_type v) [(w, get_data_type w)].
Proof.
  intros O F N. cbn [arith_eval] in F. unfold field_value_or_fail in F. unfold cond. cbn [bool_eval is_arith_base].
  destruct (field_value (Some f) d) as [o|]; [|discriminate F]. cbn [bind] in *. destruct o as [x|]; [|discriminate F]. injection F as ->.
  assert (L : is_arith_base (lit w) = true) by reflexivity. rewrite L. unfold lit, optional_of.
  destruct O as [-> | ->]; cbn [is_null_check bind]; destruct w; try congruence; reflexivity.
Qed.
Lemma range_both E d f v lo hi t1 t2 p q : arith_eval E d (NField (Some f)) = Ok v -> bound lo t1 p -> bound hi t2 q ->
  bool_eval E d (NRange (Some f) lo hi t1 t2) =
  both (bool_eval E d (cond (NField (Some f)) GREATER_THAN_EQUAL (lit lo))) (bool_eval E d (cond (NField (Some f)) LESS_THAN_EQUAL (lit hi))).
Proof.
  intros F [N1 ->] [N2 ->]. apply number_own in N1, N2. rewrite !(ordered_cond E d f _ v) by auto. cbn [arith_eval] in F. cbn [bool_eval]. rewrite F. cbn [bind].
  destruct (evaluate_logical GREATER_THAN_EQUAL _ _ _ _) as [a|]; [|reflexivity]. cbn [bind]. destruct (evaluate_logical LESS_THAN_EQUAL _ _ _ _); reflexivity.
Qed.
Lemma range_missing E d f lo hi t1 t2 e : arith_eval E d (NField (Some f)) = Err e -> bool_eval E d (NRange (Some f) lo hi t1 t2) = Err e.
Proof. intros F. cbn [arith_eval] in F. cbn [bool_eval]. rewrite F. reflexivity. Qed.
