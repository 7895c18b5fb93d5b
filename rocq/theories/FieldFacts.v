(** C11, C13, C14: fields. *)
From Verif Require Import Base JNum Dates Values Ops Funcs Ast Eval SpecBool SpecCompare SpecPath BoolFacts CompareFacts ValuesFacts.

(** Induction over trees, with the hypothesis for list items and optional children. *)
Definition opt_P (P : node -> Prop) (o : option node) : Prop := match o with Some n => P n | None => True end.
Section node_induction.
  Variable P : node -> Prop.
  Hypothesis HField : forall f, P (NField f).
  Hypothesis HUnary : forall dt v, P (NUnary dt v).
  Hypothesis HArith : forall l r op, P l -> opt_P P r -> P (NArith l r op).
  Hypothesis HFunc : forall f items, Forall P items -> P (NFunc f items).
  Hypothesis HCmp : forall l r op dt, P l -> P r -> P (NCmp l r op dt).
  Hypothesis HRange : forall f a b t1 t2, P (NRange f a b t1 t2).
  Hypothesis HIn : forall f items, Forall P items -> P (NIn f items).
  Hypothesis HArray : forall f op items, Forall P items -> P (NArray f op items).
  Hypothesis HBool : forall l r op, P l -> opt_P P r -> P (NBool l r op).
  Fixpoint node_ind' (n : node) : P n :=
    let opt := fun o : option node => match o return opt_P P o with Some m => node_ind' m | None => I end in
    let all := fix go (l : list node) : Forall P l :=
      match l with [] => Forall_nil P | m :: l' => Forall_cons m (node_ind' m) (go l') end in
    match n with
    | NField f => HField f
    | NUnary dt v => HUnary dt v
    | NArith l r op => HArith l r op (node_ind' l) (opt r)
    | NFunc f items => HFunc f items (all items)
    | NCmp l r op dt => HCmp l r op dt (node_ind' l) (node_ind' r)
    | NRange f a b t1 t2 => HRange f a b t1 t2
    | NIn f items => HIn f items (all items)
    | NArray f op items => HArray f op items (all items)
    | NBool l r op => HBool l r op (node_ind' l) (opt r)
    end.
End node_induction.

(** The local loops of the evaluators *)
Definition arith_items (E : env) (d : data) : list node -> res (list jval) := mapM (arith_eval E d).
Lemma arith_func : forall E d f items, arith_eval E d (NFunc f items) = (vs <- arith_items E d items ;; evaluate_function E f (map_to_evaluated vs)).
Proof.
  intros. cbn [arith_eval]. f_equal. unfold arith_items. induction items as [|i l IH]; auto. cbn. destruct (arith_eval E d i); auto.
  cbn. rewrite IH. reflexivity.
Qed.
Definition item_eval (E : env) (d : data) (i : node) : res jval :=
  if is_arith_base i then arith_eval E d i else b <- bool_eval E d i ;; Ok (VBool b).
Definition heterogeneous (es : list evaluated) : bool :=
  match es with [] => false | (_, t) :: es' => negb (forallb (fun e : evaluated => dtype_eqb (snd e) t) es') end.
Lemma resolve_mapM : forall E d items,
  (fix go (l : list node) : res (list jval) :=
    match l with
    | [] => Ok []
    | i :: l' =>
        v <- (if is_arith_base i then arith_eval E d i else b <- bool_eval E d i ;; Ok (VBool b)) ;;
        vs <- go l' ;; Ok (v :: vs)
    end) items = mapM (item_eval E d) items.
Proof. intros E d. induction items as [|i l IH]; auto. cbn. unfold item_eval at 2. rewrite IH. reflexivity. Qed.
Lemma in_unfold : forall E d f items, bool_eval E d (NIn f items) =
  (v <- field_value_or_fail f d ;; vs <- mapM (item_eval E d) items ;;
   evaluate_logical IN_OP PRIMITIVE v (get_data_type v) (map_to_evaluated vs)).
Proof. intros. cbn [bool_eval]. rewrite resolve_mapM. reflexivity. Qed.
Lemma array_unfold : forall E d f op items, bool_eval E d (NArray f op items) =
  (v <- field_value_or_fail f d ;; vs <- mapM (item_eval E d) items ;;
   if heterogeneous (map_to_evaluated vs) then Err HeterogeneousArray
   else evaluate_logical op LIST v (get_data_type v) (map_to_evaluated vs)).
Proof. intros. cbn [bool_eval]. rewrite resolve_mapM. reflexivity. Qed.

(** C14 *)
Definition agree (d1 d2 : data) (fs : list jstr) : Prop := forall f, In f fs -> get_value_from_map f d1 = get_value_from_map f d2.
Lemma agree_app : forall d1 d2 a b, agree d1 d2 (a ++ b) -> agree d1 d2 a /\ agree d1 d2 b.
Proof. intros d1 d2 a b H. split; intros f I; apply H, in_or_app; auto. Qed.
Lemma agree_field : forall d1 d2 f, agree d1 d2 (opt_field f) -> field_value f d1 = field_value f d2.
Proof. intros d1 d2 [f|] H; auto. cbn. apply H. left; auto. Qed.
Lemma mapM_ext : forall A B (f g : A -> res B) l, (forall a, In a l -> f a = g a) -> mapM f l = mapM g l.
Proof.
  induction l as [|a l IH]; intros H; auto. cbn. rewrite (H a) by (left; auto). rewrite IH by (intros; apply H; right; auto). reflexivity.
Qed.
Lemma agree_flat : forall d1 d2 (F : node -> list jstr) l n, agree d1 d2 (flat_map F l) -> In n l -> agree d1 d2 (F n).
Proof. intros d1 d2 F l n H I f J. apply H, in_flat_map. eauto. Qed.

Lemma arith_agree : forall E d1 d2 n, agree d1 d2 (arith_fields n) -> arith_eval E d1 n = arith_eval E d2 n.
Proof.
  intros E d1 d2. induction n using node_ind'; cbn [arith_fields]; intros A; auto.
  - cbn [arith_eval]. unfold field_value_or_fail. rewrite (agree_field _ _ _ A). reflexivity.
  - apply agree_app in A as [A1 A2]. cbn [arith_eval]. rewrite IHn by auto. destruct (arith_eval E d2 n); auto. cbn [bind].
    destruct op; auto; (destruct r; [|reflexivity]); cbn in H; rewrite H by auto; reflexivity.
  - rewrite !arith_func. f_equal. apply mapM_ext. intros i I. rewrite Forall_forall in H. apply H; auto. eapply agree_flat; eauto.
Qed.

Definition operand_fields (m : node) : list jstr := if is_arith_base m then arith_fields m else bool_fields m.
Lemma item_agree : forall E d1 d2 n, (agree d1 d2 (bool_fields n) -> bool_eval E d1 n = bool_eval E d2 n) ->
  agree d1 d2 (operand_fields n) -> item_eval E d1 n = item_eval E d2 n.
Proof.
  intros E d1 d2 n H A. unfold item_eval, operand_fields in *. destruct (is_arith_base n); [apply arith_agree; auto|]. rewrite H by auto. reflexivity.
Qed.
Lemma operand_agree : forall E d1 d2 n, (agree d1 d2 (bool_fields n) -> bool_eval E d1 n = bool_eval E d2 n) ->
  agree d1 d2 (operand_fields n) -> operand_value E d1 n = operand_value E d2 n.
Proof.
  intros E d1 d2 n H A. unfold operand_value, operand_fields in *. destruct (is_arith_base n) eqn:B; [|rewrite H by auto; reflexivity].
  destruct n; try discriminate B; auto.
  - apply agree_field; auto.
  - rewrite (arith_agree E d1 d2) by auto. reflexivity.
  - rewrite (arith_agree E d1 d2) by auto. reflexivity.
Qed.

Lemma bool_agree : forall E d1 d2 n, agree d1 d2 (bool_fields n) -> bool_eval E d1 n = bool_eval E d2 n.
Proof.
  intros E d1 d2. induction n using node_ind'; intros A; auto.
  - cbn [bool_eval bool_fields] in *. destruct (dtype_eqb dt BOOLEAN); auto.
    destruct v; auto; unfold to_string, field_value_or_fail, field_value; cbn [bind]; rewrite (A _ (or_introl eq_refl)); reflexivity.
  - cbn [bool_fields] in A. apply agree_app in A as [A1 A2]. rewrite !cmp_unfold.
    rewrite (operand_agree E d1 d2 n1), (operand_agree E d1 d2 n2) by auto. reflexivity.
  - cbn [bool_fields] in A. cbn [bool_eval]. unfold field_value_or_fail. rewrite (agree_field _ _ _ A). reflexivity.
  - cbn [bool_fields] in A. apply agree_app in A as [A1 A2]. rewrite !in_unfold. unfold field_value_or_fail. rewrite (agree_field _ _ _ A1).
    rewrite (mapM_ext _ _ (item_eval E d1) (item_eval E d2)); auto. intros i I. rewrite Forall_forall in H. apply item_agree; auto.
    exact (agree_flat d1 d2 _ items i A2 I).
  - cbn [bool_fields] in A. apply agree_app in A as [A1 A2]. rewrite !array_unfold. unfold field_value_or_fail. rewrite (agree_field _ _ _ A1).
    rewrite (mapM_ext _ _ (item_eval E d1) (item_eval E d2)); auto. intros i I. rewrite Forall_forall in H. apply item_agree; auto.
    exact (agree_flat d1 d2 _ items i A2 I).
  - cbn [bool_fields] in A. apply agree_app in A as [A1 A2]. cbn [bool_eval].
    rewrite IHn by auto. destruct op; auto; (destruct r as [r|]; [|reflexivity]); cbn in H; rewrite H by auto; reflexivity.
Qed.

(** C13 *)
Definition present (E : env) (d : data) (f : jstr) : Prop := exists v, arith_eval E d (NField (Some f)) = Ok v.
Lemma mapM_ok : forall A B (f : A -> res B) l bs a, mapM f l = Ok bs -> In a l -> exists b, f a = Ok b.
Proof.
  induction l as [|x l IH]; intros bs a H I; [destruct I|]. cbn in H. destruct (f x) eqn:F; [|discriminate]. cbn in H.
  destruct (mapM f l) eqn:M; [|discriminate]. destruct I as [<-|I]; eauto.
Qed.
Lemma arith_present : forall E d n v, arith_eval E d n = Ok v -> forall f, In f (arith_fields n) -> present E d f.
Proof.
  intros E d. induction n using node_ind'; intros v0 Hv g I; try (destruct I; fail).
  - destruct f as [f|]; [|destruct I]. destruct I as [<-|[]]. exists v0. auto.
  - cbn [arith_fields arith_eval] in *. destruct (arith_eval E d n) as [lv|] eqn:L; [|discriminate]. apply in_app_or in I as [I|I]; [eapply IHn; eauto|].
    cbn [bind] in Hv. destruct op; cbn iota in I; try (destruct I; fail); destruct r as [r|]; try discriminate Hv; cbn in H;
      destruct (arith_eval E d r) as [rv|] eqn:R; try discriminate Hv; eapply H; eauto.
  - rewrite arith_func in Hv. destruct (arith_items E d items) as [vs|] eqn:M; [|discriminate].
    cbn [arith_fields] in I. apply in_flat_map in I as (i & Ii & Ig). destruct (mapM_ok _ _ _ _ _ _ M Ii) as [w Hw].
    rewrite Forall_forall in H. eapply H; eauto.
Qed.
Lemma field_present : forall E d f v, field_value_or_fail (Some f) d = Ok v -> present E d f.
Proof. intros. exists v. auto. Qed.
Lemma operand_present : forall E d n v, is_arith_base n = true -> operand_value E d n = Ok (Some v) -> exists w, arith_eval E d n = Ok w.
Proof.
  intros E d n v B H. unfold operand_value in H. rewrite B in H. destruct n; try discriminate B.
  - exists v. cbn [arith_eval]. unfold field_value_or_fail. rewrite H. reflexivity.
  - exists value. reflexivity.
  - destruct (arith_eval E d (NArith n right op)); eauto. discriminate.
  - destruct (arith_eval E d (NFunc f items)); eauto. discriminate.
Qed.
Lemma null_check_false : forall l r op, ~ null_check l r op -> is_null_check l r op <> Ok true.
Proof.
  intros l r op H C. apply H. unfold is_null_check in C. unfold null_check.
  assert (Hop : op = EQUALS \/ op = NOT_EQUAL) by (destruct op; auto; discriminate C). split; auto.
  assert (C' : (b <- node_is_null_field r ;; if b then Ok true else node_is_null_field l) = Ok true) by (destruct Hop as [-> | ->]; exact C).
  assert (F : forall n, node_is_null_field n = Ok true -> exists f, to_lower f = J "null" /\ n = NField (Some f)).
  { intros n Hn. destruct n; try discriminate Hn. destruct field as [f|]; [|discriminate Hn]. cbn in Hn. exists f. split; auto.
    injection Hn as Hn. unfold equals_ignore_case in Hn. apply jstr_eqb_iff in Hn. rewrite Hn. reflexivity. }
  destruct (node_is_null_field r) as [[]|] eqn:R; cbn in C'; [|apply F in C' as (f & E1 & E2); exists f; auto|discriminate].
  apply F in R as (f & E1 & E2). exists f; auto.
Qed.
Lemma condition_present : forall E d n fs b, condition n fs -> bool_eval E d n = Ok b -> forall f, In f fs -> present E d f.
Proof.
  intros E d n fs b C H f I. destruct C as [l r op dt Bl Br Nc|g lo hi t1 t2|g items B|g op items B].
  - rewrite cmp_unfold in H. apply null_check_false in Nc.
    destruct (operand_value E d l) as [lo|] eqn:L; [|discriminate]. cbn [bind] in H.
    destruct (is_null_check l r op) as [[]|]; [congruence| |discriminate]. cbn [bind] in H.
    destruct lo as [lv|]; [|discriminate]. cbn [bind] in H. destruct (operand_value E d r) as [[rv|]|] eqn:R; try discriminate.
    apply in_app_or in I as [I|I].
    + destruct (operand_present _ _ _ _ Bl L). eapply arith_present; eauto.
    + destruct (operand_present _ _ _ _ Br R). eapply arith_present; eauto.
  - destruct I as [<-|[]]. cbn [bool_eval] in H. destruct (field_value_or_fail (Some g) d) eqn:F; [|discriminate]. eapply field_present; eauto.
  - rewrite in_unfold in H. destruct (field_value_or_fail (Some g) d) eqn:F; [|discriminate]. destruct I as [<-|I]; [eapply field_present; eauto|].
    cbn [bind] in H. destruct (mapM (item_eval E d) items) eqn:M; [|discriminate]. apply in_flat_map in I as (i & Ii & If).
    destruct (mapM_ok _ _ _ _ _ _ M Ii) as [w Hw]. rewrite forallb_forall in B. unfold item_eval in Hw. rewrite B in Hw by auto.
    eapply arith_present; eauto.
  - rewrite array_unfold in H. destruct (field_value_or_fail (Some g) d) eqn:F; [|discriminate]. destruct I as [<-|I]; [eapply field_present; eauto|].
    cbn [bind] in H. destruct (mapM (item_eval E d) items) eqn:M; [|discriminate]. apply in_flat_map in I as (i & Ii & If).
    destruct (mapM_ok _ _ _ _ _ _ M Ii) as [w Hw]. rewrite forallb_forall in B. unfold item_eval in Hw. rewrite B in Hw by auto.
    eapply arith_present; eauto.
Qed.
Lemma missing_arith : forall E d n ks, proper_data d -> ks <> [] -> Forall component ks -> In (path_text ks) (arith_fields n) ->
  (forall v, ~ found d ks v) -> exists e, arith_eval E d n = Err e.
Proof.
  intros E d n ks P Hn C I F. destruct (arith_eval E d n) as [v|e] eqn:A; eauto. exfalso.
  destruct (arith_present _ _ _ _ A _ I) as [w Hw]. apply (field_found E d ks w P Hn C) in Hw. eapply F; eauto.
Qed.
Lemma means_consulted_ok : forall out f r ls, means out f r ls -> forall b, r = Ok b -> forall n, In n ls -> exists c, out n = Ok c.
Proof.
  intros out f r ls M. induction M; intros b0 Hr m I; try discriminate; try (eapply IHM; eauto; fail).
  - destruct I as [<-|[]]. eauto.
  - apply in_app_or in I as [I|I]; eauto.
  - apply in_app_or in I as [I|I]; eauto.
Qed.
Lemma missing_condition : forall E d phi b consulted n fs ks, proper_data d -> ks <> [] -> Forall component ks -> (forall v, ~ found d ks v) ->
  means (bool_eval E d) phi (Ok b) consulted -> In n consulted -> condition n fs -> ~ In (path_text ks) fs.
Proof.
  intros E d phi b consulted n fs ks P Hn C F M I Hc If. destruct (means_consulted_ok _ _ _ _ M b eq_refl n I) as [c Hcn].
  destruct (condition_present _ _ _ _ _ Hc Hcn _ If) as [v Hv]. apply (field_found E d ks v P Hn C) in Hv. eapply F; eauto.
Qed.

(** C13: a consulted condition that uses a missing field makes the whole evaluation fail. *)
Lemma missing_fails : forall E d phi r consulted n fs ks, proper_data d -> ks <> [] -> Forall component ks -> (forall v, ~ found d ks v) ->
  means (bool_eval E d) phi r consulted -> In n consulted -> condition n fs -> In (path_text ks) fs ->
  exists e, bool_eval E d (tree_of phi) = Err e.
Proof.
  intros E d phi r consulted n fs ks P Hn C F M I Hc If. rewrite (proj1 (means_iff_eval E d phi r) (ex_intro _ _ M)).
  destruct r as [b|e]; eauto. exfalso. eapply missing_condition; eauto.
Qed.

(** C14 in terms of evaluation, and of lookup. *)
Lemma same_field_get : forall d1 d2 f, same_field d1 d2 f -> get_value_from_map f d1 = get_value_from_map f d2.
Proof.
  intros d1 d2 f H. specialize (H (Env (Date 2024 1 1) (fun _ _ => DNaN) (fun _ _ => DNaN))). cbn [arith_eval] in H. unfold field_value_or_fail, field_value in H.
  assert (N : forall d e, get_value_from_map f d = Err e -> e = ArrayIndexOutOfBounds).
  { intros d e X. unfold get_value_from_map in X. destruct (split_path f) as [|k ks] eqn:S; [cbn in X; congruence|].
    destruct (get_path_total (k :: ks) d ltac:(discriminate)) as [o Ho]. congruence. }
  destruct (get_value_from_map f d1) as [[v|]|e1] eqn:A, (get_value_from_map f d2) as [[w|]|e2] eqn:B; cbn [bind] in H;
    try apply N in A; try apply N in B; congruence.
Qed.
Lemma bool_same : forall E d1 d2 n, (forall f, In f (bool_fields n) -> same_field d1 d2 f) -> bool_eval E d1 n = bool_eval E d2 n.
Proof. intros E d1 d2 n H. apply bool_agree. intros f I. apply same_field_get, H, I. Qed.
Lemma arith_same : forall E d1 d2 n, (forall f, In f (arith_fields n) -> same_field d1 d2 f) -> arith_eval E d1 n = arith_eval E d2 n.
Proof. intros E d1 d2 n H. apply arith_agree. intros f I. apply same_field_get, H, I. Qed.
Lemma found_same_field : forall d1 d2 ks, proper_data d1 -> proper_data d2 -> ks <> [] -> Forall component ks ->
  (forall v, found d1 ks v <-> found d2 ks v) -> same_field d1 d2 (path_text ks).
Proof.
  intros d1 d2 ks P1 P2 Hn C H E. destruct (arith_eval E d1 _) as [v|e] eqn:A.
  - symmetry. apply (field_found E d2 ks v P2 Hn C), H, (field_found E d1 ks v P1 Hn C), A.
  - assert (e = DataNotFound) as ->.
    { cbn [arith_eval] in A. unfold field_value_or_fail, field_value, get_value_from_map in A. rewrite component_split in A by auto.
      destruct (get_path_total ks d1 Hn) as [[w|] R]; rewrite R in A; cbn in A; congruence. }
    symmetry. apply (field_absent E d2 ks P2 Hn C). intros v F. apply (proj1 (field_absent E d1 ks P1 Hn C) A v), H, F.
Qed.
