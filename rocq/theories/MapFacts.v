(** C82: any map, null in place of a map or a text. *)
From Verif Require Import Base Values Ops Funcs Ast Eval Lexer Grammar Listener Api Cache SpecPath CompareFacts FieldFacts ValuesFacts SpecReads ReadsFacts CompareWitness Maps SpecMaps.

(** ** The evaluators unfolded *)
Definition operand_on (E : env) (g : map_object) (m : node) : res (option jval) :=
  if is_arith_base m then
    match m with
    | NField f => look_up g f
    | NUnary _ v => optional_of v
    | NArith _ _ _ | NFunc _ _ => v <- arith_on E g m ;; optional_of v
    | _ => Ok None
    end
  else b <- bool_on E g m ;; Ok (Some (VBool b)).
Definition item_on (E : env) (g : map_object) (i : node) : res jval :=
  if is_arith_base i then arith_on E g i else b <- bool_on E g i ;; Ok (VBool b).
Definition map_res {A B} (f : A -> res B) : list A -> res (list B) :=
  fix go l := match l with [] => Ok [] | i :: l' => v <- f i ;; vs <- go l' ;; Ok (v :: vs) end.
Lemma on_func E g f items : arith_on E g (NFunc f items) = (vs <- map_res (arith_on E g) items ;; evaluate_function E f (map_to_evaluated vs)).
Proof. reflexivity. Qed.
Lemma on_cmp E g l r op dt : bool_on E g (NCmp l r op dt) =
  (lo <- operand_on E g l ;;
   nc <- is_null_check l r op ;;
   lv <- (match lo with Some v => Ok v | None => if nc then Ok (VStr (J "null")) else Err DataNotFound end) ;;
   rv <- (if nc then Ok (VStr (J "null"))
          else ro <- operand_on E g r ;; match ro with Some v => Ok v | None => Err NoSuchElement end) ;;
   evaluate_logical op PRIMITIVE lv (get_data_type lv) [(rv, get_data_type rv)]).
Proof. reflexivity. Qed.
Lemma on_in E g f items : bool_on E g (NIn f items) =
  (v <- look_up_or_fail g f ;; vs <- map_res (item_on E g) items ;; evaluate_logical IN_OP PRIMITIVE v (get_data_type v) (map_to_evaluated vs)).
Proof. reflexivity. Qed.
Lemma on_array E g f op items : bool_on E g (NArray f op items) =
  (v <- look_up_or_fail g f ;; vs <- map_res (item_on E g) items ;;
   if heterogeneous (map_to_evaluated vs) then Err HeterogeneousArray
   else evaluate_logical op LIST v (get_data_type v) (map_to_evaluated vs)).
Proof. reflexivity. Qed.

(** ** A relation between outcomes that every step keeps *)
Section related.
  Variables (E : env) (g1 g2 : map_object) (R : forall A, res A -> res A -> Prop).
  Hypothesis R_refl : forall A (x : res A), R A x x.
  Hypothesis R_bind : forall A B (x y : res A) (f h : A -> res B), R A x y -> (forall a, R B (f a) (h a)) -> R B (bind x f) (bind y h).
  Definition looks (fs : list jstr) : Prop := forall f, In f fs -> R _ (look_up g1 (Some f)) (look_up g2 (Some f)).
  Lemma looks_app a b : looks (a ++ b) -> looks a /\ looks b.
  Proof. intros H. split; intros f I; apply H, in_or_app; auto. Qed.
  Lemma looks_flat (h : node -> list jstr) l i : looks (flat_map h l) -> In i l -> looks (h i).
  Proof. intros H I f F. apply H, in_flat_map. eauto. Qed.
  Lemma R_field f : looks (opt_field f) -> R _ (look_up g1 f) (look_up g2 f).
  Proof. destruct f as [s|]; intros H; [apply H; left; reflexivity|apply R_refl]. Qed.
  Lemma R_field_or_fail f : looks (opt_field f) -> R _ (look_up_or_fail g1 f) (look_up_or_fail g2 f).
  Proof. intros H. apply R_bind; [apply R_field, H|]. intros o. apply R_refl. Qed.
  Lemma R_map {A B} (f h : A -> res B) l : (forall a, In a l -> R _ (f a) (h a)) -> R _ (map_res f l) (map_res h l).
  Proof.
    induction l as [|a l IH]; intros H; [apply R_refl|]. cbn [map_res]. apply R_bind; [apply H; left; reflexivity|]. intros b. apply R_bind; [apply IH; intros; apply H; right; assumption|].
    intros bs. apply R_refl.
  Qed.
  Lemma R_arith n : looks (arith_fields n) -> R _ (arith_on E g1 n) (arith_on E g2 n).
  Proof.
    induction n as [f|dt v|l r op IHl IHr|f items IH|l r op dt _ _|f a b t1 t2|f items _|f op items _|l r op _ _] using node_ind'; intros A; try apply R_refl.
    - apply R_field_or_fail, A.
    - cbn [arith_fields] in A. apply looks_app in A as [A1 A2]. cbn [arith_on]. apply R_bind; [apply IHl, A1|]. intros lv.
      destruct op; try apply R_refl; (destruct r as [r|]; [|apply R_refl]); cbn in IHr; (apply R_bind; [apply IHr, A2|]; intros rv; apply R_refl).
    - rewrite !on_func. apply R_bind; [|intros; apply R_refl]. apply R_map. intros i I. rewrite Forall_forall in IH. apply (IH i I). eapply looks_flat; eauto.
  Qed.
  Lemma R_operand m : (looks (bool_fields m) -> R _ (bool_on E g1 m) (bool_on E g2 m)) -> looks (operand_fields m) -> R _ (operand_on E g1 m) (operand_on E g2 m).
  Proof.
    unfold operand_on, operand_fields. intros H A. destruct (is_arith_base m) eqn:B.
    - destruct m; try discriminate B; try apply R_refl; [apply R_field, A|..]; (apply R_bind; [apply R_arith, A|intros; apply R_refl]).
    - apply R_bind; [apply H, A|intros; apply R_refl].
  Qed.
  Lemma R_item m : (looks (bool_fields m) -> R _ (bool_on E g1 m) (bool_on E g2 m)) -> looks (operand_fields m) -> R _ (item_on E g1 m) (item_on E g2 m).
  Proof.
    unfold item_on, operand_fields. intros H A. destruct (is_arith_base m); [apply R_arith, A|]. apply R_bind; [apply H, A|intros; apply R_refl].
  Qed.
  Lemma R_bool n : looks (bool_fields n) -> R _ (bool_on E g1 n) (bool_on E g2 n).
  Proof.
    induction n as [f|dt v|l r op IHl IHr|f items IH|l r op dt IHl IHr|f a b t1 t2|f items IH|f op items IH|l r op IHl IHr] using node_ind'; intros A; try apply R_refl.
    - cbn [bool_on bool_fields] in *. destruct (dtype_eqb dt BOOLEAN); [apply R_refl|].
      destruct v; try apply R_refl; cbn [to_string bind]; (apply R_bind; [apply R_field_or_fail, A|intros; apply R_refl]).
    - change (bool_fields (NCmp l r op dt)) with (operand_fields l ++ operand_fields r) in A. apply looks_app in A as [A1 A2]. rewrite !on_cmp.
      apply R_bind; [apply R_operand; assumption|]. intros lo. apply R_bind; [apply R_refl|]. intros nc. apply R_bind; [apply R_refl|]. intros lv.
      apply R_bind; [|intros; apply R_refl]. destruct nc; [apply R_refl|]. apply R_bind; [apply R_operand; assumption|]. intros; apply R_refl.
    - cbn [bool_on]. apply R_bind; [apply R_field_or_fail, A|]. intros; apply R_refl.
    - change (bool_fields (NIn f items)) with (opt_field f ++ flat_map operand_fields items) in A. apply looks_app in A as [A1 A2]. rewrite !on_in.
      apply R_bind; [apply R_field_or_fail, A1|]. intros v. apply R_bind; [|intros; apply R_refl]. apply R_map. intros i I. rewrite Forall_forall in IH. apply R_item; [apply (IH i I)|].
      eapply looks_flat; eauto.
    - change (bool_fields (NArray f op items)) with (opt_field f ++ flat_map operand_fields items) in A. apply looks_app in A as [A1 A2]. rewrite !on_array.
      apply R_bind; [apply R_field_or_fail, A1|]. intros v. apply R_bind; [|intros; apply R_refl]. apply R_map. intros i I. rewrite Forall_forall in IH. apply R_item; [apply (IH i I)|].
      eapply looks_flat; eauto.
    - cbn [bool_fields] in A. apply looks_app in A as [A1 A2]. cbn [bool_on].
      destruct op; (apply R_bind; [apply IHl, A1|]); intros []; try apply R_refl; (destruct r as [r|]; [|apply R_refl]); cbn in IHr; apply IHr, A2.
  Qed.
End related.

(** ** Equal look-ups, equal outcomes *)
Lemma on_equal E g1 g2 n : (forall f, In f (bool_fields n) -> look_up g1 (Some f) = look_up g2 (Some f)) -> bool_on E g1 n = bool_on E g2 n.
Proof.
  intros H. apply (R_bool E g1 g2 (fun A x y => x = y)); [reflexivity| |exact H].
  intros A B x y f h -> F. destruct y; [apply F|reflexivity].
Qed.
Lemma on_equal_arith E g1 g2 n : (forall f, In f (arith_fields n) -> look_up g1 (Some f) = look_up g2 (Some f)) -> arith_on E g1 n = arith_on E g2 n.
Proof.
  intros H. apply (R_arith E g1 g2 (fun A x y => x = y)); [reflexivity| |exact H].
  intros A B x y f h -> F. destruct y; [apply F|reflexivity].
Qed.
Lemma walk_alike ks : forall g1 g2, (forall k, hd_error ks = Some k -> alike (g1 k) (g2 k)) -> walk ks g1 = walk ks g2.
Proof.
  induction ks as [|k ks IH]; intros g1 g2 H; [reflexivity|]. specialize (H k eq_refl).
  assert (X : forall A (f h : option entry -> res A), (forall o, g1 k = Ok o -> forall o', g2 k = Ok o' -> f o = h o') -> bind (g1 k) f = bind (g2 k) h).
  { intros A f h F. inversion H; cbn; try reflexivity; apply F; congruence. }
  destruct ks as [|k' ks]; cbn [walk]; apply X; intros o O o' O'; rewrite O, O' in H; inversion H as [| |v|self h h' K]; subst; try reflexivity.
  change (match walk (k' :: ks) h with Err ClassCast => Ok None | r => r end = match walk (k' :: ks) h' with Err ClassCast => Ok None | r => r end).
  rewrite (IH h h'); [reflexivity|]. intros; apply K.
Qed.
Lemma first_before s k : hd_error (split_path s) = Some k -> k = before_dot s.
Proof. destruct (path_before s) as [-> |[l ->]]; cbn; congruence. Qed.
Lemma look_alike g1 g2 f : alike (g1 (before_dot f)) (g2 (before_dot f)) -> look_up g1 (Some f) = look_up g2 (Some f).
Proof. intros H. apply walk_alike. intros k K. rewrite (first_before f k K). exact H. Qed.
Lemma bool_alike E g1 g2 n : (forall f, In f (bool_fields n) -> alike (g1 (before_dot f)) (g2 (before_dot f))) -> bool_on E g1 n = bool_on E g2 n.
Proof. intros H. apply on_equal. intros f F. apply look_alike, H, F. Qed.
Lemma arith_alike E g1 g2 n : (forall f, In f (arith_fields n) -> alike (g1 (before_dot f)) (g2 (before_dot f))) -> arith_on E g1 n = arith_on E g2 n.
Proof. intros H. apply on_equal_arith. intros f F. apply look_alike, H, F. Qed.

(** ** Plain maps *)
Lemma walk_hash ks d : walk ks (hash_map d) = get_path ks d.
Proof.
  destruct ks as [|k [|k' ks]]; [reflexivity|..]; cbn [walk get_path]; unfold hash_map; cbn [bind]; destruct (map_get k d) as [v|]; try reflexivity; destruct v; reflexivity.
Qed.
Lemma look_hash f d : look_up (hash_map d) f = field_value f d.
Proof. destruct f as [s|]; [|reflexivity]. apply walk_hash. Qed.
Lemma look_hash_or_fail f d : look_up_or_fail (hash_map d) f = field_value_or_fail f d.
Proof. unfold look_up_or_fail. rewrite look_hash. reflexivity. Qed.
Lemma map_res_ext {A B} (f h : A -> res B) l : (forall a, In a l -> f a = h a) -> map_res f l = mapM h l.
Proof.
  induction l as [|a l IH]; intros H; [reflexivity|]. cbn [map_res mapM]. rewrite (H a (or_introl eq_refl)). destruct (h a); [|reflexivity]. cbn [bind].
  rewrite IH by (intros; apply H; right; assumption). destruct (mapM h l); reflexivity.
Qed.
Lemma arith_hash E d n : arith_on E (hash_map d) n = arith_eval E d n.
Proof.
  induction n as [f|dt v|l r op IHl IHr|f items IH|l r op dt _ _|f a b t1 t2|f items _|f op items _|l r op _ _] using node_ind'; try reflexivity.
  - apply look_hash_or_fail.
  - cbn [arith_on arith_eval]. rewrite IHl. destruct (arith_eval E d l); [|reflexivity]. cbn [bind]. destruct op; try reflexivity; (destruct r as [r|]; [|reflexivity]); cbn in IHr; rewrite IHr; reflexivity.
  - rewrite on_func, arith_func. unfold arith_items. rewrite (map_res_ext _ (arith_eval E d)); [reflexivity|]. rewrite Forall_forall in IH. exact IH.
Qed.
Lemma operand_hash E d m : bool_on E (hash_map d) m = bool_eval E d m -> operand_on E (hash_map d) m = operand_value E d m.
Proof. intros H. unfold operand_on, operand_value. rewrite H. destruct m; cbn [is_arith_base]; try reflexivity; [apply look_hash|..]; rewrite arith_hash; reflexivity. Qed.
Lemma item_hash E d m : bool_on E (hash_map d) m = bool_eval E d m -> item_on E (hash_map d) m = item_eval E d m.
Proof. intros H. unfold item_on, item_eval. rewrite H, arith_hash. reflexivity. Qed.
Lemma bool_hash E d n : bool_on E (hash_map d) n = bool_eval E d n.
Proof.
  induction n as [f|dt v|l r op IHl IHr|f items IH|l r op dt IHl IHr|f a b t1 t2|f items IH|f op items IH|l r op IHl IHr] using node_ind'; try reflexivity.
  - cbn [bool_on bool_eval]. destruct (dtype_eqb dt BOOLEAN); [reflexivity|]. destruct (to_string v); [|reflexivity]. cbn [bind]. rewrite look_hash_or_fail. reflexivity.
  - rewrite on_cmp, cmp_unfold, !operand_hash by assumption. reflexivity.
  - cbn [bool_on bool_eval]. rewrite look_hash_or_fail. reflexivity.
  - rewrite on_in, in_unfold, look_hash_or_fail. rewrite (map_res_ext _ (item_eval E d)); [reflexivity|]. rewrite Forall_forall in IH. intros i I. apply item_hash, IH, I.
  - rewrite on_array, array_unfold, look_hash_or_fail. rewrite (map_res_ext _ (item_eval E d)); [reflexivity|]. rewrite Forall_forall in IH. intros i I. apply item_hash, IH, I.
  - cbn [bool_on bool_eval]. rewrite IHl. destruct op; try reflexivity; (destruct r as [r|]; [|reflexivity]); cbn in IHr; rewrite IHr; reflexivity.
Qed.

(** ** What a field leads to *)
Lemma walk_plain es ks : walk ks (hash_map es) = get_path ks es.
Proof. apply walk_hash. Qed.
Lemma reaches_walk g ks x : reaches g ks x -> walk ks g = x.
Proof.
  induction 1 as [g k ks e G|g k ks G|g k y G|g k self g' G|g k k' ks v G N|g k k' ks es x G _ IH|g k k' ks self g' x G _ IH N|g k k' ks self g' G _ IH].
  - destruct ks; cbn [walk]; rewrite G; reflexivity.
  - destruct ks; cbn [walk]; rewrite G; reflexivity.
  - cbn [walk]. rewrite G. reflexivity.
  - cbn [walk]. rewrite G. reflexivity.
  - cbn [walk]. rewrite G. cbn [bind]. destruct v; try reflexivity. destruct (N entries eq_refl).
  - rewrite walk_plain in IH. change (walk (k :: k' :: ks) g) with (o <- g k ;; match o with Some (Plain (VMap es)) => get_path (k' :: ks) es | Some (Nested _ g') => match walk (k' :: ks) g' with Err ClassCast => Ok None | r => r end | _ => Ok None end).
    rewrite G. cbn [bind]. exact IH.
  - change (walk (k :: k' :: ks) g) with (o <- g k ;; match o with Some (Plain (VMap es)) => get_path (k' :: ks) es | Some (Nested _ g') => match walk (k' :: ks) g' with Err ClassCast => Ok None | r => r end | _ => Ok None end).
    rewrite G. cbn [bind]. rewrite IH. destruct x as [o|[]]; congruence.
  - change (walk (k :: k' :: ks) g) with (o <- g k ;; match o with Some (Plain (VMap es)) => get_path (k' :: ks) es | Some (Nested _ g') => match walk (k' :: ks) g' with Err ClassCast => Ok None | r => r end | _ => Ok None end).
    rewrite G. cbn [bind]. rewrite IH. reflexivity.
Qed.
Lemma reaches_total ks : ks <> [] -> forall g, exists x, reaches g ks x.
Proof.
  induction ks as [|k ks IH]; [congruence|]. intros _ g. destruct (g k) as [[x|]|e] eqn:G; [|eexists; eapply it_has_none; eauto|eexists; eapply it_throws; eauto].
  destruct ks as [|k' ks]; [destruct x as [v|self g']; eexists; [eapply it_has|eapply it_has_map]; eauto|]. specialize (IH ltac:(discriminate)). destruct x as [v|self g'].
  - destruct v; try (exists (Ok None); eapply no_map; [eauto|discriminate]). destruct (IH (hash_map entries)) as [x X]. exists x. eapply through_plain; eauto.
  - destruct (IH g') as [x X]. destruct x as [o|e]; [eexists; eapply through_map; [eauto..|discriminate]|].
    assert (D : e = ClassCast \/ e <> ClassCast) by (destruct e; auto; right; discriminate). destruct D as [-> |D]; [eexists; eapply through_cast; eauto|]. eexists; eapply through_map; [eauto..|congruence].
Qed.
Lemma field_reaches E g ks x : ks <> [] -> Forall component ks -> reaches g ks x ->
  arith_on E g (NField (Some (path_text ks))) = match x with Ok (Some v) => Ok v | Ok None => Err DataNotFound | Err e => Err e end.
Proof. intros N C R. cbn [arith_on]. unfold look_up_or_fail, look_up. rewrite (component_split ks N C), (reaches_walk g ks x R). destruct x as [[v|]|e]; reflexivity. Qed.
Lemma reaches_unique ks g : ks <> [] -> exists x, reaches g ks x /\ forall y, reaches g ks y -> y = x.
Proof. intros N. destruct (reaches_total ks N g) as [x X]. exists x. split; [exact X|]. intros y Y. rewrite <- (reaches_walk _ _ _ X). symmetry. apply reaches_walk, Y. Qed.

(** ** Maps that throw *)
Lemma throws_step {A B} e (x y : res A) (f h : A -> res B) : x = Err e \/ x = y -> (forall a, f a = Err e \/ f a = h a) -> bind x f = Err e \/ bind x f = bind y h.
Proof. intros [-> | ->] F; [left; reflexivity|]. destruct y; [apply F|right; reflexivity]. Qed.
Lemma throws_look e g1 g2 f : (forall k, g1 k = Err e \/ alike (g1 k) (g2 k)) -> look_up g1 (Some f) = Err e \/ look_up g1 (Some f) = look_up g2 (Some f).
Proof.
  intros H. destruct (H (before_dot f)) as [X|X]; [|right; apply look_alike, X]. cbn [look_up]. destruct (path_before f) as [-> |[l ->]]; [right; reflexivity|]. left.
  destruct l; cbn [walk]; rewrite X; reflexivity.
Qed.
Lemma bool_throws E e g1 g2 n : (forall k, g1 k = Err e \/ alike (g1 k) (g2 k)) -> bool_on E g1 n = Err e \/ bool_on E g1 n = bool_on E g2 n.
Proof.
  intros H. apply (R_bool E g1 g2 (fun A x y => x = Err e \/ x = y)); [auto| |].
  - intros A B x y f h. apply throws_step.
  - intros f _. apply throws_look, H.
Qed.
Lemma arith_throws E e g1 g2 n : (forall k, g1 k = Err e \/ alike (g1 k) (g2 k)) -> arith_on E g1 n = Err e \/ arith_on E g1 n = arith_on E g2 n.
Proof.
  intros H. apply (R_arith E g1 g2 (fun A x y => x = Err e \/ x = y)); [auto| |].
  - intros A B x y f h. apply throws_step.
  - intros f _. apply throws_look, H.
Qed.
Lemma bool_null E expr dflt : evaluate_boolean_on E expr null_map dflt = Err NullPointer \/ forall g, evaluate_boolean_on E expr g dflt = evaluate_boolean_on E expr null_map dflt.
Proof.
  unfold evaluate_boolean_on. destruct (parse_nullable expr dflt) as [n|e]; [|right; reflexivity]. cbn [bind].
  destruct (bool_on E null_map n) as [b|e] eqn:B.
  - right. intros g. destruct (bool_throws E NullPointer null_map g n (fun _ => or_introl eq_refl)) as [X|X]; congruence.
  - destruct (bool_throws E NullPointer null_map null_map n (fun _ => or_introl eq_refl)) as [X|_]; [left; congruence|].
    assert (D : e = NullPointer \/ e <> NullPointer) by (destruct e; auto; right; discriminate). destruct D as [-> |D]; [left; reflexivity|]. right. intros g.
    destruct (bool_throws E NullPointer null_map g n (fun _ => or_introl eq_refl)) as [X|X]; congruence.
Qed.
Lemma arith_null E expr : evaluate_arith_on E expr null_map = Err NullPointer \/ forall g, evaluate_arith_on E expr g = evaluate_arith_on E expr null_map.
Proof.
  unfold evaluate_arith_on. destruct (parse_nullable expr None) as [n|e]; [|right; reflexivity]. cbn [bind].
  assert (D : arith_on E null_map n = Err NullPointer \/ arith_on E null_map n <> Err NullPointer) by (destruct (arith_on E null_map n) as [v|[]]; auto; right; discriminate).
  destruct D as [D|D]; [left; exact D|]. right. intros g. destruct (arith_throws E NullPointer null_map g n (fun _ => or_introl eq_refl)) as [X|X]; congruence.
Qed.

(** ** A nested map that refuses a key *)
Lemma cast_hidden E (g g' : map_object) k k' self : component k -> component k' -> g k = Ok (Some (Nested self g')) -> g' k' = Err ClassCast ->
  bool_on E g (NCmp (NField (Some (path_text [k; k']))) (NField (Some (J "null"))) EQUALS STRING) = Ok true /\
  arith_on E g' (NField (Some k')) = Err ClassCast /\ arith_on E g (NField (Some (path_text [k; k']))) = Err DataNotFound.
Proof.
  intros C C' G G'. assert (R : reaches g [k; k'] (Ok None)) by (eapply through_cast; [exact G|apply it_throws, G']).
  assert (F : Forall component [k; k']) by (repeat constructor; assumption || apply C || apply C'). split; [|split].
  - assert (L : look_up g (Some (path_text [k; k'])) = Ok None) by (unfold look_up; rewrite (component_split [k; k'] ltac:(discriminate) F); apply reaches_walk, R).
    rewrite on_cmp. unfold operand_on. cbn [is_arith_base]. rewrite L. vm_compute. reflexivity.
  - exact (field_reaches E g' [k'] (Err ClassCast) ltac:(discriminate) ltac:(constructor; [exact C'|constructor]) (it_throws g' k' [] ClassCast G')).
  - exact (field_reaches E g [k; k'] (Ok None) ltac:(discriminate) F R).
Qed.

(** ** null in place of the text, with a cache *)
Lemma null_step c dflt : exists x, nstep c (NCall None dflt) = (c, Some x).
Proof. cbn [nstep parse_nullable]. destruct (cache_find _ c); eauto. Qed.
Lemma null_calls_apart es : forall c, answers es (snd (nrun c es)) = snd (nrun c (filter not_for_null es)) /\ fst (nrun c es) = fst (nrun c (filter not_for_null es)).
Proof.
  induction es as [|e es IH]; intros c; [split; reflexivity|]. cbn [filter]. destruct (not_for_null e) eqn:N.
  - cbn [nrun]. destruct (nstep c e) as [c1 o]. specialize (IH c1). destruct (nrun c1 es) as [c2 os], (nrun c1 (filter not_for_null es)) as [c3 os']. cbn in *. rewrite N. destruct IH as [-> ->]. auto.
  - destruct e as [[s|] dflt|k]; try discriminate N. cbn [nrun]. destruct (null_step c dflt) as [x ->]. specialize (IH c). destruct (nrun c es) as [c2 os]. cbn in *. exact IH.
Qed.
Definition of_cevent (e : cevent) : nevent := match e with Call s d => NCall (Some s) d | Evict k => NEvict k end.
Lemma without_null es : forall c, fst (nrun c (map of_cevent es)) = fst (crun c es) /\ snd (nrun c (map of_cevent es)) = map (option_map result) (snd (crun c es)).
Proof.
  induction es as [|e es IH]; intros c; [split; reflexivity|]. cbn [map nrun crun].
  assert (X : nstep c (of_cevent e) = (fst (cstep c e), option_map result (snd (cstep c e)))).
  { destruct e as [s d|k]; [|reflexivity]. cbn [nstep of_cevent cstep parse_nullable]. change (nullable_key (Some s) d) with (cache_key s d). destruct (cache_find (cache_key s d) c); [reflexivity|].
    destruct (parse_expression s d); reflexivity. }
  rewrite X. destruct (cstep c e) as [c1 o]. cbn [fst snd]. specialize (IH c1). destruct (nrun c1 (map of_cevent es)) as [c2 os], (crun c1 es) as [c3 os']. cbn in *. destruct IH as [-> ->]. auto.
Qed.
Definition known (es : list nevent) (c : cache) : Prop := forall k n, cache_find k c = Some n ->
  exists s d, In (NCall (Some s) d) es /\ nullable_key (Some s) d = k /\ parse_expression s d = Ok n.
Lemma filter_find k k' c n : cache_find k (filter (fun e => negb (jstr_eqb (fst e) k')) c) = Some n -> cache_find k c = Some n.
Proof.
  induction c as [|[k1 n1] c IH]; [discriminate|]. cbn [filter fst cache_find]. destruct (jstr_eqb k1 k') eqn:A; cbn [negb].
  - intros H. destruct (jstr_eqb k1 k) eqn:B; [|apply IH, H]. exfalso. apply jstr_eqb_iff in A, B. assert (k' = k) as -> by congruence. revert H. clear.
    induction c as [|[k1 n1] c IH]; [discriminate|]. cbn [filter fst]. destruct (jstr_eqb k1 k) eqn:A; cbn [negb]; [exact IH|]. cbn [cache_find]. rewrite A. exact IH.
  - cbn [cache_find]. destruct (jstr_eqb k1 k); [auto|exact IH].
Qed.
Lemma known_run es : forall seen c, known seen c -> known (seen ++ es) (fst (nrun c es)).
Proof.
  induction es as [|e es IH]; intros seen c K; [rewrite app_nil_r; exact K|]. cbn [nrun]. destruct (nstep c e) as [c1 o] eqn:S. destruct (nrun c1 es) as [c2 os] eqn:R. cbn [fst].
  replace c2 with (fst (nrun c1 es)) by (rewrite R; reflexivity). replace (seen ++ e :: es) with ((seen ++ [e]) ++ es) by (rewrite <- app_assoc; reflexivity). apply IH.
  intros k n F. assert (O : cache_find k c = Some n -> exists s d, In (NCall (Some s) d) (seen ++ [e]) /\ nullable_key (Some s) d = k /\ parse_expression s d = Ok n).
  { intros G. destruct (K k n G) as (s & d & I1 & X). exists s, d. split; [apply in_or_app; auto|exact X]. }
  destruct e as [expr dflt|key].
  - cbn [nstep] in S. destruct (cache_find (nullable_key expr dflt) c) eqn:G; [apply O; congruence|]. destruct expr as [s|]; cbn [parse_nullable] in S; [|apply O; congruence].
    destruct (parse_expression s dflt) as [n'|x] eqn:P; [|apply O; congruence]. assert (c1 = (nullable_key (Some s) dflt, n') :: c) as -> by congruence. cbn [cache_find] in F.
    destruct (jstr_eqb (nullable_key (Some s) dflt) k) eqn:B; [|apply O, F]. apply jstr_eqb_iff in B. exists s, dflt. split; [apply in_or_app; right; left; reflexivity|]. split; [exact B|congruence].
  - cbn [nstep] in S. apply O. assert (c1 = filter (fun e => negb (jstr_eqb (fst e) key)) c) as -> by congruence. eapply filter_find, F.
Qed.
Lemma null_answer es dflt x : snd (nstep (fst (nrun [] es)) (NCall None dflt)) = Some x ->
  x = Err NullPointer \/ exists s d n, x = Ok n /\ In (NCall (Some s) d) es /\ parse_expression s d = Ok n /\
    s ++ J "_" ++ match d with Some k => k | None => [] end = J "null_" ++ match dflt with Some k => k | None => [] end.
Proof.
  assert (K : known es (fst (nrun [] es))) by (apply (known_run es []); intros k n F; discriminate F). cbn [nstep parse_nullable].
  destruct (cache_find (nullable_key None dflt) (fst (nrun [] es))) as [n|] eqn:F; cbn [snd]; intros X; [|left; congruence]. right. destruct (K _ _ F) as (s & d & In_s & Key & P).
  exists s, d, n. split; [congruence|]. split; [exact In_s|]. split; [exact P|]. exact Key.
Qed.

(** ** Cases *)
(** A map that has every key, its value the key itself, as a map object inside another that knows the key m and throws for all keys that are no single letter. *)
Definition echo : map_object := fun k => Ok (Some (Plain (VStr k))).
Definition numbered : map_object := fun _ => Err ClassCast.
Definition odd_map : map_object := fun k => if jstr_eqb k (J "m") then Ok (Some (Nested (VOther (J "{...}")) echo)) else if jstr_eqb k (J "t") then Ok (Some (Nested (VOther (J "{1=x}")) numbered)) else
  match k with [_] => Ok None | _ => Err NullPointer end.
Lemma odd_cases : let on g s := evaluate_boolean_on witness_env (Some s) g None in
  map (on odd_map) [J "m.abc = 'abc'"; J "x = 1"; J "t.a = null"; J "t.a = 1"; J "xy = 1"; J "m.abc = 'abc' OR xy = 1"] = [Ok true; Err DataNotFound; Ok true; Err DataNotFound; Err NullPointer; Ok true] /\
  map (on numbered) [J "a = null"; J "a = 1"] = [Err ClassCast; Err ClassCast] /\
  map (on null_map) [J "a = null"; J "1 = 1"; J "(1 = 1) OR (a = 1)"; J "(1 = 2) OR (a = 1)"] = [Err NullPointer; Ok true; Ok true; Err NullPointer] /\
  evaluate_arith_on witness_env (Some (J "1 + 2")) null_map = Ok (VInt 3) /\ evaluate_arith_on witness_env (Some (J "1 + a")) null_map = Err NullPointer.
Proof. cbv zeta. split; [vm_compute; reflexivity|]. split; [vm_compute; reflexivity|]. split; [vm_compute; reflexivity|]. split; vm_compute; reflexivity. Qed.
Lemma null_collides : snd (nrun [] [NCall None None; NCall (Some (J "null")) None; NCall None None; NEvict (J "null_"); NCall None None]) =
  [Some (Err NullPointer); Some (Ok (NField (Some (J "null")))); Some (Ok (NField (Some (J "null")))); None; Some (Err NullPointer)].
Proof. vm_compute. reflexivity. Qed.

(** ** As properties *)
Lemma boolean_plain E s d dflt : evaluate_boolean_on E (Some s) (hash_map d) dflt = evaluate_boolean E s d dflt.
Proof. unfold evaluate_boolean_on, evaluate_boolean. cbn [parse_nullable]. destruct (parse_expression s dflt); [apply bool_hash|reflexivity]. Qed.
Lemma arithmetic_plain E s d : evaluate_arith_on E (Some s) (hash_map d) = evaluate_arith E s d.
Proof. unfold evaluate_arith_on, evaluate_arith. cbn [parse_nullable]. destruct (parse_expression s None); [apply arith_hash|reflexivity]. Qed.
Lemma null_text E g dflt : evaluate_boolean_on E None g dflt = Err NullPointer /\ evaluate_arith_on E None g = Err NullPointer.
Proof. split; reflexivity. Qed.
Lemma others_apart c es : answers es (snd (nrun c es)) = snd (nrun c (filter not_for_null es)).
Proof. apply null_calls_apart. Qed.
Lemma same_histories c es : snd (nrun c (map of_cevent es)) = map (option_map result) (snd (crun c es)).
Proof. apply without_null. Qed.
