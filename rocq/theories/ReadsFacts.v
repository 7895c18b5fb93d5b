(** C68: evaluation while the map and the clock change. *)
From Verif Require Import Base Dates Values Ops Funcs Ast Eval Lexer Grammar Listener Api SpecBool SpecCompare SpecPath BoolFacts CompareFacts ValuesFacts FieldFacts
  CompareWitness Reads SpecReads.

Lemma andthen_eq {A B} (m : act A) (g : A -> act B) k : andthen m g k =
  (match fst (m k) with Ok a => fst (g a (k + length (snd (m k)))) | Err e => Err e end,
   snd (m k) ++ match fst (m k) with Ok a => snd (g a (k + length (snd (m k)))) | Err _ => [] end).
Proof.
  unfold andthen. destruct (m k) as [[a|e] t]; cbn [fst snd]; [|rewrite app_nil_r; reflexivity].
  destruct (g a (k + length t)) as [r t']. reflexivity.
Qed.

(** ** The result *)
Section agreement.
  Variables (E : env) (w : world) (D : data) (t : date).
  Let E' := on_date E t.
  Definition sees (i : nat) (a : access) : Prop :=
    match a with
    | Field f => get_value_from_map f (snd (w i)) = get_value_from_map f D
    | Clock => fst (w i) = t
    end.
  Definition compat (k : nat) (tr : list access) : Prop := forall i a, nth_error tr i = Some a -> sees (k + i) a.
  Definition agrees {A} (m : act A) (r : res A) : Prop := forall k, compat k (snd (m k)) -> fst (m k) = r.

  Lemma compat_app k a b : compat k (a ++ b) -> compat k a /\ compat (k + length a) b.
  Proof.
    intros H. split; intros i x N.
    - apply H. rewrite nth_error_app1; [exact N|]. apply nth_error_Some. congruence.
    - rewrite <- Nat.add_assoc. apply H. rewrite nth_error_app2 by lia. replace (length a + i - length a) with i by lia. exact N.
  Qed.
  Lemma agrees_pure {A} (r : res A) : agrees (pure r) r.
  Proof. intros k _. reflexivity. Qed.
  Lemma agrees_bind {A B} (m : act A) (r : res A) (g : A -> act B) (h : A -> res B) :
    agrees m r -> (forall a, agrees (g a) (h a)) -> agrees (andthen m g) (bind r h).
  Proof.
    intros M G k. rewrite andthen_eq. cbn [fst snd]. intros C. apply compat_app in C. destruct C as [C1 C2]. specialize (M k C1).
    rewrite M in *. destruct r as [a|e]; [|reflexivity]. cbn [bind]. apply G. exact C2.
  Qed.
  Lemma agrees_if {A} (c : bool) (m m' : act A) r r' : agrees m r -> agrees m' r' -> agrees (if c then m else m') (if c then r else r').
  Proof. destruct c; auto. Qed.
  Lemma agrees_field f : agrees (field_act w f) (field_value f D).
  Proof.
    destruct f as [s|]; [|apply agrees_pure]. intros k C. specialize (C 0 (Field s) eq_refl). cbn in *. rewrite Nat.add_0_r in C. exact C.
  Qed.
  Lemma agrees_field_or f : agrees (field_or_fail_act w f) (field_value_or_fail f D).
  Proof. apply agrees_bind; [apply agrees_field|]. intros o. apply agrees_pure. Qed.
  Lemma agrees_function f items : agrees (function_act E w f items) (evaluate_function E' f items).
  Proof.
    destruct f; try (intros k _; reflexivity). intros k. cbn [function_act fst snd].
    destruct (evaluate_function (on_date E (fst (w k))) F_DAYS_ELAPSED items) as [v|e] eqn:R; intros C.
    - specialize (C 0 Clock eq_refl). cbn [sees] in C. rewrite Nat.add_0_r in C. unfold E'. rewrite <- C. symmetry. exact R.
    - rewrite <- R. unfold evaluate_function in *. destruct items as [|i items]; [reflexivity|].
      destruct (negb _); [reflexivity|]. destruct (negb _); [reflexivity|]. destruct (validate_items (i :: items)); [|reflexivity]. cbn [bind] in *.
      destruct items; [|destruct i as [[] ?]; reflexivity]. destruct i as [[] ?]; cbn [func_evaluate eval_days_elapsed] in *; try reflexivity; try discriminate R.
      destruct (parse_iso_date s); [discriminate R|reflexivity].
  Qed.
  Lemma same_arithmetic op l lt r : evaluate_arithmetic E' op l lt r = evaluate_arithmetic E op l lt r.
  Proof. reflexivity. Qed.

  Definition arith_list : list node -> act (list jval) := fix go l :=
    match l with [] => pure (Ok []) | i :: l' => v <~ arith_act E w i ;; vs <~ go l' ;; pure (Ok (v :: vs)) end.
  Lemma agrees_arith n : agrees (arith_act E w n) (arith_eval E' D n).
  Proof.
    induction n as [f|dt v|l r op IHl IHr|f items IH|l r op dt _ _|f a b t1 t2|f items _|f op items _|l r op _ _] using node_ind';
      cbn [arith_act arith_eval]; try apply agrees_pure.
    - apply agrees_field_or.
    - apply agrees_bind; [exact IHl|]. intros lv. destruct op; try (destruct r as [r|]; [|apply agrees_pure]; apply agrees_bind; [exact IHr|];
        intros rv; rewrite same_arithmetic; apply agrees_pure). rewrite same_arithmetic. destruct r; apply agrees_pure.
    - apply agrees_bind; [|intros vs; apply agrees_function]. induction IH as [|i l I L IHL]; [apply agrees_pure|].
      apply agrees_bind; [exact I|]. intros v. apply agrees_bind; [exact IHL|]. intros vs. apply agrees_pure.
  Qed.

  Definition value_act (m : node) : act (option jval) :=
    match m with
    | NField f => field_act w f
    | NUnary _ v => pure (optional_of v)
    | NArith _ _ _ | NFunc _ _ => v <~ arith_act E w m ;; pure (optional_of v)
    | _ => pure (Ok None)
    end.
  Definition value_of (m : node) : res (option jval) :=
    match m with
    | NField f => field_value f D
    | NUnary _ v => optional_of v
    | NArith _ _ _ | NFunc _ _ => v <- arith_eval E' D m ;; optional_of v
    | _ => Ok None
    end.
  Lemma agrees_value m : agrees (value_act m) (value_of m).
  Proof.
    destruct m; cbn [value_act value_of]; try apply agrees_pure; try apply agrees_field;
      (apply agrees_bind; [apply agrees_arith|intros v; apply agrees_pure]).
  Qed.
  Lemma agrees_bool n : agrees (bool_act E w n) (bool_eval E' D n).
  Proof.
    induction n as [f|dt v|l r op IHl IHr|f items IH|l r op dt IHl IHr|f a b t1 t2|f items IH|f op items IH|l r op IHl IHr] using node_ind';
      cbn [bool_act bool_eval]; try apply agrees_pure.
    - apply agrees_if; [apply agrees_pure|]. apply agrees_bind; [apply agrees_pure|]. intros s.
      apply agrees_bind; [apply agrees_field_or|]. intros x. apply agrees_pure.
    - apply agrees_bind.
      { apply agrees_if; [apply (agrees_value l)|]. apply agrees_bind; [exact IHl|]. intros b. apply agrees_pure. }
      intros lo. apply agrees_bind; [apply agrees_pure|]. intros nc. apply agrees_bind; [apply agrees_pure|]. intros lv.
      apply agrees_bind; [|intros rv; apply agrees_pure]. apply agrees_if; [apply agrees_pure|]. apply agrees_bind; [|intros ro; apply agrees_pure].
      apply agrees_if; [apply (agrees_value r)|]. apply agrees_bind; [exact IHr|]. intros b. apply agrees_pure.
    - apply agrees_bind; [apply agrees_field_or|]. intros v. apply agrees_pure.
    - apply agrees_bind; [apply agrees_field_or|]. intros v. apply agrees_bind; [|intros vs; apply agrees_pure].
      induction IH as [|i l I L IHL]; [apply agrees_pure|]. apply agrees_bind.
      { apply agrees_if; [apply agrees_arith|]. apply agrees_bind; [exact I|]. intros b. apply agrees_pure. }
      intros x. apply agrees_bind; [exact IHL|]. intros vs. apply agrees_pure.
    - apply agrees_bind; [apply agrees_field_or|]. intros v. apply agrees_bind; [|intros vs; apply agrees_pure].
      induction IH as [|i l I L IHL]; [apply agrees_pure|]. apply agrees_bind.
      { apply agrees_if; [apply agrees_arith|]. apply agrees_bind; [exact I|]. intros b. apply agrees_pure. }
      intros x. apply agrees_bind; [exact IHL|]. intros vs. apply agrees_pure.
    - destruct op; (apply agrees_bind; [exact IHl|]); intros a; try apply agrees_pure; apply agrees_if; try apply agrees_pure;
        (destruct r as [r|]; [exact IHr|apply agrees_pure]).
  Qed.
End agreement.

(** ** The accesses *)
Lemma within_refl {A} (l : list A) : within l l.
Proof. induction l; constructor; assumption. Qed.
Lemma within_none {A} (l : list A) : within [] l.
Proof. induction l; constructor; assumption. Qed.
Lemma within_app {A} (a b c d : list A) : within a b -> within c d -> within (a ++ c) (b ++ d).
Proof. intros H1 H2. induction H1; cbn; [exact H2|constructor; assumption|constructor; assumption]. Qed.
Lemma within_in {A} (a b : list A) x : within a b -> In x a -> In x b.
Proof. intros H I. induction H as [|y l l' H IH|y l l' H IH]; [exact I|right; auto|]. destruct I as [<-|I]; [left; reflexivity|right; auto]. Qed.
Lemma within_length {A} (a b : list A) : within a b -> length a <= length b.
Proof. induction 1; cbn; lia. Qed.
Lemma within_nodup {A B} (f : A -> B) (a b : list A) : within a b -> NoDup (map f b) -> NoDup (map f a).
Proof.
  induction 1 as [|y l l' H IH|y l l' H IH]; intros N; [exact N|inversion N; auto|]. cbn in *. inversion N as [|? ? N1 N2]; subst. constructor; [|auto].
  intros I. apply N1. apply in_map_iff in I. destruct I as (z & E & I). apply in_map_iff. exists z. split; [exact E|eapply within_in; eassumption].
Qed.
Definition clocks (tr : list access) : nat := length tr - length (looked_up tr).
Lemma looked_app a b : looked_up (a ++ b) = looked_up a ++ looked_up b.
Proof. apply flat_map_app. Qed.
Lemma looked_short tr : length (looked_up tr) <= length tr.
Proof. induction tr as [|[f|] tr IH]; unfold looked_up in *; cbn; lia. Qed.
Lemma clocks_app a b : clocks (a ++ b) = clocks a + clocks b.
Proof. unfold clocks. rewrite looked_app, !app_length. pose proof (looked_short a). pose proof (looked_short b). lia. Qed.

Section limits.
  Variables (E : env) (w : world).
  Definition limited {A} (m : act A) (fs : list jstr) (c : nat) : Prop := forall k, within (looked_up (snd (m k))) fs /\ clocks (snd (m k)) <= c.
  Lemma limited_pure {A} (r : res A) fs c : limited (pure r) fs c.
  Proof. intros k. split; [apply within_none|unfold clocks; cbn; lia]. Qed.
  Lemma limited_bind {A B} (m : act A) (g : A -> act B) fs fs' c c' : limited m fs c -> (forall a, limited (g a) fs' c') -> limited (andthen m g) (fs ++ fs') (c + c').
  Proof.
    intros M G k. rewrite andthen_eq. cbn [snd]. rewrite looked_app, clocks_app. destruct (M k) as [M1 M2]. destruct (fst (m k)) as [a|e].
    - destruct (G a (k + length (snd (m k)))) as [G1 G2]. split; [apply within_app; assumption|lia].
    - split; [apply within_app; [exact M1|apply within_none]|unfold clocks in *; cbn [looked_up flat_map length]; lia].
  Qed.
  Lemma limited_then {A B} (m : act A) (g : A -> res B) fs c : limited m fs c -> limited (andthen m (fun a => pure (g a))) fs c.
  Proof. intros M. rewrite <- (app_nil_r fs), <- (Nat.add_0_r c). apply limited_bind; [exact M|]. intros a. apply limited_pure. Qed.
  Lemma limited_first {A B} (r : res A) (g : A -> act B) fs c : (forall a, limited (g a) fs c) -> limited (andthen (pure r) g) fs c.
  Proof. intros G. change fs with ([] ++ fs). change c with (0 + c). apply limited_bind; [apply limited_pure|exact G]. Qed.
  Lemma limited_if {A} (b : bool) (m m' : act A) fs c : limited m fs c -> limited m' fs c -> limited (if b then m else m') fs c.
  Proof. destruct b; auto. Qed.
  Lemma limited_field f : limited (field_act w f) (opt_field f) 0.
  Proof. destruct f as [s|]; [|apply limited_pure]. intros k. cbn. split; [apply within_refl|unfold clocks; cbn; lia]. Qed.
  Lemma limited_field_or f : limited (field_or_fail_act w f) (opt_field f) 0.
  Proof. apply limited_then, limited_field. Qed.
  Lemma limited_function f items : limited (function_act E w f items) [] (match f with F_DAYS_ELAPSED => 1 | _ => 0 end).
  Proof.
    destruct f; try apply limited_pure. intros k. cbn [function_act snd].
    destruct (evaluate_function _ _ _); cbn; split; try apply within_nil; unfold clocks; cbn; lia.
  Qed.
  Lemma limited_arith n : limited (arith_act E w n) (arith_fields n) (arith_dates n).
  Proof.
    induction n as [f|dt v|l r op IHl IHr|f items IH|l r op dt _ _|f a b t1 t2|f items _|f op items _|l r op _ _] using node_ind';
      cbn [arith_act arith_fields arith_dates]; try apply limited_pure.
    - apply limited_field_or.
    - apply limited_bind; [exact IHl|]. intros lv. destruct op; destruct r as [r|]; try apply limited_pure; apply limited_then; exact IHr.
    - rewrite <- (app_nil_r (flat_map _ _)). apply limited_bind; [|intros vs; apply limited_function].
      induction IH as [|i l I L IHL]; [apply limited_pure|]. cbn [flat_map map total fold_right]. apply limited_bind; [exact I|]. intros v.
      apply limited_then. exact IHL.
  Qed.
  Lemma limited_value m : is_arith_base m = true -> limited (value_act E w m) (arith_fields m) (arith_dates m).
  Proof.
    destruct m; intros H; try discriminate H; cbn [value_act].
    - apply limited_field.
    - apply limited_pure.
    - apply limited_then, limited_arith.
    - apply limited_then, limited_arith.
  Qed.
  Lemma limited_text {A} v (g : jstr -> act A) : (forall s, limited (g s) [s] 0) -> limited (andthen (pure (to_string v)) g) [show v] 0.
  Proof.
    intros G. assert (H : to_string v = Err NullPointer \/ to_string v = Ok (show v)) by (destruct v; auto).
    destruct H as [-> | ->]; intros k; rewrite andthen_eq; cbn [pure fst snd app length]; [split; [apply within_none|unfold clocks; cbn; lia]|].
    rewrite Nat.add_0_r. apply G.
  Qed.
  Definition operand_dates (m : node) : nat := if is_arith_base m then arith_dates m else bool_dates m.
  Lemma limited_operand m : limited (bool_act E w m) (bool_fields m) (bool_dates m) ->
    limited (if is_arith_base m then value_act E w m else b <~ bool_act E w m ;; pure (Ok (Some (VBool b)))) (operand_fields m) (operand_dates m).
  Proof.
    intros H. unfold operand_fields, operand_dates. destruct (is_arith_base m) eqn:B; [apply limited_value, B|]. apply limited_then, H.
  Qed.
  Lemma limited_item m : limited (bool_act E w m) (bool_fields m) (bool_dates m) ->
    limited (if is_arith_base m then arith_act E w m else b <~ bool_act E w m ;; pure (Ok (VBool b))) (operand_fields m) (operand_dates m).
  Proof.
    intros H. unfold operand_fields, operand_dates. destruct (is_arith_base m) eqn:B; [apply limited_arith|]. apply limited_then, H.
  Qed.
  Lemma limited_bool n : limited (bool_act E w n) (bool_fields n) (bool_dates n).
  Proof.
    induction n as [f|dt v|l r op IHl IHr|f items IH|l r op dt IHl IHr|f a b t1 t2|f items IH|f op items IH|l r op IHl IHr] using node_ind';
      cbn [bool_act bool_fields bool_dates]; try apply limited_pure.
    - destruct (dtype_eqb dt BOOLEAN); [apply limited_pure|]. apply limited_text. intros s. apply limited_then, limited_field_or.
    - apply limited_bind; [exact (limited_operand l IHl)|]. intros lo. apply limited_first. intros nc. apply limited_first. intros lv.
      apply limited_then. apply limited_if; [apply limited_pure|]. apply limited_then. exact (limited_operand r IHr).
    - apply limited_then, limited_field_or.
    - apply (limited_bind _ _ _ _ 0); [apply limited_field_or|]. intros v. apply limited_then.
      induction IH as [|i l I L IHL]; [apply limited_pure|]. cbn [flat_map map total fold_right]. apply limited_bind; [exact (limited_item i I)|].
      intros x. apply limited_then. exact IHL.
    - apply (limited_bind _ _ _ _ 0); [apply limited_field_or|]. intros v. apply limited_then.
      induction IH as [|i l I L IHL]; [apply limited_pure|]. cbn [flat_map map total fold_right]. apply limited_bind; [exact (limited_item i I)|].
      intros x. apply limited_then. exact IHL.
    - destruct op; (apply limited_bind; [exact IHl|]); intros a; destruct a; destruct r as [r|]; try apply limited_pure; exact IHr.
  Qed.
End limits.

(** ** Texts *)
Lemma text_act E w s dflt n k : parse_expression s dflt = Ok n -> evaluate_boolean_act E w s dflt k = bool_act E w n k.
Proof. intros P. unfold evaluate_boolean_act. rewrite P, andthen_eq. cbn [pure fst snd app length]. rewrite Nat.add_0_r. symmetry. apply surjective_pairing. Qed.
Lemma arith_text_act E w s n k : parse_expression s None = Ok n -> evaluate_arith_act E w s k = arith_act E w n k.
Proof. intros P. unfold evaluate_arith_act. rewrite P, andthen_eq. cbn [pure fst snd app length]. rewrite Nat.add_0_r. symmetry. apply surjective_pairing. Qed.

Lemma as_seen_compat w k tr D t : as_seen w k tr D t -> compat w D t k tr.
Proof. intros [H1 H2] i [f|] N; cbn; [|apply H2, N]. apply same_field_get, H1, N. Qed.
Lemma bool_seen E w s dflt k D t : as_seen w k (snd (evaluate_boolean_act E w s dflt k)) D t ->
  fst (evaluate_boolean_act E w s dflt k) = evaluate_boolean (on_date E t) s D dflt.
Proof.
  intros S. apply as_seen_compat in S. unfold evaluate_boolean, evaluate_boolean_act in *. apply (agrees_bind w D t); [intros j _; reflexivity| |exact S].
  intros n. apply agrees_bool.
Qed.
Lemma arith_seen E w s k D t : as_seen w k (snd (evaluate_arith_act E w s k)) D t ->
  fst (evaluate_arith_act E w s k) = evaluate_arith (on_date E t) s D.
Proof.
  intros S. apply as_seen_compat in S. unfold evaluate_arith, evaluate_arith_act in *. apply (agrees_bind w D t); [intros j _; reflexivity| |exact S].
  intros n. apply agrees_arith.
Qed.
Lemma still_seen w k tr : (forall i, k <= i < k + length tr -> w i = w k) -> as_seen w k tr (snd (w k)) (fst (w k)).
Proof.
  intros H. split; intros i; [intros f|]; intros N; (assert (L : i < length tr) by (apply nth_error_Some; congruence)); rewrite H by lia; [|reflexivity].
  intros E. reflexivity.
Qed.
Lemma bool_still E w s dflt k : (forall i, k <= i < k + length (snd (evaluate_boolean_act E w s dflt k)) -> w i = w k) ->
  fst (evaluate_boolean_act E w s dflt k) = evaluate_boolean (on_date E (fst (w k))) s (snd (w k)) dflt.
Proof. intros H. apply bool_seen, still_seen, H. Qed.
Lemma arith_still E w s k : (forall i, k <= i < k + length (snd (evaluate_arith_act E w s k)) -> w i = w k) ->
  fst (evaluate_arith_act E w s k) = evaluate_arith (on_date E (fst (w k))) s (snd (w k)).
Proof. intros H. apply arith_seen, still_seen, H. Qed.

Lemma trace_length tr fs c : within (looked_up tr) fs -> clocks tr <= c -> length tr <= length fs + c.
Proof. intros W C. apply within_length in W. unfold clocks in C. lia. Qed.
Lemma bool_accesses E w s dflt n k : parse_expression s dflt = Ok n ->
  let tr := snd (evaluate_boolean_act E w s dflt k) in
  within (looked_up tr) (bool_fields n) /\ length tr <= length (looked_up tr) + bool_dates n.
Proof.
  intros P. rewrite (text_act _ _ _ _ _ _ P). destruct (limited_bool E w n k) as [W C]. cbn zeta. split; [exact W|].
  unfold clocks in C. pose proof (looked_short (snd (bool_act E w n k))). lia.
Qed.
Lemma arith_accesses E w s n k : parse_expression s None = Ok n ->
  let tr := snd (evaluate_arith_act E w s k) in
  within (looked_up tr) (arith_fields n) /\ length tr <= length (looked_up tr) + arith_dates n.
Proof.
  intros P. rewrite (arith_text_act _ _ _ _ _ P). destruct (limited_arith E w n k) as [W C]. cbn zeta. split; [exact W|].
  unfold clocks in C. pose proof (looked_short (snd (arith_act E w n k))). lia.
Qed.
Lemma bool_single E w s dflt n k : parse_expression s dflt = Ok n -> length (bool_fields n) + bool_dates n <= 1 ->
  fst (evaluate_boolean_act E w s dflt k) = evaluate_boolean (on_date E (fst (w k))) s (snd (w k)) dflt.
Proof.
  intros P L. apply bool_still. intros i I. destruct (bool_accesses E w s dflt n k P) as [W C]. apply within_length in W. replace i with k by lia. reflexivity.
Qed.
Lemma arith_single E w s n k : parse_expression s None = Ok n -> length (arith_fields n) + arith_dates n <= 1 ->
  fst (evaluate_arith_act E w s k) = evaluate_arith (on_date E (fst (w k))) s (snd (w k)).
Proof.
  intros P L. apply arith_still. intros i I. destruct (arith_accesses E w s n k P) as [W C]. apply within_length in W. replace i with k by lia. reflexivity.
Qed.

(** ** A mixture of moments *)
Lemma split_before : forall s acc, exists l, split_dots s acc = (rev acc ++ before_dot s) :: l.
Proof.
  induction s as [|c s IH]; intros acc; cbn [split_dots before_dot]; [rewrite app_nil_r; eauto|].
  destruct (c =? ch ".")%N; [rewrite app_nil_r; eauto|]. destruct (IH (c :: acc)) as [l ->]. exists l. cbn [rev]. rewrite <- app_assoc. reflexivity.
Qed.
Lemma drop_head y l : drop_trailing_empty (y :: l) = [] \/ exists l', drop_trailing_empty (y :: l) = y :: l'.
Proof. cbn [drop_trailing_empty]. destruct (drop_trailing_empty l); [|right; eauto]. destruct y; [left; reflexivity|right; eauto]. Qed.
Lemma path_before s : split_path s = [] \/ exists l, split_path s = before_dot s :: l.
Proof.
  unfold split_path. destruct (split_before s []) as [l ->]. cbn [rev app]. destruct l as [|x l]; [right; eauto|]. apply drop_head.
Qed.
Lemma get_before s d d' : map_get (before_dot s) d = map_get (before_dot s) d' -> get_value_from_map s d = get_value_from_map s d'.
Proof.
  intros H. unfold get_value_from_map. destruct (path_before s) as [-> |[l ->]]; [reflexivity|]. destruct l as [|x l]; cbn [get_path]; rewrite H; reflexivity.
Qed.
Lemma get_same d d' s : get_value_from_map s d = get_value_from_map s d' -> same_field d d' s.
Proof. intros H E. cbn [arith_eval]. unfold field_value_or_fail, field_value. rewrite H. reflexivity. Qed.

Lemma jstr_eqb_refl a : jstr_eqb a a = true.
Proof. apply jstr_eqb_iff. reflexivity. Qed.
Fixpoint place (p : access -> bool) (tr : list access) : nat :=
  match tr with [] => 0 | a :: tr' => if p a then 0 else S (place p tr') end.
Definition is_field (f : jstr) (a : access) : bool := match a with Field g => jstr_eqb g f | Clock => false end.
Definition is_clock (a : access) : bool := match a with Clock => true | Field _ => false end.
Lemma place_range p tr : place p tr <= length tr.
Proof. induction tr as [|a tr IH]; cbn; [lia|]. destruct (p a); lia. Qed.
Lemma looked_in tr i f : nth_error tr i = Some (Field f) -> In f (looked_up tr).
Proof. intros N. apply nth_error_In in N. unfold looked_up. apply in_flat_map. exists (Field f). split; [exact N|left; reflexivity]. Qed.
Lemma place_field : forall tr i f, NoDup (looked_up tr) -> nth_error tr i = Some (Field f) -> place (is_field f) tr = i.
Proof.
  induction tr as [|a tr IH]; intros i f N H; [destruct i; discriminate H|]. cbn [place]. destruct i as [|i].
  - injection H as ->. cbn [is_field]. rewrite jstr_eqb_refl. reflexivity.
  - cbn in H. destruct a as [g|]; cbn [is_field].
    + change (looked_up (Field g :: tr)) with (g :: looked_up tr) in N. inversion N as [|? ? N1 N2]; subst.
      destruct (jstr_eqb g f) eqn:G; [|rewrite (IH i f N2 H); reflexivity]. apply jstr_eqb_iff in G. subst g. exfalso. apply N1. eapply looked_in; eassumption.
    + rewrite (IH i f N H). reflexivity.
Qed.
Lemma clocks_none : forall tr i, clocks tr = 0 -> nth_error tr i <> Some Clock.
Proof.
  induction tr as [|a tr IH]; intros i C; [destruct i; discriminate|]. pose proof (looked_short tr) as L. unfold clocks in *. unfold looked_up in *.
  destruct a; cbn [flat_map app length] in C; [|lia]. destruct i; cbn; [discriminate|]. apply IH. lia.
Qed.
Lemma place_clock : forall tr i, clocks tr <= 1 -> nth_error tr i = Some Clock -> place is_clock tr = i.
Proof.
  induction tr as [|a tr IH]; intros i C H; [destruct i; discriminate H|]. cbn [place]. pose proof (looked_short tr) as L. destruct a as [g|]; cbn [is_clock].
  - destruct i as [|i]; [discriminate H|]. cbn in H. rewrite (IH i); [reflexivity| |exact H]. unfold clocks in *. unfold looked_up in *. cbn [flat_map app length] in C. lia.
  - destruct i as [|i]; [reflexivity|]. cbn in H. exfalso. apply (clocks_none tr i); [|exact H]. unfold clocks in *. unfold looked_up in *. cbn [flat_map app length] in C. lia.
Qed.
Lemma map_get_nonnull : forall d k v, map_get k d = Some v -> v <> VNull.
Proof. induction d as [|[k' v'] d IH]; intros k v H; [discriminate H|]. cbn in H. destruct (jstr_eqb k' k); [|eauto]. destruct v'; congruence. Qed.
Definition mixed (at_moment : jstr -> data) (fs : list jstr) : data :=
  flat_map (fun f => match map_get (before_dot f) (at_moment f) with Some v => [(before_dot f, v)] | None => [] end) fs.
Lemma mixed_other g : forall fs k, ~ In k (map before_dot fs) -> map_get k (mixed g fs) = None.
Proof.
  induction fs as [|f fs IH]; intros k N; [reflexivity|]. cbn in N. unfold mixed. cbn [flat_map]. destruct (map_get (before_dot f) (g f)) as [v|] eqn:G.
  - cbn [app map_get]. destruct (jstr_eqb (before_dot f) k) eqn:B; [apply jstr_eqb_iff in B; exfalso; auto|]. apply IH. auto.
  - cbn [app]. apply IH. auto.
Qed.
Lemma mixed_get g : forall fs f, NoDup (map before_dot fs) -> In f fs -> map_get (before_dot f) (mixed g fs) = map_get (before_dot f) (g f).
Proof.
  induction fs as [|f' fs IH]; intros f N I; [destruct I|]. inversion N as [|? ? N1 N2]; subst. unfold mixed. cbn [flat_map]. destruct I as [<-|I].
  - destruct (map_get (before_dot f') (g f')) as [v|] eqn:G.
    + cbn [app map_get]. rewrite jstr_eqb_refl. apply map_get_nonnull in G. destruct v; congruence.
    + cbn [app]. apply mixed_other. exact N1.
  - assert (B : jstr_eqb (before_dot f') (before_dot f) = false).
    { destruct (jstr_eqb _ _) eqn:B; [|reflexivity]. apply jstr_eqb_iff in B. exfalso. apply N1. rewrite B. apply in_map, I. }
    destruct (map_get (before_dot f') (g f')); cbn [app map_get]; [rewrite B|]; apply IH; assumption.
Qed.
Lemma mixture w k tr fs : within (looked_up tr) fs -> clocks tr <= 1 -> NoDup (map before_dot fs) ->
  exists D t, as_seen w k tr D t /\ (forall f, In f fs -> exists i, during k tr i /\ same_field (snd (w i)) D f) /\ exists i, during k tr i /\ t = fst (w i).
Proof.
  intros W C N. set (g := fun f => snd (w (k + place (is_field f) tr))). exists (mixed g fs), (fst (w (k + place is_clock tr))).
  assert (S : forall f, In f fs -> same_field (g f) (mixed g fs) f).
  { intros f I. apply get_same, get_before. symmetry. apply mixed_get; assumption. }
  split; [split|split].
  - intros i f H. replace i with (place (is_field f) tr); [apply S; eapply within_in; [exact W|eapply looked_in; exact H]|].
    apply place_field; [|exact H]. apply NoDup_map_inv with (f := before_dot). eapply within_nodup; eassumption.
  - intros i H. rewrite (place_clock tr i C H). reflexivity.
  - intros f I. exists (k + place (is_field f) tr). split; [|apply S, I]. unfold during. pose proof (place_range (is_field f) tr). lia.
  - exists (k + place is_clock tr). split; [|reflexivity]. unfold during. pose proof (place_range is_clock tr). lia.
Qed.
Lemma bool_mixture E w s dflt n k : parse_expression s dflt = Ok n -> NoDup (map before_dot (bool_fields n)) -> bool_dates n <= 1 ->
  let tr := snd (evaluate_boolean_act E w s dflt k) in
  exists D t, (forall f, In f (bool_fields n) -> exists i, during k tr i /\ same_field (snd (w i)) D f) /\ (exists i, during k tr i /\ t = fst (w i)) /\ fst (evaluate_boolean_act E w s dflt k) = evaluate_boolean (on_date E t) s D dflt.
Proof.
  intros P N C. cbn zeta. destruct (bool_accesses E w s dflt n k P) as [W L]. cbn zeta in *.
  destruct (mixture w k _ _ W ltac:(unfold clocks; lia) N) as (D & t & S & F & T). exists D, t. split; [exact F|]. split; [exact T|]. apply bool_seen, S.
Qed.
Lemma arith_mixture E w s n k : parse_expression s None = Ok n -> NoDup (map before_dot (arith_fields n)) -> arith_dates n <= 1 ->
  let tr := snd (evaluate_arith_act E w s k) in
  exists D t, (forall f, In f (arith_fields n) -> exists i, during k tr i /\ same_field (snd (w i)) D f) /\ (exists i, during k tr i /\ t = fst (w i)) /\ fst (evaluate_arith_act E w s k) = evaluate_arith (on_date E t) s D.
Proof.
  intros P N C. cbn zeta. destruct (arith_accesses E w s n k P) as [W L]. cbn zeta in *.
  destruct (mixture w k _ _ W ltac:(unfold clocks; lia) N) as (D & t & S & F & T). exists D, t. split; [exact F|]. split; [exact T|]. apply arith_seen, S.
Qed.

(** ** Short circuit *)
Lemma short_circuit E w l r k b tr : bool_act E w l k = (Ok b, tr) ->
  (b = false -> bool_act E w (NBool l (Some r) AND) k = (Ok false, tr)) /\ (b = true -> bool_act E w (NBool l (Some r) OR) k = (Ok true, tr)).
Proof.
  intros H. split; intros ->; cbn [bool_act]; unfold andthen; rewrite H; cbn; rewrite app_nil_r; reflexivity.
Qed.

(** ** Counterexamples *)
Definition falling : world := fun i => (Date 2024 1 1, [(J "f", if i =? 0 then VInt 9 else VInt 0)]).
Lemma twice_refuted : exists E w s, fst (evaluate_boolean_act E w s None 0) = Ok true /\ forall i, evaluate_boolean (on_date E (fst (w i))) s (snd (w i)) None = Ok false.
Proof.
  exists witness_env, falling, (J "(f >= 1) AND (f <= 5)"). split; [vm_compute; reflexivity|]. intros [|i]; vm_compute; reflexivity.
Qed.
Definition midnight : world := fun i => (if i <? 2 then Date 2024 1 1 else Date 2024 1 2, [(J "f", VDate (Date 2023 12 25))]).
Lemma midnight_refuted : exists E w s, fst (evaluate_boolean_act E w s None 0) = Ok false /\ (forall i j, snd (w i) = snd (w j)) /\ forall i, evaluate_boolean (on_date E (fst (w i))) s (snd (w i)) None = Ok true.
Proof.
  exists witness_env, midnight, (J "DAYS_ELAPSED(f) = DAYS_ELAPSED(f)"). split; [vm_compute; reflexivity|]. split; [reflexivity|].
  intros [|[|i]]; vm_compute; reflexivity.
Qed.
