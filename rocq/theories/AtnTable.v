(** The sets of configurations the automaton of the generated lexer can be in, each with the derivatives of the rules it stands for. *)
From Coq Require Import FMapPositive.
From Verif Require Import Base Lexer SpecLex LexerTable LexerAtn AtnRegex.
Local Open Scope N_scope.

Definition the_net : net := Eval vm_compute in
  match lexer_net with Some a => a | None => Net (PositiveMap.empty _) (PositiveMap.empty _) [] 0 [] [] end.
Lemma lexer_net_is : lexer_net = Some the_net.
Proof. vm_compute. reflexivity. Qed.
Definition the_start : list conf := Eval vm_compute in match start the_net with Some cs => cs | None => [] end.
Lemma start_is : start the_net = Some the_start.
Proof. vm_compute. reflexivity. Qed.

(** ** Characters that no label distinguishes *)
Definition label_class (t : transition) : list (N * N) := match t with Chars _ l | Others _ l => l | _ => [] end.
Definition ends_of (l : list (N * N)) : list N := concat (map (fun i => [fst i; snd i + 1]) l).
Definition bounds : list N := Eval vm_compute in
  nodup N.eq_dec (0 :: concat (map (fun e => concat (map (fun t => ends_of (label_class t)) (snd e))) (PositiveMap.elements (transitions_map the_net)))).
Definition rep (c : N) : N := fold_right (fun b m => if b <=? c then N.max b m else m) 0 bounds.
Definition top : N := Eval vm_compute in fold_right N.max 0 bounds.
Definition bounded (l : list (N * N)) : bool := forallb (fun x => if in_dec N.eq_dec x bounds then true else false) (ends_of l).

Lemma rep_le c : rep c <= c.
Proof. unfold rep. induction bounds as [|b bs IH]; cbn [fold_right]; [lia|]. destruct (N.leb_spec b c); lia. Qed.
Lemma rep_ge c x : In x bounds -> x <= c -> x <= rep c.
Proof.
  unfold rep. induction bounds as [|b bs IH]; intros I L; [contradiction|]. cbn [fold_right]. destruct I as [->|I].
  - destruct (N.leb_spec x c); lia.
  - specialize (IH I L). destruct (N.leb_spec b c); lia.
Qed.
Lemma rep_in c : In (rep c) bounds.
Proof.
  assert (Z : In 0 bounds) by (vm_compute; tauto).
  assert (G : forall bs, In (fold_right (fun b m => if b <=? c then N.max b m else m) 0 bs) bs \/ fold_right (fun b m => if b <=? c then N.max b m else m) 0 bs = 0).
  { induction bs as [|b bs IH]; [right; reflexivity|]. cbn [fold_right]. destruct (b <=? c).
    - destruct (N.max_spec b (fold_right (fun b m => if b <=? c then N.max b m else m) 0 bs)) as [[_ ->]|[_ ->]]; [|left; left; reflexivity].
      destruct IH as [IH|IH]; [left; right; exact IH|right; exact IH].
    - destruct IH as [IH|IH]; [left; right; exact IH|right; exact IH]. }
  destruct (G bounds) as [H|H]; [exact H|]. unfold rep. rewrite H. exact Z.
Qed.
Lemma rep_top c : top <= c -> rep c = top.
Proof.
  intros L. apply N.le_antisymm; [|apply rep_ge; [vm_compute; tauto|exact L]].
  pose proof (rep_in c) as I. assert (B : forallb (fun b => b <=? top) bounds = true) by (vm_compute; reflexivity).
  rewrite forallb_forall in B. apply N.leb_le, B, I.
Qed.
Lemma inside_rep l c : bounded l = true -> inside l c = inside l (rep c).
Proof.
  unfold inside. induction l as [|[x y] l IH]; intros B; [reflexivity|]. unfold bounded, ends_of in B. cbn [map concat app fst snd forallb] in B.
  apply andb_true_iff in B. destruct B as [Bx B]. apply andb_true_iff in B. destruct B as [By B]. cbn [existsb fst snd]. rewrite (IH B).
  destruct (in_dec N.eq_dec x bounds) as [Ix|]; [|discriminate]. destruct (in_dec N.eq_dec (y + 1) bounds) as [Iy|]; [|discriminate].
  assert ((x <=? c) = (x <=? rep c)) as ->.
  { pose proof (rep_le c). destruct (N.leb_spec x c) as [L|L]; destruct (N.leb_spec x (rep c)) as [L'|L']; try reflexivity; [pose proof (rep_ge c x Ix L)|]; lia. }
  assert ((c <=? y) = (rep c <=? y)) as ->; [|reflexivity].
  pose proof (rep_le c). destruct (N.leb_spec c y) as [L|L]; destruct (N.leb_spec (rep c) y) as [L'|L']; try reflexivity; [|pose proof (rep_ge c (y + 1) Iy)]; lia.
Qed.

(** ** The automaton does not distinguish them *)
Lemma labels_bounded q t : In t (transitions the_net q) -> bounded (label_class t) = true.
Proof.
  unfold transitions. destruct (PositiveMap.find (key q) (transitions_map the_net)) as [l|] eqn:F; [|intros []].
  apply PositiveMap.elements_correct in F. intros I.
  assert (C : forallb (fun e => forallb (fun t => bounded (label_class t)) (snd e)) (PositiveMap.elements (transitions_map the_net)) = true) by (vm_compute; reflexivity).
  rewrite forallb_forall in C. specialize (C _ F). cbn [snd] in C. rewrite forallb_forall in C. apply C, I.
Qed.
Lemma target_rep t c : bounded (label_class t) = true -> target t c = target t (rep c).
Proof. intros B. destruct t; cbn [target label_class] in *; try reflexivity; rewrite (inside_rep l c B); reflexivity. Qed.
Lemma reach_one_rep c x r : forall ts acc, (forall t, In t ts -> bounded (label_class t) = true) -> reach_one the_net c ts x r acc = reach_one the_net c ts (rep x) r acc.
Proof.
  induction ts as [|t ts IH]; intros acc B; [reflexivity|]. cbn [reach_one]. rewrite (target_rep t x (B t (or_introl eq_refl))).
  destruct (target t (rep x)) as [q|]; [|apply IH; intros u I; apply B; right; exact I].
  destruct (closure the_net depth (move the_net c q (stack c) (todo c)) acc r) as [[acc' [|]]|]; try reflexivity. apply IH. intros u I. apply B. right. exact I.
Qed.
Lemma reach_rep x : forall cs skip acc, reach the_net cs x skip acc = reach the_net cs (rep x) skip acc.
Proof.
  induction cs as [|c cs IH]; intros skip acc; [reflexivity|]. cbn [reach]. rewrite (reach_one_rep c x) by (intros t I; eapply labels_bounded, I).
  destruct (_ && _); [apply IH|]. destruct (reach_one the_net c _ (rep x) _ acc) as [[acc' [|]]|]; try reflexivity; apply IH.
Qed.
Lemma step_rep cs x : step the_net cs x = step the_net cs (rep x).
Proof. apply reach_rep. Qed.

(** ** Neither do the derivatives *)
Fixpoint rx_bounded (r : rx) : bool :=
  match r with
  | None_ | Emp => true
  | Set_ _ l => bounded l
  | Then a b | Either a b => rx_bounded a && rx_bounded b
  | Many a => rx_bounded a
  end.
Lemma deriv_rep c r : rx_bounded r = true -> deriv c r = deriv (rep c) r.
Proof.
  induction r as [| |neg l|a IHa b IHb|a IHa b IHb|a IHa]; cbn [rx_bounded deriv]; intros B; try reflexivity.
  - unfold fits. rewrite (inside_rep l c B). reflexivity.
  - apply andb_true_iff in B. destruct B as [A B]. rewrite (IHa A), (IHb B). reflexivity.
  - apply andb_true_iff in B. destruct B as [A B]. rewrite (IHa A), (IHb B). reflexivity.
  - rewrite (IHa B). reflexivity.
Qed.
Definition kept (p : tkind * rx) : bool := alive (snd p).
Definition step_rx (c : N) (rs : list (tkind * rx)) : list (tkind * rx) := filter kept (map (fun p => (fst p, deriv c (snd p))) rs).
Lemma step_rx_rep c rs : forallb (fun p => rx_bounded (snd p)) rs = true -> step_rx c rs = step_rx (rep c) rs.
Proof.
  intros B. unfold step_rx. f_equal. apply map_ext_in. intros p I. rewrite forallb_forall in B. rewrite (deriv_rep c _ (B p I)). reflexivity.
Qed.

(** ** The pairs that can be reached *)
Definition entry : Type := list conf * list (tkind * rx).
Definition rx_eq_dec (a b : rx) : {a = b} + {a <> b}.
Proof.
  decide equality; try apply Bool.bool_dec. apply list_eq_dec. intros x y. decide equality; apply N.eq_dec.
Defined.
Definition entry_eq_dec (a b : entry) : {a = b} + {a <> b}.
Proof.
  decide equality.
  - apply list_eq_dec. intros x y. decide equality; [apply rx_eq_dec|apply tkind_eq_dec].
  - apply (list_eq_dec conf_eq_dec).
Defined.
Definition successor (e : entry) (c : N) : entry :=
  (match step the_net (fst e) c with Some q => q | None => [] end, step_rx c (snd e)).
Fixpoint explore (fuel : nat) (todo seen : list entry) : list entry :=
  match fuel with
  | O => seen
  | S f =>
      match todo with
      | [] => seen
      | e :: todo' =>
          let new := fold_left (fun acc c => let s := successor e c in if in_dec entry_eq_dec s (acc ++ seen) then acc else acc ++ [s]) bounds [] in
          explore f (todo' ++ new) (seen ++ new)
      end
  end.
Definition first_entry : entry := (the_start, rule_rx).
Definition table : list entry := Eval vm_compute in explore (100 * 100)%nat [first_entry] [first_entry].

(** ** What is checked of each pair *)
Fixpoint first_null (rs : list (tkind * rx)) : option tkind :=
  match rs with
  | [] => None
  | (k, r) :: rs' => if null r then Some k else first_null rs'
  end.
Definition same_entry (a b : entry) : bool := if entry_eq_dec a b then true else false.
Definition listed (e : entry) : bool := existsb (same_entry e) table.
Definition steps_well (e : entry) (c : N) : bool :=
  match step the_net (fst e) c with
  | Some q => listed (q, step_rx c (snd e))
  | None => false
  end.
Definition accepts_well (e : entry) : bool :=
  match accepting the_net (fst e), first_null (snd e) with
  | Some (k, skips), Some k' => (if tkind_eq_dec k k' then true else false) && Bool.eqb skips (if tkind_eq_dec k T_WS then true else false)
  | None, None => true
  | _, _ => false
  end.
Definition empty_together (e : entry) : bool :=
  match fst e, snd e with [], [] => true | _ :: _, _ :: _ => true | _, _ => false end.
Definition pairs_well (e : entry) : bool :=
  let r := step_rx top (snd e) in
  same_entry ([], step_rx top r) ([], r) && match first_null r with None => true | Some _ => false end.
Definition well (e : entry) : bool :=
  forallb (steps_well e) bounds && accepts_well e && empty_together e && pairs_well e && forallb (fun p => rx_bounded (snd p)) (snd e).
Lemma table_well : forallb well table = true.
Proof. vm_compute. reflexivity. Qed.
Lemma first_listed : In first_entry table.
Proof. left. vm_compute. reflexivity. Qed.
