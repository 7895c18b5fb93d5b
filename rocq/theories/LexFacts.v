(** The matchers of the tokeniser find the longest match of the grammar's regular expressions. *)
From Verif Require Import Base Lexer SpecLex NumFacts CacheFacts.

(** ** Inversion of [matches] *)
Lemma matches_word w s : matches (Word w) s <-> s = w.
Proof. split; [intros H; inversion H; reflexivity|intros ->; constructor]. Qed.
Lemma matches_any p s : matches (Any p) s <-> exists c, s = [c] /\ p c = true.
Proof. split; [intros H; inversion H; eauto|intros [c [-> H]]; constructor; exact H]. Qed.
Lemma matches_cat a b s : matches (Cat a b) s <-> exists u v, s = u ++ v /\ matches a u /\ matches b v.
Proof. split; [intros H; inversion H; subst; eauto 6|intros [u [v [-> [H1 H2]]]]; constructor; assumption]. Qed.
Lemma matches_or a b s : matches (Or a b) s <-> matches a s \/ matches b s.
Proof. split; [intros H; inversion H; subst; auto|intros [H|H]; [apply m_left|apply m_right]; exact H]. Qed.

(** A rule that matches exactly the one-character texts of a class. *)
Definition single (r : re) (p : jchar -> bool) : Prop := forall w, matches r w <-> exists c, w = [c] /\ p c = true.
Lemma single_any p : single (Any p) p.
Proof. intros w. apply matches_any. Qed.
Lemma single_word c : single (Word [c]) (is_char c).
Proof.
  intros w. rewrite matches_word. unfold is_char. split.
  - intros ->. exists c. split; [reflexivity|apply N.eqb_refl].
  - intros [d [-> H]]. apply N.eqb_eq in H. subst. reflexivity.
Qed.
Lemma single_or a b p q : single a p -> single b q -> single (Or a b) (fun c => p c || q c).
Proof.
  intros A B w. rewrite matches_or, (A w), (B w). split.
  - intros [[c [-> H]]|[c [-> H]]]; exists c; rewrite H, ?orb_true_r; auto.
  - intros [c [-> H]]. apply orb_true_iff in H. destruct H; eauto.
Qed.
Lemma matches_star r p w : single r p -> (matches (Star r) w <-> forallb p w = true).
Proof.
  intros S. split.
  - intros H. remember (Star r) as e. induction H; try discriminate; [reflexivity|].
    injection Heqe as ->. apply S in H. destruct H as [c [-> P]]. cbn [app forallb]. rewrite P. apply IHmatches2; reflexivity.
  - induction w as [|c w IH]; intros H; [constructor|].
    cbn [forallb] in H. apply andb_true_iff in H. destruct H as [P H].
    apply (m_more r [c] w); [apply S; eauto|auto].
Qed.
Lemma matches_plus r p w : single r p -> (matches (Plus r) w <-> w <> [] /\ forallb p w = true).
Proof.
  intros S. unfold Plus. rewrite matches_cat. split.
  - intros [u [v [-> [H1 H2]]]]. apply S in H1. destruct H1 as [c [-> P]]. rewrite (matches_star r p v S) in H2.
    split; [discriminate|]. cbn [app forallb]. rewrite P. exact H2.
  - intros [N H]. destruct w as [|c w]; [contradiction|]. cbn [forallb] in H. apply andb_true_iff in H. destruct H as [P H].
    exists [c], w. split; [reflexivity|]. split; [apply S; eauto|]. apply (matches_star r p w S). exact H.
Qed.

(** ** Longest match *)
Definition maximal (r : re) (f : jstr -> nat) : Prop :=
  forall s, (f s <= length s)%nat /\ (f s = 0%nat \/ matches r (firstn (f s) s)) /\
    forall w rest, s = w ++ rest -> matches r w -> (length w <= f s)%nat.

Lemma firstn_app_exact {A} (a b : list A) : firstn (length a) (a ++ b) = a.
Proof. rewrite firstn_app, Nat.sub_diag, firstn_all. cbn. apply app_nil_r. Qed.
Lemma skipn_app_exact {A} (a b : list A) : skipn (length a) (a ++ b) = b.
Proof. rewrite skipn_app, Nat.sub_diag, skipn_all. reflexivity. Qed.

Lemma is_prefix_iff w s : is_prefix w s = true <-> exists rest, s = w ++ rest.
Proof.
  revert s. induction w as [|a w IH]; intros s; cbn [is_prefix app].
  - split; [eauto|reflexivity].
  - destruct s as [|b s]; [split; [discriminate|intros [r H]; discriminate]|].
    rewrite andb_true_iff, N.eqb_eq, IH. split.
    + intros [-> [r ->]]. eauto.
    + intros [r H]. injection H as -> ->. eauto.
Qed.
Lemma maximal_lit w : maximal (Word w) (m_lit w).
Proof.
  intros s. unfold m_lit. destruct (is_prefix w s) eqn:P.
  - apply is_prefix_iff in P. destruct P as [r ->]. rewrite app_length, firstn_app_exact. split; [lia|].
    split; [right; constructor|]. intros w' rest _ M. apply matches_word in M. subst. lia.
  - split; [lia|]. split; [auto|]. intros w' rest -> M. apply matches_word in M. subst w'.
    rewrite (proj2 (is_prefix_iff w (w ++ rest))) in P by eauto. discriminate.
Qed.
Lemma maximal_or a b f g : maximal a f -> maximal b g -> maximal (Or a b) (fun s => Nat.max (f s) (g s)).
Proof.
  intros A B s. destruct (A s) as [A1 [A2 A3]]. destruct (B s) as [B1 [B2 B3]]. split; [lia|]. split.
  - destruct (Nat.max_spec (f s) (g s)) as [[L ->]|[L ->]].
    + destruct B2 as [B2|B2]; [auto|right; apply m_right; exact B2].
    + destruct A2 as [A2|A2]; [auto|right; apply m_left; exact A2].
  - intros w rest E M. apply matches_or in M. destruct M as [M|M]; [apply (A3 w rest E) in M|apply (B3 w rest E) in M]; lia.
Qed.
Lemma maximal_ext r f g : (forall s, f s = g s) -> maximal r f -> maximal r g.
Proof. intros E M s. rewrite <- E. apply M. Qed.
Lemma maximal_two a b : maximal (two a b) (m_lits [J a; J b]).
Proof.
  eapply maximal_ext; [|apply maximal_or; apply maximal_lit]. intros s. unfold m_lits. cbn [fold_right]. lia.
Qed.
Lemma maximal_three a b c : maximal (Or (one a) (Or (one b) (one c))) (m_lits [J a; J b; J c]).
Proof.
  eapply maximal_ext; [|apply maximal_or; [|apply maximal_or]; apply maximal_lit]. intros s. unfold m_lits. cbn [fold_right]. lia.
Qed.

Lemma span_firstn p s : fst (span p s) = firstn (length (fst (span p s))) s.
Proof. induction s as [|c s IH]; [reflexivity|]. cbn [span]. destruct (p c); [|reflexivity]. destruct (span p s); cbn in *. f_equal. exact IH. Qed.
Lemma span_length p s : (length (fst (span p s)) <= length s)%nat.
Proof. induction s as [|c s IH]; [cbn; lia|]. cbn [span]. destruct (p c); [|cbn; lia]. destruct (span p s); cbn in *. lia. Qed.
Lemma span_holds p s : forallb p (fst (span p s)) = true.
Proof. induction s as [|c s IH]; [reflexivity|]. cbn [span]. destruct (p c) eqn:P; [|reflexivity]. destruct (span p s); cbn in *. rewrite P. exact IH. Qed.
Lemma span_max p w rest : forallb p w = true -> (length w <= length (fst (span p (w ++ rest))))%nat.
Proof.
  induction w as [|c w IH]; intros H; [cbn; lia|]. cbn [forallb] in H. apply andb_true_iff in H. destruct H as [P H].
  cbn [app span]. rewrite P. specialize (IH H). destruct (span p (w ++ rest)); cbn in *. lia.
Qed.
Lemma maximal_span r p : single r p -> maximal (Plus r) (m_span p).
Proof.
  intros S s. unfold m_span. split; [apply span_length|]. split.
  - destruct (fst (span p s)) as [|c l] eqn:E; [auto|]. right. rewrite <- E, <- span_firstn. apply (matches_plus r p _ S).
    split; [rewrite E; discriminate|apply span_holds].
  - intros w rest -> M. apply (matches_plus r p _ S) in M. apply span_max, M.
Qed.

(** Fixed sequences of classes. *)
Lemma matches_cat_classes rs ps w : Forall2 single rs ps ->
  (matches (cat rs) w <-> matches_classes ps w = true /\ length w = length ps).
Proof.
  intros F. revert w. induction F as [|r p rs ps S F IH]; intros w.
  - cbn [cat matches_classes length]. rewrite matches_word. destruct w; cbn; split; intuition (try discriminate; try lia).
  - assert (X : matches (cat (r :: rs)) w <-> exists c v, w = c :: v /\ p c = true /\ matches (cat rs) v).
    { destruct rs as [|r' rs'].
      - cbn [cat]. rewrite (S w). split.
        + intros [c [-> H]]. exists c, []. split; [reflexivity|]. split; [exact H|constructor].
        + intros [c [v [-> [H M]]]]. apply matches_word in M. subst. eauto.
      - change (cat (r :: r' :: rs')) with (Cat r (cat (r' :: rs'))). rewrite matches_cat. split.
        + intros [u [v [-> [H1 H2]]]]. apply S in H1. destruct H1 as [c [-> P]]. exists c, v. auto.
        + intros [c [v [-> [P M]]]]. exists [c], v. split; [reflexivity|]. split; [apply S; eauto|exact M]. }
    rewrite X. clear X. destruct w as [|c v]; cbn [matches_classes length].
    + split; [intros [c [v [E _]]]; discriminate|intros [H _]; discriminate].
    + rewrite andb_true_iff. split.
      * intros [c' [v' [E [P M]]]]. injection E as <- <-. apply IH in M. intuition lia.
      * intros [[P M] L]. exists c, v. split; [reflexivity|]. split; [exact P|]. apply IH. split; [exact M|lia].
Qed.
Lemma matches_classes_firstn ps s : matches_classes ps s = true ->
  matches_classes ps (firstn (length ps) s) = true /\ length (firstn (length ps) s) = length ps.
Proof.
  revert s. induction ps as [|p ps IH]; intros s H; [auto|]. destruct s as [|c s]; [discriminate|].
  cbn [matches_classes length firstn] in *. apply andb_true_iff in H. destruct H as [P H]. rewrite P. destruct (IH s H) as [A B]. rewrite A, B. auto.
Qed.
Lemma matches_classes_app ps w rest : matches_classes ps w = true -> matches_classes ps (w ++ rest) = true.
Proof.
  revert w. induction ps as [|p ps IH]; intros w H; [reflexivity|]. destruct w as [|c w]; [discriminate|].
  cbn [matches_classes app] in *. apply andb_true_iff in H. destruct H as [P H]. rewrite P. apply IH, H.
Qed.
Lemma maximal_classes rs ps : Forall2 single rs ps -> maximal (cat rs) (m_classes ps).
Proof.
  intros F s. unfold m_classes. destruct (matches_classes ps s) eqn:M.
  - destruct (matches_classes_firstn ps s M) as [A B]. split.
    + rewrite <- B. rewrite firstn_length. lia.
    + split; [right; apply (matches_cat_classes rs ps _ F); auto|].
      intros w rest _ W. apply (matches_cat_classes rs ps _ F) in W. lia.
  - split; [lia|]. split; [auto|]. intros w rest -> W. apply (matches_cat_classes rs ps _ F) in W.
    rewrite (matches_classes_app ps w rest) in M by apply W. discriminate.
Qed.

(** Quoted words. *)
Lemma matches_quoted q w : matches (quoted q) w <->
  exists body, w = q :: body ++ [q] /\ forallb (fun c => negb (c =? q)%N) body = true.
Proof.
  unfold quoted. cbn [cat]. rewrite matches_cat. split.
  - intros [u [v [-> [A B]]]]. apply matches_word in A. subst u. apply matches_cat in B. destruct B as [x [y [-> [B C]]]].
    apply matches_word in C. subst y. exists x. split; [reflexivity|]. apply (matches_star _ _ _ (single_any _)) in B. exact B.
  - intros [b [-> H]]. exists [q], (b ++ [q]). split; [reflexivity|]. split; [constructor|]. constructor; [|constructor].
    apply (matches_star _ _ _ (single_any _)). exact H.
Qed.
Lemma quoted_span q body rest : forallb (fun c => negb (c =? q)%N) body = true ->
  span (fun c => negb (c =? q)%N) (body ++ q :: rest) = (body, q :: rest).
Proof.
  induction body as [|c b IH]; intros H; cbn [app span].
  - rewrite N.eqb_refl. reflexivity.
  - cbn [forallb] in H. apply andb_true_iff in H. destruct H as [P H]. rewrite P, (IH H). reflexivity.
Qed.
Lemma span_rest_head p s c r : snd (span p s) = c :: r -> p c = false.
Proof. induction s as [|d s IH]; [discriminate|]. cbn [span]. destruct (p d) eqn:P; [destruct (span p s); cbn in *; exact IH|]. cbn. intros H. injection H as -> _. exact P. Qed.
Lemma span_app p s : s = fst (span p s) ++ snd (span p s).
Proof. induction s as [|d s IH]; [reflexivity|]. cbn [span]. destruct (p d); [|reflexivity]. destruct (span p s); cbn in *. f_equal. exact IH. Qed.
Lemma maximal_quoted q : maximal (quoted q) (m_quoted q).
Proof.
  intros s. destruct s as [|c s].
  - cbn [m_quoted]. split; [lia|]. split; [auto|]. intros w rest E M. apply matches_quoted in M. destruct M as [b [-> _]]. discriminate.
  - cbn [m_quoted]. destruct (N.eqb_spec c q) as [->|NE].
    + pose proof (span_app (fun x => negb (x =? q)%N) s) as SA. pose proof (span_holds (fun x => negb (x =? q)%N) s) as SH.
      pose proof (span_rest_head (fun x => negb (x =? q)%N) s) as SR.
      destruct (span (fun x => negb (x =? q)%N) s) as [body rest] eqn:SP. cbn [fst snd] in *. destruct rest as [|d rest].
      * split; [lia|]. split; [auto|]. intros w r E M. apply matches_quoted in M. destruct M as [b [-> H]].
        cbn [app] in E. injection E as E. rewrite <- app_assoc in E. cbn [app] in E. assert (Q : span (fun x : jchar => negb (x =? q)%N) s = (b, q :: r)) by (rewrite E; apply quoted_span; exact H). rewrite Q in SP. discriminate.
      * specialize (SR d rest eq_refl). apply negb_false_iff, N.eqb_eq in SR. subst d.
        assert (L : (length body + 2 = S (length (body ++ [q])))%nat) by (rewrite app_length; cbn; lia). rewrite L.
        rewrite SA. split; [cbn [length]; rewrite !app_length; cbn; lia|]. split.
        -- right. cbn [firstn]. replace (body ++ q :: rest) with ((body ++ [q]) ++ rest) by (rewrite <- app_assoc; reflexivity).
           rewrite firstn_app_exact. apply matches_quoted. eauto.
        -- intros w r E M. apply matches_quoted in M. destruct M as [b [-> H]].
           cbn [app] in E. injection E as E. rewrite <- app_assoc in E. cbn [app] in E. assert (Q : span (fun x : jchar => negb (x =? q)%N) s = (b, q :: r)) by (rewrite SA, E; apply quoted_span; exact H). rewrite Q in SP.
           injection SP as -> ->. cbn [length]. lia.
    + split; [lia|]. split; [auto|]. intros w r E M. apply matches_quoted in M. destruct M as [b [-> _]]. injection E as -> _. contradiction.
Qed.

(** Decimals. *)
Lemma single_digit : single digit is_digit.
Proof. apply single_any. Qed.
Lemma matches_decimal w : matches (cat [Plus digit; one "."; Plus digit]) w <->
  exists a b, w = a ++ ch "." :: b /\ a <> [] /\ b <> [] /\ forallb is_digit a = true /\ forallb is_digit b = true.
Proof.
  cbn [cat]. rewrite matches_cat. split.
  - intros [u [v [-> [A B]]]]. apply matches_cat in B. destruct B as [x [y [-> [B C]]]]. apply matches_word in B. subst x.
    apply (matches_plus _ _ _ single_digit) in A, C. exists u, y. intuition.
  - intros [a [b [-> [A [B [C D]]]]]]. exists a, (ch "." :: b). split; [reflexivity|].
    split; [apply (matches_plus _ _ _ single_digit); auto|]. apply matches_cat. exists (J "."), b. split; [reflexivity|].
    split; [constructor|apply (matches_plus _ _ _ single_digit); auto].
Qed.
Lemma span_exact p a c r : forallb p a = true -> p c = false -> span p (a ++ c :: r) = (a, c :: r).
Proof.
  intros H P. induction a as [|x a IH]; cbn [app span]; [rewrite P; reflexivity|].
  cbn [forallb] in H. apply andb_true_iff in H. destruct H as [Q H]. rewrite Q, (IH H). reflexivity.
Qed.
Lemma maximal_decimal : maximal (cat [Plus digit; one "."; Plus digit]) m_decimal.
Proof.
  intros s. unfold m_decimal.
  pose proof (span_app is_digit s) as SA. pose proof (span_holds is_digit s) as SH.
  assert (NO : forall a r, span is_digit s = (a, r) ->
    (match a, r with _ :: _, c :: r' => if (c =? ch ".")%N then match fst (span is_digit r') with [] => 0%nat | b => length a + 1 + length b end else 0%nat | _, _ => 0%nat end
     = 0%nat -> forall w rest, s = w ++ rest -> ~ matches (cat [Plus digit; one "."; Plus digit]) w)).
  { intros a r SP Z w rest E M. apply matches_decimal in M. destruct M as [x [y [-> [X [Y [DX DY]]]]]].
    rewrite <- app_assoc in E. cbn [app] in E. rewrite E, (span_exact is_digit x (ch ".") (y ++ rest) DX eq_refl) in SP.
    injection SP as <- <-. destruct x; [contradiction|]. rewrite N.eqb_refl in Z.
    pose proof (span_max is_digit y rest DY) as L. destruct (fst (span is_digit (y ++ rest))); destruct y; try contradiction; cbn [length] in *; lia. }
  destruct (span is_digit s) as [a r] eqn:SP. cbn [fst snd] in *. specialize (NO a r eq_refl).
  destruct a as [|a0 a]; [|destruct r as [|c r]; [|destruct (N.eqb_spec c (ch ".")) as [->|NE]]].
  1,2,4: split; [lia|]; split; [auto|]; intros w rest E M; exfalso; exact (NO eq_refl w rest E M).
  destruct (fst (span is_digit r)) as [|b0 b] eqn:SB.
  { split; [lia|]. split; [auto|]. intros w rest E M. exfalso. exact (NO eq_refl w rest E M). }
  clear NO. pose proof (span_app is_digit r) as RA. pose proof (span_holds is_digit r) as RH. rewrite SB in RA, RH.
  set (r' := snd (span is_digit r)) in *.
  assert (E1 : s = ((a0 :: a) ++ ch "." :: b0 :: b) ++ r') by (rewrite SA, RA, <- !app_assoc; reflexivity).
  assert (L1 : (length (a0 :: a) + 1 + length (b0 :: b) = length ((a0 :: a) ++ ch "." :: b0 :: b))%nat).
  { rewrite app_length. cbn [length]. lia. }
  rewrite L1. split; [rewrite E1, (app_length _ r'); lia|]. split.
  - right. rewrite E1, firstn_app_exact. apply matches_decimal. exists (a0 :: a), (b0 :: b).
    split; [reflexivity|]. split; [discriminate|]. split; [discriminate|]. auto.
  - intros w rest E M. apply matches_decimal in M. destruct M as [x [y [-> [X [Y [DX DY]]]]]].
    rewrite <- app_assoc in E. cbn [app] in E. rewrite E, (span_exact is_digit x (ch ".") (y ++ rest) DX eq_refl) in SP.
    injection SP as HX HR. rewrite <- HX. rewrite <- HR in SB. pose proof (span_max is_digit y rest DY) as L. rewrite SB in L.
    rewrite !app_length. cbn [length] in *. lia.
Qed.

(** Versions. *)
Definition ver_part : re := Cat (one ".") (Plus digit).
Fixpoint ver_ok (st : vstate) (w : jstr) : bool :=
  match w with
  | [] => match st with InDigits => true | _ => false end
  | c :: w' =>
      match st with
      | WantDot => (c =? ch ".")%N && ver_ok WantDigit w'
      | WantDigit => is_digit c && ver_ok InDigits w'
      | InDigits => if is_digit c then ver_ok InDigits w' else (c =? ch ".")%N && ver_ok WantDigit w'
      end
  end.
Lemma matches_ver_part w : matches ver_part w <-> exists d ds, w = ch "." :: d :: ds /\ is_digit d = true /\ forallb is_digit ds = true.
Proof.
  unfold ver_part. rewrite matches_cat. split.
  - intros [u [v [-> [A B]]]]. apply matches_word in A. subst u. apply (matches_plus _ _ _ single_digit) in B. destruct B as [N B].
    destruct v as [|d ds]; [contradiction|]. cbn [forallb] in B. apply andb_true_iff in B. exists d, ds. intuition.
  - intros [d [ds [-> [D DS]]]]. exists (J "."), (d :: ds). split; [reflexivity|]. split; [constructor|].
    apply (matches_plus _ _ _ single_digit). split; [discriminate|]. cbn [forallb]. rewrite D, DS. reflexivity.
Qed.
Lemma ver_ok_digits ds w : forallb is_digit ds = true -> ver_ok InDigits (ds ++ w) = ver_ok InDigits w.
Proof.
  induction ds as [|d ds IH]; intros H; [reflexivity|]. cbn [forallb] in H. apply andb_true_iff in H. destruct H as [D H].
  cbn [app ver_ok]. rewrite D. apply IH, H.
Qed.
Lemma dot_not_digit : is_digit (ch ".") = false.
Proof. reflexivity. Qed.
Lemma ver_ok_star w : matches (Star ver_part) w -> ver_ok InDigits w = true.
Proof.
  intros H. remember (Star ver_part) as e. induction H; try discriminate; [reflexivity|]. injection Heqe as ->.
  apply matches_ver_part in H. destruct H as [d [ds [-> [D DS]]]]. cbn [app ver_ok]. rewrite dot_not_digit, N.eqb_refl, D. cbn [andb].
  rewrite (ver_ok_digits ds t DS). apply IHmatches2. reflexivity.
Qed.
Lemma ver_ok_sound w :
  (ver_ok WantDot w = true -> matches (Plus ver_part) w) /\
  (ver_ok WantDigit w = true -> exists d ds u, w = d :: ds ++ u /\ is_digit d = true /\ forallb is_digit ds = true /\ matches (Star ver_part) u) /\
  (ver_ok InDigits w = true -> exists ds u, w = ds ++ u /\ forallb is_digit ds = true /\ matches (Star ver_part) u).
Proof.
  induction w as [|c w [IH1 [IH2 IH3]]]; cbn [ver_ok].
  - split; [discriminate|]. split; [discriminate|]. intros _. exists [], []. split; [reflexivity|]. split; [reflexivity|constructor].
  - assert (DOT : (c =? ch ".")%N && ver_ok WantDigit w = true -> matches (Plus ver_part) (c :: w)).
    { intros H. apply andb_true_iff in H. destruct H as [C H]. apply N.eqb_eq in C. subst c.
      destruct (IH2 H) as [d [ds [u [-> [D [DS M]]]]]]. apply (m_cat ver_part (Star ver_part) (ch "." :: d :: ds) u); [|exact M].
      apply matches_ver_part. eauto. }
    split; [exact DOT|]. split.
    + intros H. apply andb_true_iff in H. destruct H as [D H]. destruct (IH3 H) as [ds [u [-> [DS M]]]]. exists c, ds, u. auto.
    + destruct (is_digit c) eqn:D.
      * intros H. destruct (IH3 H) as [ds [u [-> [DS M]]]]. exists (c :: ds), u. cbn [forallb app]. rewrite D. auto.
      * intros H. apply DOT in H. exists [], (c :: w). split; [reflexivity|]. split; [reflexivity|].
        apply matches_cat in H. destruct H as [x [y [-> [A B]]]]. constructor; assumption.
Qed.
Lemma matches_version w : matches (Cat digit (Plus ver_part)) w <-> exists c v, w = c :: v /\ is_digit c = true /\ ver_ok WantDot v = true.
Proof.
  rewrite matches_cat. split.
  - intros [u [v [-> [A B]]]]. apply single_digit in A. destruct A as [c [-> D]]. exists c, v. split; [reflexivity|]. split; [exact D|].
    apply matches_cat in B. destruct B as [x [y [-> [P S]]]]. apply matches_ver_part in P. destruct P as [d [ds [-> [DD DS]]]].
    cbn [app ver_ok]. rewrite N.eqb_refl, DD. cbn [andb]. rewrite (ver_ok_digits ds y DS). apply ver_ok_star, S.
  - intros [c [v [-> [D H]]]]. exists [c], v. split; [reflexivity|]. split; [apply single_digit; eauto|apply ver_ok_sound, H].
Qed.
Lemma m_ver_spec s : forall st pos acc,
  (m_ver s st pos acc = acc /\ forall w rest, s = w ++ rest -> w <> [] -> ver_ok st w = false) \/
  (exists k, (0 < k <= length s)%nat /\ m_ver s st pos acc = (pos + k)%nat /\ ver_ok st (firstn k s) = true /\
     forall w rest, s = w ++ rest -> ver_ok st w = true -> (length w <= k)%nat).
Proof.
  induction s as [|c s IH]; intros st pos acc.
  - left. split; [reflexivity|]. intros w rest E N. destruct w; [contradiction|discriminate].
  - (* one step into [st'], with or without reaching an accepting position *)
    assert (STEP : forall st' acc', (forall w, ver_ok st (c :: w) = ver_ok st' w) ->
      (acc' = acc /\ st' = WantDigit \/ acc' = S pos /\ st' = InDigits) -> m_ver (c :: s) st pos acc = m_ver s st' (S pos) acc' ->
      (m_ver (c :: s) st pos acc = acc /\ forall w rest, c :: s = w ++ rest -> w <> [] -> ver_ok st w = false) \/
      (exists k, (0 < k <= length (c :: s))%nat /\ m_ver (c :: s) st pos acc = (pos + k)%nat /\ ver_ok st (firstn k (c :: s)) = true /\
         forall w rest, c :: s = w ++ rest -> ver_ok st w = true -> (length w <= k)%nat)).
    { intros st' acc' EQ CASES ->. destruct (IH st' (S pos) acc') as [[E NO]|[k [K [E [OK MAX]]]]].
      - destruct CASES as [[-> ->]|[-> ->]].
        + left. split; [exact E|]. intros w rest EW N. destruct w as [|x w]; [contradiction|]. injection EW as <- EW.
          rewrite EQ. destruct w as [|y w]; [reflexivity|]. apply (NO (y :: w) rest EW). discriminate.
        + right. exists 1%nat. rewrite E. cbn [length]. split; [lia|]. split; [lia|]. cbn [firstn]. rewrite EQ. split; [reflexivity|].
          intros w rest EW OKW. destruct w as [|x w]; [cbn; lia|]. injection EW as <- EW. rewrite EQ in OKW.
          destruct w as [|y w]; [cbn; lia|]. rewrite (NO (y :: w) rest EW) in OKW; [discriminate|discriminate].
      - right. exists (S k). cbn [length firstn]. rewrite EQ. split; [lia|]. split; [lia|]. split; [exact OK|].
        intros w rest EW OKW. destruct w as [|x w]; [cbn; lia|]. injection EW as <- EW. rewrite EQ in OKW.
        specialize (MAX w rest EW OKW). cbn [length]. lia. }
    assert (STOP : (forall w, ver_ok st (c :: w) = false) -> m_ver (c :: s) st pos acc = acc ->
      m_ver (c :: s) st pos acc = acc /\ forall w rest, c :: s = w ++ rest -> w <> [] -> ver_ok st w = false).
    { intros EQ E. split; [exact E|]. intros w rest EW N. destruct w as [|x w]; [contradiction|]. injection EW as <- _. apply EQ. }
    destruct st.
    + destruct (c =? ch ".")%N eqn:C.
      * apply (STEP WantDigit acc); [intros w; cbn [ver_ok]; rewrite C; reflexivity|auto|cbn [m_ver]; rewrite C; reflexivity].
      * left. apply STOP; [intros w; cbn [ver_ok]; rewrite C; reflexivity|cbn [m_ver]; rewrite C; reflexivity].
    + destruct (is_digit c) eqn:D.
      * apply (STEP InDigits (S pos)); [intros w; cbn [ver_ok]; rewrite D; reflexivity|auto|cbn [m_ver]; rewrite D; reflexivity].
      * left. apply STOP; [intros w; cbn [ver_ok]; rewrite D; reflexivity|cbn [m_ver]; rewrite D; reflexivity].
    + destruct (is_digit c) eqn:D.
      * apply (STEP InDigits (S pos)); [intros w; cbn [ver_ok]; rewrite D; reflexivity|auto|cbn [m_ver]; rewrite D; reflexivity].
      * destruct (c =? ch ".")%N eqn:C.
        -- apply (STEP WantDigit acc); [intros w; cbn [ver_ok]; rewrite D, C; reflexivity|auto|cbn [m_ver]; rewrite D, C; reflexivity].
        -- left. apply STOP; [intros w; cbn [ver_ok]; rewrite D, C; reflexivity|cbn [m_ver]; rewrite D, C; reflexivity].
Qed.
Lemma maximal_version : maximal (Cat digit (Plus (Cat (one ".") (Plus digit)))) m_app_version.
Proof.
  change (Cat (one ".") (Plus digit)) with ver_part. intros s. destruct s as [|c s].
  - cbn [m_app_version]. split; [lia|]. split; [auto|]. intros w rest E M. apply matches_version in M. destruct M as [c [v [-> _]]]. discriminate.
  - cbn [m_app_version]. destruct (is_digit c) eqn:D.
    + destruct (m_ver_spec s WantDot 1%nat 0%nat) as [[E NO]|[k [K [E [OK MAX]]]]]; rewrite E.
      * split; [lia|]. split; [auto|]. intros w rest EW M. apply matches_version in M. destruct M as [x [v [-> [_ V]]]].
        injection EW as <- EW. destruct v as [|y v]; [discriminate|]. rewrite (NO (y :: v) rest EW) in V; discriminate.
      * split; [cbn [length]; lia|]. split.
        -- right. cbn [plus firstn]. apply matches_version. eauto.
        -- intros w rest EW M. apply matches_version in M. destruct M as [x [v [-> [_ V]]]]. injection EW as <- EW.
           specialize (MAX v rest EW V). cbn [length]. lia.
    + split; [lia|]. split; [auto|]. intros w rest EW M. apply matches_version in M. destruct M as [x [v [-> [X _]]]].
      injection EW as -> _. congruence.
Qed.

(** ** The whole table *)
Lemma single_field : single (Or (Any letter_or_digit) (Or (one "_") (one "."))) is_field_char.
Proof.
  intros w. rewrite (single_or _ _ _ _ (single_any letter_or_digit) (single_or _ _ _ _ (single_word (ch "_")) (single_word (ch "."))) w).
  unfold is_field_char, is_char, letter_or_digit, is_alnum. split; intros [c [-> H]]; exists c; (split; [reflexivity|]).
  - rewrite orb_assoc in H. exact H.
  - rewrite orb_assoc. exact H.
Qed.
Lemma blank_is_ws c : blank c = is_ws c.
Proof. unfold blank, is_ws. cbn [existsb]. rewrite orb_false_r, !orb_assoc. reflexivity. Qed.
Lemma maximal_blank : maximal (Plus (Any blank)) (m_span is_ws).
Proof.
  apply maximal_span. intros w. rewrite matches_any. split; intros [c [-> H]]; exists c; rewrite blank_is_ws in *; auto.
Qed.
Definition agrees (a : tkind * re) (b : tkind * (jstr -> nat)) : Prop := fst a = fst b /\ maximal (snd a) (snd b).
Lemma table_agrees : Forall2 agrees lexicon rules.
Proof.
  unfold lexicon, rules.
  repeat (apply Forall2_cons; [split; [reflexivity|cbn [snd]]|]); [.. | apply Forall2_nil];
    try apply maximal_two; try apply maximal_three; try apply maximal_lit; try apply maximal_quoted.
  - apply maximal_decimal.
  - apply maximal_version.
  - apply (maximal_span _ _ single_digit).
  - apply maximal_classes. repeat (apply Forall2_cons; [first [apply single_digit|apply single_word]|]). apply Forall2_nil.
  - apply maximal_classes. repeat (apply Forall2_cons; [first [apply single_digit|apply single_word]|]). apply Forall2_nil.
  - apply maximal_blank.
  - apply maximal_or; apply maximal_quoted.
  - apply (maximal_span _ _ single_field).
  - change (Any letter_or_digit) with (cat [Any letter_or_digit]). apply maximal_classes. apply Forall2_cons; [|apply Forall2_nil].
    apply single_any.
Qed.

(** ** Longest match, earliest rule *)
Lemma fold_better s l : forall k0 n0, exists k n, fold_left (better s) l (k0, n0) = (k, n) /\ (n0 <= n)%nat /\
  (forall r, In r l -> (snd r s <= n)%nat) /\
  ((k = k0 /\ n = n0) \/ (n0 < n)%nat /\ exists before f after, l = before ++ (k, f) :: after /\ n = f s /\ forall r, In r before -> (snd r s < n)%nat).
Proof.
  induction l as [|[k1 f1] l IH]; intros k0 n0; cbn [fold_left].
  - exists k0, n0. split; [reflexivity|]. split; [lia|]. split; [intros r []|auto].
  - unfold better at 2. cbn [fst snd]. destruct (Nat.ltb_spec n0 (f1 s)) as [L|L].
    + destruct (IH k1 (f1 s)) as [k [n [E [LE [MAX C]]]]]. exists k, n. split; [exact E|]. split; [lia|].
      split; [intros r [<-|I]; [exact LE|exact (MAX r I)]|]. right. split; [lia|].
      destruct C as [[-> ->]|[LT [before [f [after [-> [EF B]]]]]]].
      * exists [], f1, l. split; [reflexivity|]. split; [reflexivity|]. intros r [].
      * exists ((k1, f1) :: before), f, after. split; [reflexivity|]. split; [exact EF|]. intros r [<-|I]; [exact LT|exact (B r I)].
    + destruct (IH k0 n0) as [k [n [E [LE [MAX C]]]]]. exists k, n. split; [exact E|]. split; [lia|].
      split; [intros r [<-|I]; [cbn; lia|exact (MAX r I)]|].
      destruct C as [[-> ->]|[LT [before [f [after [-> [EF B]]]]]]]; [auto|]. right. split; [exact LT|].
      exists ((k1, f1) :: before), f, after. split; [reflexivity|]. split; [exact EF|]. intros r [<-|I]; [cbn; lia|exact (B r I)].
Qed.
Lemma Forall2_in_l {A B} (R : A -> B -> Prop) l m a : Forall2 R l m -> In a l -> exists b, In b m /\ R a b.
Proof. intros F I. induction F; [destruct I|]. destruct I as [<-|I]; [eexists; split; [left; reflexivity|assumption]|]. destruct (IHF I) as [b' [I' R']]. exists b'. split; [right|]; assumption. Qed.
Lemma Forall2_split_r {A B} (R : A -> B -> Prop) l m1 b m2 : Forall2 R l (m1 ++ b :: m2) ->
  exists l1 a l2, l = l1 ++ a :: l2 /\ R a b /\ Forall2 R l1 m1.
Proof.
  intros F. apply Forall2_app_inv_r in F. destruct F as [l1 [l2 [F1 [F2 ->]]]]. inversion F2; subst. eauto 8.
Qed.

Lemma best_fold s k n : best_match s = (k, n) -> (forall r, In r rules -> (snd r s <= n)%nat) /\
  (n = 0%nat \/ exists before f after, rules = before ++ (k, f) :: after /\ n = f s /\ forall r, In r before -> (snd r s < n)%nat).
Proof.
  unfold best_match. generalize rules. intros l E. destruct (fold_better s l T_EOF 0%nat) as [k' [n' [E' [_ [MAX C]]]]]. rewrite E in E'. injection E' as <- <-.
  split; [exact MAX|]. destruct C as [[_ ->]|[_ C]]; auto.
Qed.
Lemma best_picks s k n : best_match s = (k, n) -> n <> 0%nat -> picks s k (firstn n s) /\ length (firstn n s) = n.
Proof.
  intros E NZ. destruct (best_fold s k n E) as [MAX [->|[before [f [after [ER [EF B]]]]]]]; [contradiction|].
  pose proof table_agrees as T. rewrite ER in T. apply Forall2_split_r in T. destruct T as [l1 [[k1 r1] [l2 [EL [[K M] F1]]]]]. cbn [fst snd] in K, M. subst k1.
  destruct (M s) as [LE [MM _]]. rewrite <- EF in LE, MM. destruct MM as [MM|MM]; [contradiction|].
  assert (L : length (firstn n s) = n) by (rewrite firstn_length; lia). split; [|exact L].
  split; [intros X; rewrite X in L; cbn in L; lia|]. split; [exists (skipn n s); symmetry; apply firstn_skipn|]. split.
  - exists l1, r1, l2. split; [exact EL|]. split; [exact MM|]. intros k' r' I MR.
    destruct (Forall2_in_l _ _ _ _ F1 I) as [[k2 f2] [I2 [K2 M2]]]. cbn [fst snd] in *. specialize (B _ I2). cbn [snd] in B.
    destruct (M2 s) as [_ [_ UP]]. specialize (UP (firstn n s) (skipn n s)). rewrite firstn_skipn, L in UP. specialize (UP eq_refl MR). lia.
  - intros k' r' w' rest I EW MR. destruct (Forall2_in_l _ _ _ _ table_agrees I) as [[k2 f2] [I2 [K2 M2]]]. cbn [fst snd] in *.
    destruct (M2 s) as [_ [_ UP]]. specialize (UP w' rest EW MR). specialize (MAX _ I2). cbn [snd] in MAX. lia.
Qed.

Lemma two_splits {A} (l1 l2 r1 r2 : list A) x y : l1 ++ x :: r1 = l2 ++ y :: r2 -> l1 = l2 /\ x = y \/ In x l2 \/ In y l1.
Proof.
  revert l2. induction l1 as [|a l1 IH]; intros l2 E; destruct l2 as [|b l2]; cbn [app] in E; injection E.
  - intros _ ->. auto.
  - intros _ ->. right. left. left. reflexivity.
  - intros _ ->. right. right. left. reflexivity.
  - intros E' ->. destruct (IH l2 E') as [[-> ->]|[I|I]]; [auto|right; left; right; exact I|right; right; right; exact I].
Qed.
Lemma picks_unique s k w k' w' : picks s k w -> picks s k' w' -> k = k' /\ w = w'.
Proof.
  intros [N [[rest E] [[b [r [a [L [M B]]]]] MAX]]] [N' [[rest' E'] [[b' [r' [a' [L' [M' B']]]]] MAX']]].
  assert (IN : In (k, r) lexicon) by (rewrite L; apply in_elt). assert (IN' : In (k', r') lexicon) by (rewrite L'; apply in_elt).
  assert (LE : length w = length w').
  { apply Nat.le_antisymm; [apply (MAX' _ _ _ _ IN E M)|apply (MAX _ _ _ _ IN' E' M')]. }
  assert (W : w = w'). { rewrite E in E'. apply (f_equal (firstn (length w))) in E'. rewrite firstn_app_exact in E'. rewrite LE, firstn_app_exact in E'. exact E'. }
  subst w'. split; [|reflexivity]. rewrite L in L'. destruct (two_splits _ _ _ _ _ _ L') as [[_ X]|[I|I]].
  - injection X as -> _. reflexivity.
  - destruct (B' _ _ I M).
  - destruct (B _ _ I M').
Qed.
Lemma picks_best s k w : picks s k w -> best_match s = (k, length w).
Proof.
  intros P. destruct (best_match s) as [k' n'] eqn:E. destruct (Nat.eq_dec n' 0) as [->|NZ].
  - exfalso. destruct P as [N [[rest EW] [[b [r [a [L [M _]]]]] _]]]. 
    destruct (best_fold s k' 0%nat E) as [MAX _].
    assert (IN : In (k, r) lexicon) by (rewrite L; apply in_elt).
    destruct (Forall2_in_l _ _ _ _ table_agrees IN) as [[k2 f2] [I2 [K2 M2]]]. specialize (MAX _ I2). cbn [snd] in *.
    destruct (M2 s) as [_ [_ UP]]. specialize (UP w rest EW M). destruct w; [contradiction|]. cbn [length] in UP. lia.
  - destruct (best_picks s k' n' E NZ) as [P' L]. destruct (picks_unique _ _ _ _ _ P P') as [-> W]. rewrite W, L. reflexivity.
Qed.
Lemma best_none s k : best_match s = (k, 0%nat) -> forall k' w, ~ picks s k' w.
Proof. intros E k' w P. pose proof P as [N _]. apply picks_best in P. rewrite E in P. injection P as _ P. destruct w; [contradiction|discriminate]. Qed.
