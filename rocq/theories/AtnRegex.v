(** Regular expressions over intervals of characters, their derivatives, and the rules of the lexer written with them. *)
From Verif Require Import Base Lexer SpecLex LexFacts LexSplit LexerAtn.
Local Open Scope N_scope.

Inductive rx := None_ | Emp | Set_ (neg : bool) (l : list (N * N)) | Then (a b : rx) | Either (a b : rx) | Many (a : rx).

Definition fits (neg : bool) (l : list (N * N)) (c : N) : bool := if neg then negb (inside l c) else inside l c.
Fixpoint to_re (r : rx) : re :=
  match r with
  | None_ => Any (fun _ => false)
  | Emp => Word []
  | Set_ neg l => Any (fits neg l)
  | Then a b => Cat (to_re a) (to_re b)
  | Either a b => Or (to_re a) (to_re b)
  | Many a => Star (to_re a)
  end.
Definition recog (r : rx) (w : jstr) : Prop := matches (to_re r) w.

Fixpoint null (r : rx) : bool :=
  match r with
  | None_ | Set_ _ _ => false
  | Emp | Many _ => true
  | Then a b => null a && null b
  | Either a b => null a || null b
  end.
Definition mk_then (a b : rx) : rx :=
  match a, b with None_, _ => None_ | _, None_ => None_ | Emp, _ => b | _, _ => Then a b end.
Definition mk_either (a b : rx) : rx := match a, b with None_, _ => b | _, None_ => a | _, _ => Either a b end.
Fixpoint deriv (c : N) (r : rx) : rx :=
  match r with
  | None_ | Emp => None_
  | Set_ neg l => if fits neg l c then Emp else None_
  | Then a b => if null a then mk_either (mk_then (deriv c a) b) (deriv c b) else mk_then (deriv c a) b
  | Either a b => mk_either (deriv c a) (deriv c b)
  | Many a => mk_then (deriv c a) (Many a)
  end.
(** Some word is recognised. *)
Fixpoint alive (r : rx) : bool :=
  match r with
  | None_ => false
  | Emp | Many _ => true
  | Set_ neg l => neg || existsb (fun i => fst i <=? snd i) l
  | Then a b => alive a && alive b
  | Either a b => alive a || alive b
  end.

(** ** Inversion of the matching relation *)
Lemma any_inv p w : matches (Any p) w <-> exists c, w = [c] /\ p c = true.
Proof. split; [intros H; inversion H; subst; eauto|intros [c [-> H]]; constructor; exact H]. Qed.
Lemma word_inv v w : matches (Word v) w <-> w = v.
Proof. split; [intros H; inversion H; reflexivity|intros ->; constructor]. Qed.
Lemma cat_inv a b w : matches (Cat a b) w <-> exists u v, w = u ++ v /\ matches a u /\ matches b v.
Proof. split; [intros H; inversion H; subst; eauto|intros [u [v [-> [A B]]]]; constructor; assumption]. Qed.
Lemma or_inv a b w : matches (Or a b) w <-> matches a w \/ matches b w.
Proof. split; [intros H; inversion H; subst; auto|intros [H|H]; [apply m_left|apply m_right]; exact H]. Qed.
Lemma star_inv a w : matches (Star a) w <-> w = [] \/ exists c u v, w = c :: u ++ v /\ matches a (c :: u) /\ matches (Star a) v.
Proof.
  split.
  - intros H. remember (Star a) as r eqn:R. induction H; try discriminate; injection R as ->; [left; reflexivity|].
    destruct s as [|c s]; [exact (IHmatches2 eq_refl)|]. right. exists c, s, t. auto.
  - intros [->|[c [u [v [-> [A B]]]]]]; [constructor|]. apply (m_more a (c :: u) v A B).
Qed.

Lemma none_rejects w : ~ recog None_ w.
Proof. unfold recog. cbn [to_re]. rewrite any_inv. intros [c [_ H]]. discriminate. Qed.
Lemma mk_then_recog a b w : recog (mk_then a b) w <-> recog (Then a b) w.
Proof.
  assert (L : recog (Then None_ b) w <-> recog None_ w).
  { unfold recog at 1. cbn [to_re]. rewrite cat_inv. split; [intros [u [v [_ [H _]]]]; destruct (none_rejects _ H)|intros H; destruct (none_rejects _ H)]. }
  assert (R : recog (Then a None_) w <-> recog None_ w).
  { unfold recog at 1. cbn [to_re]. rewrite cat_inv. split; [intros [u [v [_ [_ H]]]]; destruct (none_rejects _ H)|intros H; destruct (none_rejects _ H)]. }
  assert (M : recog (Then Emp b) w <-> recog b w).
  { unfold recog. cbn [to_re]. rewrite cat_inv. split; [intros [u [v [-> [H B]]]]; apply word_inv in H; subst; exact B|intros H; exists [], w; split; [reflexivity|split; [constructor|exact H]]]. }
  destruct a, b; cbn [mk_then]; rewrite ?L, ?R, ?M; try reflexivity.
Qed.
Lemma mk_either_recog a b w : recog (mk_either a b) w <-> recog (Either a b) w.
Proof.
  assert (L : recog (Either None_ b) w <-> recog b w).
  { unfold recog. cbn [to_re]. rewrite or_inv. split; [intros [H|H]; [destruct (none_rejects _ H)|exact H]|auto]. }
  assert (R : recog (Either a None_) w <-> recog a w).
  { unfold recog. cbn [to_re]. rewrite or_inv. split; [intros [H|H]; [exact H|destruct (none_rejects _ H)]|auto]. }
  destruct a, b; cbn [mk_either]; rewrite ?L, ?R; reflexivity.
Qed.
Lemma null_recog r : null r = true <-> recog r [].
Proof.
  unfold recog. induction r as [| |neg l|a IHa b IHb|a IHa b IHb|a _]; cbn [null to_re].
  - rewrite any_inv. split; [discriminate|intros [c [H _]]; discriminate].
  - split; [constructor|reflexivity].
  - rewrite any_inv. split; [discriminate|intros [c [H _]]; discriminate].
  - rewrite andb_true_iff, IHa, IHb, cat_inv. split; [intros [A B]; exists [], []; auto|intros [u [v [E [A B]]]]; symmetry in E; apply app_eq_nil in E; destruct E as [-> ->]; auto].
  - rewrite orb_true_iff, IHa, IHb, or_inv. reflexivity.
  - split; [constructor|reflexivity].
Qed.
Lemma deriv_recog c r : forall w, recog (deriv c r) w <-> recog r (c :: w).
Proof.
  induction r as [| |neg l|a IHa b IHb|a IHa b IHb|a IHa]; intros w; cbn [deriv].
  - split; intros H; destruct (none_rejects _ H).
  - split; [intros H; destruct (none_rejects _ H)|unfold recog; cbn [to_re]; rewrite word_inv; discriminate].
  - unfold recog at 2. cbn [to_re]. rewrite any_inv. destruct (fits neg l c) eqn:F.
    + unfold recog. cbn [to_re]. rewrite word_inv. split; [intros ->; exists c; auto|intros [x [E _]]; injection E; auto].
    + split; [intros H; destruct (none_rejects _ H)|intros [x [E H]]; injection E as <- _; congruence].
  - assert (T : recog (mk_then (deriv c a) b) w <-> exists u v, w = u ++ v /\ recog a (c :: u) /\ recog b v).
    { rewrite mk_then_recog. unfold recog at 1. cbn [to_re]. rewrite cat_inv. split; intros [u [v [E [A B]]]]; exists u, v; (split; [exact E|split; [apply IHa, A|exact B]]). }
    assert (G : recog (Then a b) (c :: w) <-> (exists u v, w = u ++ v /\ recog a (c :: u) /\ recog b v) \/ (null a = true /\ recog b (c :: w))).
    { unfold recog at 1. cbn [to_re]. rewrite cat_inv, null_recog. split.
      - intros [[|x u] [v [E [A B]]]]; cbn [app] in E; [subst v; right; auto|]. injection E as <- ->. left. exists u, v. auto.
      - intros [[u [v [-> [A B]]]]|[A B]]; [exists (c :: u), v; auto|exists [], (c :: w); auto]. }
    rewrite G. destruct (null a) eqn:NA.
    + rewrite mk_either_recog. unfold recog at 1. cbn [to_re]. rewrite or_inv. fold (recog (mk_then (deriv c a) b) w) (recog (deriv c b) w). rewrite T, IHb. intuition.
    + rewrite T. intuition discriminate.
  - rewrite mk_either_recog. unfold recog. cbn [to_re]. rewrite !or_inv. fold (recog (deriv c a) w) (recog (deriv c b) w). rewrite IHa, IHb. reflexivity.
  - rewrite mk_then_recog. unfold recog. cbn [to_re]. rewrite cat_inv, star_inv. split.
    + intros [u [v [-> [A B]]]]. right. exists c, u, v. split; [reflexivity|]. split; [apply IHa, A|exact B].
    + intros [E|[x [u [v [E [A B]]]]]]; [discriminate|]. injection E as <- ->. exists u, v. split; [reflexivity|]. split; [apply IHa, A|exact B].
Qed.
(** A character outside a finite list of intervals *)
Lemma outside l : exists c, inside l c = false.
Proof.
  assert (B : forall l, exists m, forall c, m <= c -> inside l c = false).
  { clear l. induction l as [|[x y] l [m H]]; [exists 0; reflexivity|]. exists (N.max m (y + 1)). intros c L. cbn [inside existsb fst snd].
    change (existsb (fun i => (fst i <=? c) && (c <=? snd i)) l) with (inside l c). rewrite (H c) by lia. destruct (N.leb_spec c y); [lia|]. rewrite andb_false_r. reflexivity. }
  destruct (B l) as [m H]. exists m. apply H. lia.
Qed.
Lemma alive_recog r : alive r = true <-> exists w, recog r w.
Proof.
  induction r as [| |neg l|a IHa b IHb|a IHa b IHb|a _]; cbn [alive].
  - split; [discriminate|intros [w H]; destruct (none_rejects _ H)].
  - split; [intros _; exists []; constructor|reflexivity].
  - unfold recog. cbn [to_re]. split.
    + destruct neg; cbn [orb].
      * intros _. destruct (outside l) as [c H]. exists [c]. constructor. unfold fits. rewrite H. reflexivity.
      * intros H. apply existsb_exists in H. destruct H as [[x y] [I L]]. cbn [fst snd] in L. exists [x]. constructor. unfold fits.
        assert (inside l x = true) as ->; [|reflexivity]. apply existsb_exists. exists (x, y). split; [exact I|]. cbn [fst snd]. rewrite N.leb_refl. exact L.
    + intros [w H]. apply any_inv in H. destruct H as [c [_ H]]. destruct neg; [reflexivity|]. cbn [orb]. unfold fits in H.
      assert (E : inside l c = true) by (destruct (inside l c); [reflexivity|discriminate]). apply existsb_exists in E. destruct E as [[x y] [I L]].
      apply existsb_exists. exists (x, y). split; [exact I|]. cbn [fst snd] in *. apply andb_true_iff in L. destruct L as [L1 L2]. apply N.leb_le in L1, L2. apply N.leb_le. lia.
  - rewrite andb_true_iff, IHa, IHb. unfold recog. cbn [to_re]. split.
    + intros [[u A] [v B]]. exists (u ++ v). constructor; assumption.
    + intros [w H]. apply cat_inv in H. destruct H as [u [v [_ [A B]]]]. eauto.
  - rewrite orb_true_iff, IHa, IHb. unfold recog. cbn [to_re]. split.
    + intros [[u A]|[u A]]; exists u; rewrite or_inv; auto.
    + intros [w H]. apply or_inv in H. destruct H; eauto.
  - split; [intros _; exists []; constructor|reflexivity].
Qed.

(** ** The rules *)
Fixpoint word_rx (w : jstr) : rx := match w with [] => Emp | [c] => Set_ false [(c, c)] | c :: w' => Then (Set_ false [(c, c)]) (word_rx w') end.
Definition digit_class : list (N * N) := [(48, 57)].
Definition digit_rx : rx := Set_ false digit_class.
Definition alnum_class : list (N * N) := [(48, 57); (65, 90); (97, 122)].
Definition blank_class : list (N * N) := [(9, 10); (12, 13); (32, 32)].

Inductive same : re -> rx -> Prop :=
| same_word w : same (Word w) (word_rx w)
| same_any p neg l : (forall c, p c = fits neg l c) -> same (Any p) (Set_ neg l)
| same_cat a b x y : same a x -> same b y -> same (Cat a b) (Then x y)
| same_or a b x y : same a x -> same b y -> same (Or a b) (Either x y)
| same_star a x : same a x -> same (Star a) (Many x).
Lemma single c d : fits false [(c, c)] d = (d =? c).
Proof.
  unfold fits, inside. cbn [existsb fst snd]. rewrite orb_false_r. destruct (N.eqb_spec d c) as [->|NE]; [rewrite N.leb_refl; reflexivity|].
  destruct (N.leb_spec c d); destruct (N.leb_spec d c); cbn [andb]; try reflexivity; lia.
Qed.
Lemma single_recog c w : recog (Set_ false [(c, c)]) w <-> w = [c].
Proof.
  unfold recog. cbn [to_re]. rewrite any_inv. split.
  - intros [d [-> H]]. rewrite single in H. apply N.eqb_eq in H. subst. reflexivity.
  - intros ->. exists c. split; [reflexivity|]. rewrite single. apply N.eqb_refl.
Qed.
Lemma word_recog v : forall w, recog (word_rx v) w <-> w = v.
Proof.
  induction v as [|c v IH]; intros w; [unfold recog; cbn; apply word_inv|]. destruct v as [|d v]; [apply single_recog|].
  cbn [word_rx]. unfold recog. cbn [to_re]. rewrite cat_inv. change (matches (to_re (word_rx (d :: v)))) with (recog (word_rx (d :: v))). split.
  - intros [x [y [-> [A B]]]]. apply single_recog in A. apply IH in B. subst. reflexivity.
  - intros ->. exists [c], (d :: v). split; [reflexivity|]. split; [apply single_recog; reflexivity|apply IH; reflexivity].
Qed.
Lemma any_same p q w : (forall c, p c = q c) -> matches (Any p) w <-> matches (Any q) w.
Proof. intros E. rewrite !any_inv. split; intros [c [-> H]]; exists c; (split; [reflexivity|]); rewrite ?E in *; congruence. Qed.
Lemma star_same a b : (forall w, matches a w <-> matches b w) -> forall w, matches (Star a) w -> matches (Star b) w.
Proof.
  intros E w H. remember (Star a) as r eqn:R. induction H; try discriminate; injection R as ->; [constructor|]. apply m_more; [apply E; assumption|apply IHmatches2; reflexivity].
Qed.
Lemma same_recog r x : same r x -> forall w, matches r w <-> recog x w.
Proof.
  induction 1 as [v|p neg l E|a b x y _ IHa _ IHb|a b x y _ IHa _ IHb|a x _ IHa]; intros w.
  - rewrite word_recog. apply word_inv.
  - apply any_same, E.
  - unfold recog. cbn [to_re]. rewrite !cat_inv. split; intros [u [v [E [A B]]]]; exists u, v; (split; [exact E|]); (split; [apply IHa, A|apply IHb, B]).
  - unfold recog. cbn [to_re]. rewrite !or_inv. rewrite (IHa w), (IHb w). reflexivity.
  - unfold recog. cbn [to_re]. split; apply star_same; intros v; [apply IHa|symmetry; apply IHa].
Qed.

Definition lone (a : String.string) : rx := word_rx (J a).
Arguments lone _%string_scope.
Definition pair_rx (a b : String.string) : rx := Either (lone a) (lone b).
Arguments pair_rx (_ _)%string_scope.
Definition plus_rx (a : rx) : rx := Then a (Many a).
Fixpoint seq_rx (l : list rx) : rx := match l with [] => Emp | [a] => a | a :: l' => Then a (seq_rx l') end.
Definition quoted_rx (q : N) : rx := seq_rx [word_rx [q]; Many (Set_ true [(q, q)]); word_rx [q]].
Definition date_rx : list rx := [digit_rx; digit_rx; digit_rx; digit_rx; lone "-"; digit_rx; digit_rx; lone "-"; digit_rx; digit_rx].
Definition datetime_rx : list rx := date_rx ++ [lone " "; digit_rx; digit_rx; lone ":"; digit_rx; digit_rx; lone ":"; digit_rx; digit_rx].
Definition rule_rx : list (tkind * rx) :=
  [ (T_COMMA, lone ",");
    (T_IN, pair_rx "IN" "in"); (T_TO, pair_rx "TO" "to");
    (T_AND, Either (lone "AND") (Either (lone "and") (lone "&&")));
    (T_OR, Either (lone "OR") (Either (lone "or") (lone "||")));
    (T_NOT, pair_rx "NOT" "not"); (T_TRUE, pair_rx "TRUE" "true"); (T_FALSE, pair_rx "FALSE" "false");
    (T_CONTAINS_ALL, pair_rx "CONTAINS_ALL" "contains_all"); (T_CONTAINS_ANY, pair_rx "CONTAINS_ANY" "contains_any");
    (T_MIN, pair_rx "MIN" "min"); (T_MAX, pair_rx "MAX" "max"); (T_AVG, pair_rx "AVG" "avg"); (T_SUM, pair_rx "SUM" "sum");
    (T_MEAN, pair_rx "MEAN" "mean"); (T_MODE, pair_rx "MODE" "mode"); (T_MEDIAN, pair_rx "MEDIAN" "median");
    (T_LEN, pair_rx "LEN" "len"); (T_INT, pair_rx "INT" "int"); (T_DAYS_ELAPSED, pair_rx "DAYS_ELAPSED" "days_elapsed");
    (T_ADD, lone "+"); (T_SUBTRACT, lone "-"); (T_MULTIPLY, lone "*"); (T_DIVIDE, lone "/"); (T_MODULUS, lone "%"); (T_EXPONENT, lone "^");
    (T_NE, lone "!="); (T_GT, lone ">"); (T_GE, lone ">="); (T_LT, lone "<"); (T_LE, lone "<="); (T_EQ, lone "=");
    (T_LPAREN, lone "("); (T_RPAREN, lone ")");
    (T_DECIMAL, seq_rx [plus_rx digit_rx; lone "."; plus_rx digit_rx]);
    (T_APP_VERSION, Then digit_rx (plus_rx (Then (lone ".") (plus_rx digit_rx))));
    (T_INTEGER, plus_rx digit_rx);
    (T_DATE, seq_rx date_rx);
    (T_DATETIME, seq_rx datetime_rx);
    (T_WS, plus_rx (Set_ false blank_class));
    (T_WORD, Either (quoted_rx 39) (quoted_rx 34));
    (T_SQSTR, quoted_rx 39); (T_DQSTR, quoted_rx 34);
    (T_FIELD, plus_rx (Either (Set_ false alnum_class) (Either (lone "_") (lone "."))));
    (T_ALPHANUMERIC, Set_ false alnum_class);
    (T_SQ, quoted_rx 39); (T_DQ, quoted_rx 34) ].

Lemma digit_fits c : is_digit c = fits false digit_class c.
Proof. unfold fits, inside, digit_class, is_digit. cbn [existsb fst snd]. rewrite orb_false_r. reflexivity. Qed.
Lemma alnum_fits c : letter_or_digit c = fits false alnum_class c.
Proof. unfold fits, inside, alnum_class, letter_or_digit, is_digit, is_upper, is_lower. cbn [existsb fst snd]. rewrite orb_false_r, !orb_assoc. reflexivity. Qed.
Lemma blank_fits c : blank c = fits false blank_class c.
Proof.
  unfold fits, inside, blank_class, blank. cbn [existsb fst snd]. rewrite !orb_false_r.
  destruct (N.eqb_spec c 32) as [->|]; [reflexivity|]. destruct (N.eqb_spec c 13) as [->|]; [reflexivity|]. destruct (N.eqb_spec c 9) as [->|]; [reflexivity|].
  destruct (N.eqb_spec c 12) as [->|]; [reflexivity|]. destruct (N.eqb_spec c 10) as [->|]; [reflexivity|]. cbn [orb].
  destruct (N.leb_spec 9 c); destruct (N.leb_spec c 10); destruct (N.leb_spec 12 c); destruct (N.leb_spec c 13); destruct (N.leb_spec 32 c); destruct (N.leb_spec c 32); cbn [andb orb]; try reflexivity; lia.
Qed.
Lemma quote_fits q c : negb (c =? q) = fits true [(q, q)] c.
Proof. pose proof (single q c) as E. unfold fits in *. rewrite E. reflexivity. Qed.

Lemma digit_same : same digit digit_rx. Proof. constructor. exact digit_fits. Qed.
Lemma plus_same a x : same a x -> same (Plus a) (plus_rx x).
Proof. intros S. apply same_cat; [exact S|apply same_star, S]. Qed.
Lemma quoted_same q : same (quoted q) (quoted_rx q).
Proof. apply same_cat; [apply (same_word [q])|]. apply same_cat; [apply same_star, same_any; intros c; apply quote_fits|apply (same_word [q])]. Qed.
Lemma rules_same : Forall2 (fun a b => fst a = fst b /\ same (snd a) (snd b)) lexicon rule_rx.
Proof.
  assert (A : same (Any letter_or_digit) (Set_ false alnum_class)) by (constructor; exact alnum_fits).
  assert (B : same (Any blank) (Set_ false blank_class)) by (constructor; exact blank_fits).
  unfold lexicon, rule_rx, two, one, pair_rx, lone, date_re, datetime_re, date_rx, datetime_rx.
  repeat (apply Forall2_cons; [split; [reflexivity|]; cbn [snd cat seq_rx app];
    repeat first [exact A|exact B|exact digit_same|apply quoted_same|apply plus_same|apply same_or|apply same_word|apply same_cat]|]); try apply Forall2_nil.
Qed.
