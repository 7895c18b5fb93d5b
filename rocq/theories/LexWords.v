(** White space, words, keywords and literals. *)
From Verif Require Import Base JNum JNumFacts Lexer SpecLex NumFacts CacheFacts LexFacts LexSplit.

(** ** White space *)
Lemma blanks_ws w : blanks w -> forallb is_ws w = true.
Proof. intros H. apply forallb_forall. intros c I. rewrite <- blank_is_ws. unfold blanks in H. rewrite Forall_forall in H. apply H, I. Qed.
Lemma blanks_app a b : blanks a -> blanks b -> blanks (a ++ b).
Proof. intros A B. apply Forall_app. auto. Qed.

Lemma firstn_cons_app {A} (a : list A) c b n : (length a < n)%nat -> exists b', firstn n (a ++ c :: b) = a ++ c :: b'.
Proof.
  intros L. rewrite firstn_app, firstn_all2 by lia. destruct (n - length a)%nat as [|j] eqn:E; [lia|]. cbn [firstn]. eauto.
Qed.

Lemma ws_rule_first w k r : w <> [] -> forallb is_ws w = true -> In (k, r) lexicon -> matches r w -> k = T_WS.
Proof.
  intros N H I M. destruct w as [|y w]; [contradiction|]. cbn [forallb] in H. apply andb_true_iff in H. destruct H as [Y _].
  pose proof (rule_shape _ _ _ I M) as S0. remember (y :: w) as yw eqn:Eyw. destruct S0 as [k0 z0 _ H0|k0 z0 H0|z0 H0 _|z0 H0 _|z0 _ H0|k0 q0 b0 Q0 H0].
  - subst z0. cbn [forallb] in H0. rewrite (ws_not_field y Y) in H0. discriminate.
  - subst z0. rewrite (symbol_no_ws _ y H0 (or_introl eq_refl)) in Y. discriminate.
  - reflexivity || (subst z0; apply first_class in H0; apply digit_not_ws in H0; congruence).
  - subst z0. apply first_class in H0. apply digit_not_ws in H0. congruence.
  - reflexivity.
  - injection Eyw as -> _. destruct (ws_not_quote y Y). destruct Q0; contradiction.
Qed.
Lemma ws_position : lexicon = firstn 39 lexicon ++ (T_WS, Plus (Any blank)) :: skipn 40 lexicon.
Proof. reflexivity. Qed.
Lemma before_ws k r : In (k, r) (firstn 39 lexicon) -> k <> T_WS.
Proof. intros I. unfold lexicon in I. cbn [firstn In] in I. repeat (destruct I as [I|I]; [injection I as <- _; discriminate|]). contradiction. Qed.

Lemma ws_picks w rest : w <> [] -> forallb is_ws w = true -> (forall c r, rest = c :: r -> is_ws c = false) -> picks (w ++ rest) T_WS w.
Proof.
  intros N H STOP. split; [exact N|]. split; [eauto|]. split.
  - exists (firstn 39 lexicon), (Plus (Any blank)), (skipn 40 lexicon). split; [apply ws_position|]. split; [apply ws_matches; assumption|].
    intros k' r' I M. apply (before_ws _ _ I). eapply ws_rule_first; try eassumption.
    rewrite <- (firstn_skipn 39 lexicon). apply in_or_app. auto.
  - intros k' r' w' rest' I E M. destruct (Nat.le_gt_cases (length w') (length w)) as [L|L]; [exact L|]. exfalso.
    destruct rest as [|c rest]; [rewrite app_nil_r in E; rewrite E, app_length in L; lia|].
    assert (X : w' = firstn (length w') (w ++ c :: rest)) by (rewrite E, firstn_app_exact; reflexivity).
    destruct (firstn_cons_app w c rest (length w') L) as [b B]. rewrite B in X. clear B E.
    specialize (STOP c rest eq_refl).
    destruct w as [|y w]; [contradiction|]. cbn [forallb] in H. apply andb_true_iff in H. destruct H as [Y _].
    pose proof (rule_shape _ _ _ I M) as S0. destruct S0 as [k0 z0 _ H0|k0 z0 H0|z0 H0 _|z0 H0 _|z0 _ H0|k0 q0 b0 Q0 H0].
    + subst z0. cbn [app forallb] in H0. rewrite (ws_not_field y Y) in H0. discriminate.
    + subst z0. rewrite (symbol_no_ws _ y H0 (or_introl eq_refl)) in Y. discriminate.
    + subst z0. apply first_class in H0. apply digit_not_ws in H0. congruence.
    + subst z0. apply first_class in H0. apply digit_not_ws in H0. congruence.
    + subst z0. rewrite forallb_app in H0. cbn [forallb] in H0. rewrite STOP, andb_false_r in H0. discriminate.
    + injection X as -> _. destruct (ws_not_quote y Y). destruct Q0; contradiction.
Qed.

Lemma genuine_nonnil t : genuine t -> text t <> [].
Proof. intros [[N _] _]. exact N. Qed.
Lemma genuine_head t c r : genuine t -> text t = c :: r -> is_ws c = false.
Proof.
  intros [P K] E. destruct (is_ws c) eqn:C; [|reflexivity]. exfalso. apply K.
  pose proof (picks_shape _ _ _ P) as S. destruct t as [k w]. cbn [kind text] in *. subst w.
  remember (c :: r) as z eqn:Z. destruct S as [k0 z0 _ H0|k0 z0 H0|z0 H0 _|z0 H0 _|z0 _ H0|k0 q0 b0 Q0 H0].
  - subst z0. cbn [forallb] in H0. rewrite (ws_not_field c C) in H0. discriminate.
  - subst z0. rewrite (symbol_no_ws _ c H0 (or_introl eq_refl)) in C. discriminate.
  - subst z0. apply first_class in H0. apply digit_not_ws in H0. congruence.
  - subst z0. apply first_class in H0. apply digit_not_ws in H0. congruence.
  - reflexivity.
  - injection Z as -> _. destruct (ws_not_quote c C). destruct Q0; contradiction.
Qed.
Lemma genuine_not_time t tail : genuine t -> (tail = [] \/ exists c r, tail = c :: r /\ is_ws c = true) -> ~ time_like (text t ++ tail).
Proof.
  intros G T [a [b [r [E [A B]]]]]. pose proof (genuine_nonnil t G) as N. destruct G as [P _].
  pose proof (picks_shape _ _ _ P) as S. destruct t as [k w]. cbn [kind text] in *.
  destruct w as [|x [|y [|z w]]]; [contradiction| | |].
  - destruct T as [->|[c [r' [-> C]]]]; [discriminate|]. injection E as _ -> _. rewrite (digit_not_ws b B) in C. discriminate.
  - destruct T as [->|[c [r' [-> C]]]]; [discriminate|]. injection E as _ _ -> _. discriminate.
  - injection E as -> -> -> _. apply shape_cases in S. destruct S as [[_ H0]|[H0|[[H0 _]|[[H0 _]|[[_ [H0 _]]|[q0 [b0 [Q0 [_ V]]]]]]]]].
    + cbn [forallb] in H0. rewrite !andb_true_iff in H0. destruct H0 as [_ [_ [H0 _]]]. discriminate.
    + clear -H0 A. unfold symbols in H0. cbn [In] in H0. repeat (destruct H0 as [H0|H0]; [try (vm_compute in H0; discriminate)|]). contradiction.
    + cbn [matches_classes date_classes] in H0. rewrite !andb_true_iff in H0. destruct H0 as [_ [_ [H0 _]]]. discriminate.
    + unfold datetime_classes, date_classes in H0. cbn [app matches_classes] in H0. rewrite !andb_true_iff in H0. destruct H0 as [_ [_ [H0 _]]]. discriminate.
    + cbn [forallb] in H0. apply andb_true_iff in H0. destruct H0 as [H0 _]. rewrite (digit_not_ws a A) in H0. discriminate.
    + injection V as -> _. destruct Q0 as [-> | ->]; discriminate.
Qed.
Lemma blank_tail w : blanks w -> w = [] \/ exists c r, w = c :: r /\ is_ws c = true.
Proof. intros H. destruct w as [|c w]; [auto|]. right. exists c, w. split; [reflexivity|]. rewrite <- blank_is_ws. inversion H. assumption. Qed.
Lemma blanks_not_time w s : blanks w -> ~ time_like s -> ~ time_like (w ++ s).
Proof.
  intros B T. destruct w as [|c w]; [exact T|]. intros [a [b [r [E [A _]]]]]. injection E as -> _. inversion B as [|? ? H _]; subst.
  rewrite blank_is_ws, (digit_not_ws a A) in H. discriminate.
Qed.
Lemma spaced_not_time ts s : spaced ts s -> Forall genuine ts -> ~ time_like s.
Proof.
  intros S G. destruct S as [w B|w t w' B B'|w t c s ts B C N S].
  - rewrite <- (app_nil_r w). apply blanks_not_time; [exact B|]. intros [a [b [r [E _]]]]. discriminate.
  - apply blanks_not_time; [exact B|]. apply genuine_not_time; [inversion G; assumption|apply blank_tail, B'].
  - apply blanks_not_time; [exact B|]. apply genuine_not_time; [inversion G; assumption|]. right. exists c, s. rewrite <- blank_is_ws. auto.
Qed.

Lemma split_leading w s ps : blanks w -> (forall c r, s = c :: r -> is_ws c = false) -> splits s ps ->
  exists ps', splits (w ++ s) ps' /\ tokens_of ps' = tokens_of ps.
Proof.
  intros B H S. destruct w as [|c w]; [exists ps; auto|]. exists (Blank (c :: w) :: ps). split; [|reflexivity].
  apply split_blank; [|exact S]. apply ws_picks; [discriminate|apply blanks_ws, B|exact H].
Qed.
Lemma spaced_splits ts s : spaced ts s -> Forall genuine ts -> forall pre, blanks pre -> exists ps, splits (pre ++ s) ps /\ tokens_of ps = ts.
Proof.
  induction 1 as [w B|w t w' B B'|w t c s ts B C N S IH]; intros G pre BP.
  - rewrite <- (app_nil_r (pre ++ w)). apply (split_leading (pre ++ w) [] []); [apply blanks_app; assumption|discriminate|constructor].
  - assert (Gt : genuine t) by (inversion G; assumption). rewrite app_assoc.
    destruct (split_leading w' [] [] B') as [ps [S E]]; [discriminate|constructor|]. rewrite app_nil_r in S. cbn [tokens_of] in E.
    destruct (split_leading (pre ++ w) (text t ++ w') (Token t :: ps)) as [ps' [S' E']].
    + apply blanks_app; assumption.
    + intros c r H. pose proof (genuine_nonnil t Gt). destruct (text t) as [|x l] eqn:T; [contradiction|]. injection H as <- _. apply (genuine_head t x l Gt T).
    + destruct t as [k v]. cbn [text] in *. apply split_token; [|apply Gt|exact S]. destruct (blank_tail w' B') as [->|[c [r [-> C]]]].
      * rewrite app_nil_r. apply Gt.
      * apply (genuine_stop (Tok k v) c r Gt C). inversion B' as [|? ? _ Br]; subst. rewrite <- (app_nil_r r). apply blanks_not_time; [exact Br|].
        intros [a [b [z [E1 _]]]]. discriminate.
    + exists ps'. split; [exact S'|]. rewrite E'. cbn [tokens_of]. rewrite E. reflexivity.
  - assert (Gt : genuine t) by (inversion G; assumption). assert (Gs : Forall genuine ts) by (inversion G; assumption).
    assert (BC : blanks [c]) by (constructor; [exact C|constructor]).
    destruct (IH Gs [c] BC) as [ps [SP E]]. cbn [app] in SP. rewrite app_assoc.
    destruct (split_leading (pre ++ w) (text t ++ c :: s) (Token t :: ps)) as [ps' [S' E']].
    + apply blanks_app; assumption.
    + intros c' r H. pose proof (genuine_nonnil t Gt). destruct (text t) as [|x l] eqn:T; [contradiction|]. injection H as <- _. apply (genuine_head t x l Gt T).
    + destruct t as [k v]. cbn [text] in *. apply split_token; [|apply Gt|exact SP].
      apply (genuine_stop (Tok k v) c s Gt); [rewrite <- blank_is_ws; exact C|]. apply (spaced_not_time ts s S Gs).
    + exists ps'. split; [exact S'|]. rewrite E'. cbn [tokens_of]. rewrite E. reflexivity.
Qed.
Lemma spaced_lex ts s : Forall genuine ts -> spaced ts s -> lex s = Ok ts.
Proof.
  intros G S. destruct (spaced_splits ts s S G [] (Forall_nil _)) as [ps [SP E]]. cbn [app] in SP. rewrite (lex_splits _ _ SP), E. reflexivity.
Qed.
Lemma genuine_lex t : genuine t -> lex (text t) = Ok [t].
Proof.
  intros G. apply spaced_lex; [constructor; [exact G|constructor]|]. rewrite <- (app_nil_r (text t)). apply (sp_one [] t []); constructor.
Qed.
Definition foreign (c : jchar) : Prop := forall k r u, In (k, r) lexicon -> ~ matches r (c :: u).
Lemma foreign_no_pick c s : foreign c -> forall k w, ~ picks (c :: s) k w.
Proof.
  intros F k w P. pose proof P as [N [[rest E] _]]. destruct (picks_rule _ _ _ P) as [r [I M]]. destruct w as [|x w]; [contradiction|].
  injection E as <- _. exact (F k r w I M).
Qed.
Lemma foreign_dropped c s u rest : foreign c -> c :: s = u ++ rest -> u = first_character (c :: s) -> lex (c :: s) = lex rest.
Proof.
  intros F E U. destruct (lex_total rest) as [ps [S ->]]. rewrite E. apply (lex_splits (u ++ rest) (Dropped u :: ps)).
  apply split_drop; rewrite <- ?E; [discriminate|apply foreign_no_pick, F| |exact S]. exists [], (c :: s). split; [reflexivity|]. split; [apply viable_nil|].
  split; [|rewrite U; reflexivity]. intros p' rest' E' [k [r [v [I M]]]]. destruct p' as [|x p']; [cbn; lia|]. injection E' as <- _. destruct (F k r (p' ++ v) I M).
Qed.
Lemma low_foreign d : low_surrogate d = true -> foreign d.
Proof.
  intros H k r u I M. unfold low_surrogate in H. apply andb_true_iff in H. destruct H as [H1 H2]. apply N.leb_le in H1, H2.
  apply (rule_shape _ _ _ I) in M. remember (d :: u) as z eqn:Z.
  assert (ND : is_digit d = false) by (unfold is_digit; destruct (N.leb_spec d 57); [lia|apply andb_false_r]).
  assert (NA : is_field_char d = false).
  { unfold is_field_char, is_alnum. rewrite ND. unfold is_upper, is_lower. destruct (N.leb_spec d 90); [lia|]. destruct (N.leb_spec d 122); [lia|].
    rewrite !andb_false_r. cbn [orb]. destruct (N.eqb_spec d (ch "_")) as [->|_]; [vm_compute in H1; lia|]. destruct (N.eqb_spec d (ch ".")) as [->|_]; [vm_compute in H1; lia|reflexivity]. }
  assert (NW : is_ws d = false).
  { unfold is_ws. destruct (N.eqb_spec d 32); [lia|]. destruct (N.eqb_spec d 13); [lia|]. destruct (N.eqb_spec d 9); [lia|]. destruct (N.eqb_spec d 12); [lia|]. destruct (N.eqb_spec d 10); [lia|reflexivity]. }
  destruct M as [k w _ H|k w H|w H _|w H _|w _ H|k q body QQ H]; subst; try injection Z as -> Z.
  - cbn [forallb] in H. rewrite NA in H. discriminate.
  - unfold symbols in H. cbn [In] in H. repeat (destruct H as [H|H]; [vm_compute in H; injection H as <- _; vm_compute in H1; apply H1; reflexivity|]). contradiction.
  - apply first_class in H. congruence.
  - apply first_class in H. congruence.
  - cbn [forallb] in H. rewrite NW in H. discriminate.
  - destruct QQ as [-> | ->]; vm_compute in H1; apply H1; reflexivity.
Qed.
Lemma low_not_high d : low_surrogate d = true -> high_surrogate d = false.
Proof.
  unfold low_surrogate, high_surrogate. intros H. apply andb_true_iff in H. destruct H as [H1 H2]. apply N.leb_le in H1, H2.
  destruct (N.leb_spec d 56319); [lia|]. apply andb_false_r.
Qed.
Lemma foreign_ignored c s : foreign c -> lex (c :: s) = lex s.
Proof.
  intros F. destruct s as [|d s]; [apply (foreign_dropped c [] [c] []); auto|].
  destruct (high_surrogate c && low_surrogate d) eqn:HL.
  - apply andb_true_iff in HL. destruct HL as [Hh Hl].
    rewrite (foreign_dropped c (d :: s) [c; d] s F); [|reflexivity|cbn [first_character]; rewrite Hh, Hl; reflexivity].
    symmetry. apply (foreign_dropped d s [d] s (low_foreign d Hl)); [reflexivity|]. destruct s as [|e s]; [reflexivity|]. cbn [first_character]. rewrite (low_not_high d Hl). reflexivity.
  - apply (foreign_dropped c (d :: s) [c] (d :: s) F); [reflexivity|]. cbn [first_character]. rewrite HL. reflexivity.
Qed.

(** ** Words *)
Lemma field_position : lexicon = firstn 43 lexicon ++ (T_FIELD, Plus (Or (Any letter_or_digit) (Or (one "_") (one ".")))) :: skipn 44 lexicon.
Proof. reflexivity. Qed.
Lemma word_char_field c : word_char c = is_field_char c.
Proof. reflexivity. Qed.
Lemma word_splits w : w <> [] -> forallb is_field_char w = true -> exists k, picks w k w.
Proof.
  intros N H. destruct (some_match w _ _ w [] in_field (field_matches w N H)) as [k [w' P]]; [symmetry; apply app_nil_r|exact N|].
  exists k. pose proof P as [_ [[rest E] [_ MAX]]]. specialize (MAX _ _ w [] in_field). rewrite app_nil_r in MAX. specialize (MAX eq_refl (field_matches w N H)).
  assert (R : rest = []) by (apply length_zero_iff_nil; rewrite E, app_length in MAX; lia). subst rest. rewrite app_nil_r in E. subst w'. exact P.
Qed.
(** Texts made only of digits and dots. *)
Definition numeric_char (c : jchar) : bool := is_digit c || (c =? ch ".")%N.
Lemma digit_numeric c : is_digit c = true -> numeric_char c = true.
Proof. intros H. unfold numeric_char. rewrite H. reflexivity. Qed.
Lemma ver_ok_numeric st w : ver_ok st w = true -> forallb numeric_char w = true.
Proof.
  revert st. induction w as [|c w IH]; intros st H; [reflexivity|]. cbn [forallb]. destruct st; cbn [ver_ok] in H.
  - apply andb_true_iff in H. destruct H as [C H]. unfold numeric_char at 1. rewrite C, orb_true_r, (IH _ H). reflexivity.
  - apply andb_true_iff in H. destruct H as [C H]. rewrite (digit_numeric c C), (IH _ H). reflexivity.
  - destruct (is_digit c) eqn:D.
    + rewrite (digit_numeric c D), (IH _ H). reflexivity.
    + apply andb_true_iff in H. destruct H as [C H]. unfold numeric_char at 1. rewrite C, orb_true_r, (IH _ H). reflexivity.
Qed.
Lemma not_field_symbol w v : forallb is_field_char w = true -> w = v -> forallb is_field_char v = false -> False.
Proof. intros A -> B. rewrite A in B. discriminate. Qed.
Lemma keyword_rule k a b w (P : Prop) : In (k, J a, J b) keywords -> matches (two a b) w -> (exists up lo, In (k, up, lo) keywords /\ (w = up \/ w = lo)) \/ P.
Proof.
  intros I M. left. exists (J a), (J b). split; [exact I|]. apply matches_or in M. destruct M as [M|M]; apply matches_word in M; auto.
Qed.
Lemma before_field w k r : w <> [] -> forallb is_field_char w = true -> In (k, r) (firstn 43 lexicon) -> matches r w ->
  (exists up lo, In (k, up, lo) keywords /\ (w = up \/ w = lo)) \/ forallb numeric_char w = true.
Proof.
  intros N F I M. unfold lexicon in I. cbn [firstn In] in I.
  repeat (destruct I as [I|I]; [injection I as <- <-|]); try contradiction;
  try (apply matches_word in M; exfalso; apply (not_field_symbol _ _ F M); vm_compute; reflexivity);
  try (eapply keyword_rule; [|exact M]; unfold keywords; cbn [In]; repeat (first [left; reflexivity|right]); fail).
  - apply matches_or in M. destruct M as [M|M]; [|apply matches_or in M; destruct M as [M|M]]; apply matches_word in M; subst w.
    + left. exists (J "AND"), (J "and"). split; [unfold keywords; cbn [In]; tauto|auto].
    + left. exists (J "AND"), (J "and"). split; [unfold keywords; cbn [In]; tauto|auto].
    + vm_compute in F. discriminate.
  - apply matches_or in M. destruct M as [M|M]; [|apply matches_or in M; destruct M as [M|M]]; apply matches_word in M; subst w.
    + left. exists (J "OR"), (J "or"). split; [unfold keywords; cbn [In]; tauto|auto].
    + left. exists (J "OR"), (J "or"). split; [unfold keywords; cbn [In]; tauto|auto].
    + vm_compute in F. discriminate.
  - right. apply matches_decimal in M. destruct M as [a [b [-> [_ [_ [DA DB]]]]]]. rewrite forallb_app. cbn [forallb].
    rewrite (forallb_impl _ _ a digit_numeric DA), (forallb_impl _ _ b digit_numeric DB). reflexivity.
  - right. change (Cat (one ".") (Plus digit)) with ver_part in M. apply matches_version in M. destruct M as [c [v [-> [D V]]]].
    cbn [forallb]. rewrite (digit_numeric c D), (ver_ok_numeric _ _ V). reflexivity.
  - right. apply (matches_plus _ _ _ single_digit) in M. apply (forallb_impl _ _ w digit_numeric), M.
  - exfalso. unfold date_re in M. eapply (matches_cat_classes _ date_classes) in M; [|repeat (apply Forall2_cons; [first [apply single_digit|apply single_word]|]); apply Forall2_nil].
    destruct M as [M _]. destruct (matches_classes_nth _ _ 4%nat _ M eq_refl) as [c [E C]]. apply N.eqb_eq in C. subst c. apply nth_error_In in E.
    rewrite forallb_forall in F. specialize (F _ E). discriminate.
  - exfalso. unfold datetime_re in M. eapply (matches_cat_classes _ datetime_classes) in M; [|repeat (apply Forall2_cons; [first [apply single_digit|apply single_word]|]); apply Forall2_nil].
    destruct M as [M _]. destruct (matches_classes_nth _ _ 4%nat _ M eq_refl) as [c [E C]]. apply N.eqb_eq in C. subst c. apply nth_error_In in E.
    rewrite forallb_forall in F. specialize (F _ E). discriminate.
  - exfalso. apply (matches_plus _ _ _ (single_any blank)) in M. destruct M as [_ M]. destruct w as [|c w]; [contradiction|].
    cbn [forallb] in *. apply andb_true_iff in M, F. destruct M as [M _]. destruct F as [F _]. rewrite blank_is_ws in M. rewrite (ws_not_field c M) in F. discriminate.
  - exfalso. apply matches_or in M. destruct M as [M|M]; apply matches_quoted in M; destruct M as [b [-> _]]; discriminate.
  - exfalso. apply matches_quoted in M. destruct M as [b [-> _]]. discriminate.
  - exfalso. apply matches_quoted in M. destruct M as [b [-> _]]. discriminate.
Qed.
Lemma field_name_chars w : field_name w -> w <> [] /\ forallb is_field_char w = true /\ forallb numeric_char w = false.
Proof.
  intros [A [B _]]. split; [intros ->; inversion B|]. split.
  - apply forallb_forall. rewrite Forall_forall in A. exact A.
  - apply Exists_exists in B. destruct B as [c [I [D P]]]. apply not_true_is_false. intros H. rewrite forallb_forall in H. specialize (H c I).
    unfold numeric_char in H. rewrite D in H. cbn in H. apply N.eqb_eq in H. contradiction.
Qed.
Lemma self_picks w k r before after : w <> [] -> lexicon = before ++ (k, r) :: after -> matches r w ->
  (forall k' r', In (k', r') before -> ~ matches r' w) -> picks w k w.
Proof.
  intros N L M B. split; [exact N|]. split; [exists []; symmetry; apply app_nil_r|]. split; [eauto 8|].
  intros k' r' w' rest _ E _. rewrite E, app_length. lia.
Qed.
Lemma field_genuine w : field_name w -> genuine (Tok T_FIELD w).
Proof.
  intros F. destruct (field_name_chars w F) as [N [C NU]]. split; cbn [kind text]; [|discriminate].
  eapply (self_picks _ _ _ _ _ N field_position); [apply field_matches; assumption|]. intros k r I M.
  destruct (before_field w k r N C I M) as [[up [lo [K E]]]|H]; [|congruence]. destruct F as [_ [_ NK]]. apply NK. exists k, up, lo. auto.
Qed.
Lemma lex_field w : field_name w -> lex w = Ok [Tok T_FIELD w].
Proof. intros F. apply (genuine_lex (Tok T_FIELD w)), field_genuine, F. Qed.

(** ** Keywords *)
Lemma keyword_lex k up lo : In (k, up, lo) keywords -> lex up = Ok [Tok k up] /\ lex lo = Ok [Tok k lo].
Proof.
  unfold keywords. cbn [In]. intros I. repeat (destruct I as [I|I]; [injection I as <- <- <-; split; vm_compute; reflexivity|]). contradiction.
Qed.
Lemma keyword_lower k up lo : In (k, up, lo) keywords -> to_lower up = lo /\ to_lower lo = lo /\ lo <> [] /\
  forallb (fun c => is_field_char c && negb (numeric_char c)) lo = true.
Proof.
  unfold keywords. cbn [In]. intros I. repeat (destruct I as [I|I]; [injection I as <- <- <-; split; [|split; [|split]]; vm_compute; first [reflexivity|discriminate]|]). contradiction.
Qed.
Lemma keyword_by_lower k up k' up' lo : In (k, up, lo) keywords -> In (k', up', lo) keywords -> up = up'.
Proof.
  unfold keywords. cbn [In]. intros I I'.
  repeat (destruct I as [I|I]; [injection I as <- <- <-;
    repeat (destruct I' as [I'|I']; [first [vm_compute in I'; discriminate|exact (f_equal (fun x : tkind * jstr * jstr => snd (fst x)) I')]|]); contradiction|]). contradiction.
Qed.
Lemma lower_field c : is_field_char (lower_char c) && negb (numeric_char (lower_char c)) = true -> is_field_char c = true /\ numeric_char c = false.
Proof.
  unfold lower_char. destruct (is_upper c) eqn:U; intros H; apply andb_true_iff in H; destruct H as [A B]; apply negb_true_iff in B.
  - split; [unfold is_field_char, is_alnum; rewrite U, orb_true_r; reflexivity|].
    unfold numeric_char, is_digit, is_upper in *. apply andb_true_iff in U. destruct U as [U1 U2]. apply N.leb_le in U1, U2.
    change (ch ".") with 46%N. destruct (N.leb_spec c 57); [lia|]. destruct (N.eqb_spec c 46); [lia|]. rewrite andb_false_r. reflexivity.
  - auto.
Qed.
Lemma mixed_field k up lo w : In (k, up, lo) keywords -> to_lower w = lo -> w <> up -> w <> lo -> field_name w.
Proof.
  intros I L NU NL. destruct (keyword_lower _ _ _ I) as [LU [LL [NE CH]]].
  assert (C : forall c, In c w -> is_field_char c = true /\ numeric_char c = false).
  { intros c Ic. apply lower_field. rewrite <- L in CH. rewrite forallb_forall in CH. apply (CH (lower_char c)). apply in_map, Ic. }
  split; [apply Forall_forall; intros c Ic; apply C, Ic|]. split.
  - apply Exists_exists. destruct w as [|c w]; [subst lo; contradiction|]. exists c. split; [left; reflexivity|].
    destruct (C c (or_introl eq_refl)) as [_ NC]. unfold numeric_char in NC. apply orb_false_iff in NC. destruct NC as [D P]. split; [exact D|].
    intros ->. discriminate.
  - intros [k' [up' [lo' [I' [->| ->]]]]]; destruct (keyword_lower _ _ _ I') as [LU' [LL' _]].
    + replace lo' with lo in I' by congruence. apply NU. symmetry. exact (keyword_by_lower _ _ _ _ _ I I').
    + apply NL. congruence.
Qed.
Lemma longer_field k up lo v u : In (k, up, lo) keywords -> v = up \/ v = lo -> Forall (fun c => word_char c = true) u -> ~ keyword (v ++ u) -> field_name (v ++ u).
Proof.
  intros I V U NK. destruct (keyword_lower _ _ _ I) as [LU [LL [NE CH]]].
  assert (C : forall c, In c v -> is_field_char c = true /\ numeric_char c = false).
  { intros c Ic. apply lower_field. rewrite forallb_forall in CH. apply (CH (lower_char c)). assert (E : to_lower v = lo) by (destruct V as [E|E]; rewrite E; assumption).
    rewrite <- E. apply in_map, Ic. }
  split; [apply Forall_app; split; [apply Forall_forall; intros c Ic; apply C, Ic|exact U]|]. split; [|exact NK].
  apply Exists_exists. assert (NV : v <> []) by (intros ->; destruct V as [E|E]; [rewrite <- E in LU; cbn in LU; congruence|congruence]).
  destruct v as [|c v]; [contradiction|]. exists c. split; [left; reflexivity|].
  destruct (C c (or_introl eq_refl)) as [_ NC]. unfold numeric_char in NC. apply orb_false_iff in NC. destruct NC as [D P]. split; [exact D|]. intros ->. discriminate.
Qed.

(** ** Literals *)
Lemma digits_all ds : digits ds -> ds <> [] /\ forallb is_digit ds = true.
Proof. intros [N H]. split; [exact N|]. apply forallb_forall. rewrite Forall_forall in H. exact H. Qed.
Lemma natural_val ds : natural ds = digits_val ds.
Proof. induction ds as [|c ds IH]; [reflexivity|]. rewrite digits_val_cons. cbn [natural]. rewrite IH. reflexivity. Qed.
Lemma in_firstn_lex n k r : In (k, r) (firstn n lexicon) -> In (k, r) lexicon.
Proof. intros I. rewrite <- (firstn_skipn n lexicon). apply in_or_app. auto. Qed.

Lemma no_keyword_numeric k up lo w : In (k, up, lo) keywords -> w = up \/ w = lo -> forallb numeric_char w = false.
Proof.
  unfold keywords. cbn [In]. intros I E. repeat (destruct I as [I|I]; [injection I as <- <- <-; destruct E as [-> | ->]; vm_compute; reflexivity|]). contradiction.
Qed.
Lemma numeric_field c : numeric_char c = true -> is_field_char c = true.
Proof. unfold numeric_char, is_field_char, is_alnum. intros H. apply orb_true_iff in H. destruct H as [H|H]; rewrite H; [reflexivity|rewrite orb_true_r; reflexivity]. Qed.
(** Before the DECIMAL rule there are only keywords and symbols. *)
Lemma before_decimal w k r : w <> [] -> forallb numeric_char w = true -> In (k, r) (firstn 34 lexicon) -> ~ matches r w.
Proof.
  intros N F I M. pose proof (forallb_impl _ _ w numeric_field F) as FF. unfold lexicon in I. cbn [firstn In] in I.
  repeat (destruct I as [I|I]; [injection I as <- <-; repeat (apply matches_or in M; destruct M as [M|M]); apply matches_word in M; subst w; vm_compute in F; discriminate|]).
  contradiction.
Qed.
Lemma decimal_has_dot w : matches (cat [Plus digit; one "."; Plus digit]) w -> forallb is_digit w = true -> False.
Proof. intros M F. apply matches_decimal in M. destruct M as [a [b [-> _]]]. rewrite forallb_app in F. cbn [forallb] in F. rewrite dot_not_digit, andb_false_r in F. discriminate. Qed.
Lemma integer_genuine ds : digits ds -> genuine (Tok T_INTEGER ds).
Proof.
  intros D. destruct (digits_all ds D) as [N H]. split; cbn [kind text]; [|discriminate].
  assert (L : lexicon = firstn 36 lexicon ++ (T_INTEGER, Plus digit) :: skipn 37 lexicon) by reflexivity.
  eapply (self_picks _ _ _ _ _ N L); [apply (matches_plus _ _ _ single_digit); auto|]. intros k r I M.
  change (firstn 36 lexicon) with (firstn 34 lexicon ++ [(T_DECIMAL, cat [Plus digit; one "."; Plus digit]); (T_APP_VERSION, Cat digit (Plus (Cat (one ".") (Plus digit))))]) in I.
  apply in_app_or in I. destruct I as [I|I]; [apply (before_decimal ds k r N); [apply (forallb_impl _ _ ds digit_numeric H)|exact I|exact M]|].
  cbn [In] in I. destruct I as [I|[I|[]]]; injection I as <- <-.
  - exact (decimal_has_dot ds M H).
  - change (Cat (one ".") (Plus digit)) with ver_part in M. apply matches_version in M. destruct M as [c [v [-> [_ V]]]].
    destruct v as [|x v]; [discriminate|]. cbn [ver_ok] in V. apply andb_true_iff in V. destruct V as [X _]. apply N.eqb_eq in X. subst x.
    cbn [forallb] in H. rewrite dot_not_digit in H. rewrite andb_false_r in H. discriminate.
Qed.
Lemma decimal_genuine a b : digits a -> digits b -> genuine (Tok T_DECIMAL (a ++ J "." ++ b)).
Proof.
  intros A B. destruct (digits_all a A) as [NA HA]. destruct (digits_all b B) as [NB HB]. split; cbn [kind text]; [|discriminate].
  assert (N : a ++ J "." ++ b <> []) by (destruct a; discriminate).
  assert (L : lexicon = firstn 34 lexicon ++ (T_DECIMAL, cat [Plus digit; one "."; Plus digit]) :: skipn 35 lexicon) by reflexivity.
  eapply (self_picks _ _ _ _ _ N L).
  - apply matches_decimal. exists a, b. auto.
  - intros k r I. apply (before_decimal _ k r); [exact N| |exact I]. rewrite !forallb_app, (forallb_impl _ _ a digit_numeric HA), (forallb_impl _ _ b digit_numeric HB). reflexivity.
Qed.
Lemma quoted_genuine q b : q = ch "'" \/ q = 34%N -> ~ In q b -> genuine (Tok T_WORD (q :: b ++ [q])).
Proof.
  intros Q NI. split; cbn [kind text]; [|discriminate].
  assert (H : forallb (fun c => negb (c =? q)%N) b = true).
  { apply forallb_forall. intros c I. apply negb_true_iff, N.eqb_neq. intros ->. contradiction. }
  assert (N : q :: b ++ [q] <> []) by discriminate.
  assert (L : lexicon = firstn 40 lexicon ++ (T_WORD, Or (quoted (ch "'")) (quoted 34%N)) :: skipn 41 lexicon) by reflexivity.
  eapply (self_picks _ _ _ _ _ N L).
  - destruct Q as [-> | ->]; [apply m_left|apply m_right]; apply matches_quoted; eauto.
  - intros k r I M. unfold lexicon in I. cbn [firstn In] in I.
    assert (W : forall v, matches (Word v) (q :: b ++ [q]) -> match v with c :: _ => (c =? ch "'")%N || (c =? 34)%N | [] => false end = true).
    { intros v MV. apply matches_word in MV. subst v. destruct Q as [-> | ->]; reflexivity. }
    assert (ND : is_digit q = false) by (destruct Q as [-> | ->]; reflexivity).
    assert (NS : is_ws q = false) by (destruct Q as [-> | ->]; reflexivity).
    repeat (destruct I as [I|I]; [injection I as <- <-; try (repeat (apply matches_or in M; destruct M as [M|M]); apply W in M; vm_compute in M; discriminate)|]); try contradiction.
    + apply matches_decimal in M. destruct M as [x [y [E [NX [_ [DX _]]]]]]. destruct x as [|x0 x]; [contradiction|]. injection E as <- _. cbn [forallb] in DX. rewrite ND in DX. discriminate.
    + change (Cat (one ".") (Plus digit)) with ver_part in M. apply matches_version in M. destruct M as [c [v [E [D _]]]]. injection E as <- _. congruence.
    + apply (matches_plus _ _ _ single_digit) in M. destruct M as [_ M]. cbn [forallb] in M. rewrite ND in M. discriminate.
    + unfold date_re in M. eapply (matches_cat_classes _ date_classes) in M; [|repeat (apply Forall2_cons; [first [apply single_digit|apply single_word]|]); apply Forall2_nil].
      destruct M as [M _]. apply first_class in M. congruence.
    + unfold datetime_re in M. eapply (matches_cat_classes _ datetime_classes) in M; [|repeat (apply Forall2_cons; [first [apply single_digit|apply single_word]|]); apply Forall2_nil].
      destruct M as [M _]. apply first_class in M. congruence.
    + apply (matches_plus _ _ _ (single_any blank)) in M. destruct M as [_ M]. cbn [forallb] in M. rewrite blank_is_ws, NS in M. discriminate.
Qed.
