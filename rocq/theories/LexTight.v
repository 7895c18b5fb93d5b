(** Tokens written without white space between them. *)
From Verif Require Import Base JNum JNumFacts Lexer SpecLex SpecTight NumFacts CacheFacts LexFacts LexSplit LexWords.

Lemma last_field w x : w <> [] -> forallb is_field_char w = true -> is_field_char (last w x) = true.
Proof.
  induction w as [|c w IH]; [contradiction|]. intros _ H. cbn [forallb] in H. apply andb_true_iff in H. destruct H as [C H].
  destruct w as [|d w]; [exact C|]. apply IH; [discriminate|exact H].
Qed.
Lemma field_word c : is_field_char c = word_char c.
Proof. unfold is_field_char, word_char, letter_or_digit. reflexivity. Qed.
Lemma symbol_no_digit c w : In (c :: w) symbols -> is_digit c = false.
Proof.
  intros I. unfold symbols in I. cbn [In] in I. repeat (destruct I as [I|I]; [try (vm_compute in I; injection I as <- _; reflexivity)|]). contradiction.
Qed.

(** What a genuine token cut off a date or date-time looks like. *)
Lemma date_prefix w z x y classes k : w <> [] -> matches_classes (date_classes ++ classes) z = true -> length z = length (date_classes ++ classes) ->
  z = w ++ x :: y -> is_ws x = false -> shape k w -> k <> T_WS ->
  (classes = [] \/ exists cl, classes = is_char (ch " ") :: cl /\ (length cl <= 8)%nat) ->
  (is_digit x = true /\ is_digit (last w x) = true) \/ (forallb is_digit w = true /\ length w = 4%nat /\ x = ch "-").
Proof.
  intros N H L Z X SH K CL.
  assert (AT : forall i p, nth_error (date_classes ++ classes) i = Some p -> exists c, nth_error z i = Some c /\ p c = true).
  { intros i p. apply matches_classes_nth. exact H. }
  assert (D0 : exists c r, w = c :: r /\ is_digit c = true).
  { destruct w as [|c r]; [contradiction|]. exists c, r. split; [reflexivity|]. destruct (AT 0%nat _ eq_refl) as [c' [C' D]]. subst z. injection C' as <-. exact D. }
  assert (LL : length z = (length w + S (length y))%nat) by (rewrite Z, app_length; reflexivity).
  rewrite L, app_length in LL. change (length date_classes) with 10%nat in LL.
  destruct SH as [k w _ F|k w F|w F F'|w F F'|w _ F|k q b Q F].
  - assert (L4 : (length w <= 4)%nat).
    { destruct (Nat.le_gt_cases (length w) 4) as [L4|L4]; [exact L4|]. exfalso. destruct (AT 4%nat _ eq_refl) as [c [C D]].
      subst z. rewrite nth_error_app1 in C by exact L4. apply nth_error_In in C. rewrite forallb_forall in F. specialize (F c C).
      apply N.eqb_eq in D. subst c. discriminate. }
    subst z. clear D0 H L LL F K CL.
    destruct (AT 0%nat _ eq_refl) as [c0 [C0 D0]]; destruct (AT 1%nat _ eq_refl) as [c1 [C1 D1]]; destruct (AT 2%nat _ eq_refl) as [c2 [C2 D2]];
    destruct (AT 3%nat _ eq_refl) as [c3 [C3 D3]]; destruct (AT 4%nat _ eq_refl) as [c4 [C4 D4]]. clear AT.
    destruct w as [|w0 w]; [contradiction|]. destruct w as [|w1 w]; [|destruct w as [|w2 w]; [|destruct w as [|w3 w]; [|destruct w as [|w4 w]; [|cbn [length] in L4; lia]]]];
    cbn [app nth_error] in *.
    + left. injection C0 as ->. injection C1 as ->. split; assumption.
    + left. injection C1 as ->. injection C2 as ->. split; assumption.
    + left. injection C2 as ->. injection C3 as ->. split; assumption.
    + right. injection C0 as ->. injection C1 as ->. injection C2 as ->. injection C3 as ->. injection C4 as ->. apply N.eqb_eq in D4.
      cbn [forallb length]. rewrite D0, D1, D2, D3. auto.
  - exfalso. destruct D0 as [c [r [-> D]]]. rewrite (symbol_no_digit c r F) in D. discriminate.
  - exfalso. change (length date_classes) with 10%nat in F'. destruct CL as [->|[cl [-> _]]]; cbn [length] in LL; [lia|].
    destruct (AT 10%nat _ eq_refl) as [c [C D]]. subst z. rewrite nth_error_app2, F', Nat.sub_diag in C by lia. injection C as ->.
    apply N.eqb_eq in D. subst c. discriminate.
  - exfalso. change (length datetime_classes) with 19%nat in F'. destruct CL as [->|[cl [-> L8]]]; cbn [length] in LL; lia.
  - exfalso. apply K. reflexivity.
  - exfalso. destruct D0 as [c [r [V D]]]. injection V as -> _. destruct Q as [-> | ->]; discriminate.
Qed.

Lemma all_digits w : forallb is_digit w = true -> Forall (fun d => is_digit d = true) w.
Proof. intros H. apply Forall_forall. rewrite forallb_forall in H. exact H. Qed.

(** A token's text directly followed by a text that does not prolong it is still that token. *)
Lemma genuine_touch t c rest : genuine t -> is_ws c = false -> touching (text t) (c :: rest) -> picks (text t ++ c :: rest) (kind t) (text t).
Proof.
  destruct t as [k w]. cbn [kind text]. intros [P K] C T. cbn [kind text] in *. pose proof P as [N [_ [R MAX]]].
  destruct (T c rest eq_refl) as [T1 [T2 T3]]. clear T.
  split; [exact N|]. split; [eauto|]. split; [exact R|]. intros k' r' w' rest' I E M.
  destruct (Nat.le_gt_cases (length w') (length w)) as [L|L]; [exact L|]. exfalso.
  assert (W' : exists x, w' = w ++ c :: x /\ rest = x ++ rest').
  { assert (X : w' = firstn (length w') (w ++ c :: rest)) by (rewrite E, firstn_app_exact; reflexivity).
    rewrite firstn_app in X. rewrite firstn_all2 in X by lia. destruct (length w' - length w)%nat as [|j] eqn:J; [lia|].
    cbn [firstn] in X. exists (firstn j rest). split; [exact X|].
    assert (Y : rest' = skipn (length w') (w ++ c :: rest)) by (rewrite E, skipn_app_exact; reflexivity).
    rewrite skipn_app, J in Y. rewrite skipn_all2 in Y by lia. cbn [app skipn] in Y. rewrite Y. symmetry. apply firstn_skipn. }
  destruct W' as [x [-> ->]].
  assert (IC : In c (w ++ c :: x)) by (apply in_elt).
  assert (DATE : (is_digit c = true /\ is_digit (last w c) = true) \/ (forallb is_digit w = true /\ length w = 4%nat /\ c = ch "-") -> False).
  { intros [[D1 D2]|[D1 [D2 D3]]]; [|apply T3; [apply all_digits, D1|exact D2|exact D3]].
    apply digit_field in D1. apply digit_field in D2. rewrite field_word in D1, D2. rewrite (T1 D2) in D1. discriminate. }
  pose proof (rule_shape _ _ _ I M) as S. pose proof (picks_shape _ _ _ P) as SW.
  remember (w ++ c :: x) as z eqn:Z. destruct S as [k0 z _ H|k0 z H|z H Lz|z H Lz|z _ H|k0 q body QQ H].
  - subst z. rewrite forallb_app in H. apply andb_true_iff in H. destruct H as [H H']. cbn [forallb] in H'. apply andb_true_iff in H'. destruct H' as [H' _].
    rewrite field_word in H'. rewrite T1 in H'; [discriminate|]. rewrite <- field_word. apply last_field; assumption.
  - (* ">=", "<=", "!=", "&&", "||" *)
    assert (NO : forall a, w = [a] -> In a [ch "!"; ch "&"; ch "|"] -> False).
    { intros a -> A. apply shape_cases in SW. destruct SW as [[_ F]|[F|[[F _]|[[F _]|[[_ [F _]]|[q [b [Q [_ V]]]]]]]]].
      - cbn [In] in A. destruct A as [<-|[<-|[<-|[]]]]; discriminate.
      - clear -F A. cbn [In] in A. unfold symbols in F. destruct A as [<-|[<-|[<-|[]]]]; cbn [In] in F; repeat (destruct F as [F|F]; [vm_compute in F; discriminate|]); contradiction.
      - cbn [matches_classes date_classes] in F. rewrite andb_false_r in F. discriminate.
      - cbn [matches_classes date_classes datetime_classes app] in F. rewrite andb_false_r in F. discriminate.
      - cbn [In] in A. destruct A as [<-|[<-|[<-|[]]]]; discriminate.
      - destruct b; discriminate. }
    destruct w as [|a w]; [contradiction|]. clear -H Z NO T2. unfold symbols in H. cbn [In] in H.
    repeat (destruct H as [H|H]; [rewrite <- H in Z; vm_compute in Z; injection Z as <- Z; destruct w as [|? w]; [try discriminate; injection Z as <- _|try (injection Z as _ Z); destruct w; discriminate];
      first [apply (NO _ eq_refl); cbn [In]; auto; fail|apply T2; auto; fail]|]). contradiction.
  - apply DATE. rewrite <- (app_nil_r date_classes) in H, Lz. eapply date_prefix; try eassumption. left. reflexivity.
  - apply DATE. change datetime_classes with (date_classes ++ skipn 10 datetime_classes) in H, Lz. eapply date_prefix; try eassumption.
    right. eexists. split; [reflexivity|]. vm_compute. lia.
  - rewrite forallb_forall in H. rewrite (H c IC) in C. discriminate.
  - (* quoted *)
    destruct w as [|q0 w]; [contradiction|]. cbn [app] in Z. injection Z as <- Z.
    assert (NF : is_field_char q = false) by (destruct QQ as [-> | ->]; reflexivity).
    assert (ND : is_digit q = false) by (destruct QQ as [-> | ->]; reflexivity).
    assert (NW : is_ws q = false) by (destruct QQ as [-> | ->]; reflexivity).
    remember (q :: w) as qw eqn:Eqw. destruct SW as [k2 z2 _ H2|k2 z2 H2|z2 H2 _|z2 H2 _|z2 _ H2|k2 q2 b2 Q2 H2].
    + subst z2. cbn [forallb] in H2. rewrite NF in H2. discriminate.
    + subst z2. clear -H2 QQ. unfold symbols in H2. destruct QQ as [-> | ->]; cbn [In] in H2; repeat (destruct H2 as [H2|H2]; [vm_compute in H2; discriminate|]); contradiction.
    + subst z2. apply first_class in H2. congruence.
    + subst z2. apply first_class in H2. congruence.
    + subst z2. cbn [forallb] in H2. rewrite NW in H2. discriminate.
    + injection Eqw as -> <-. rewrite <- app_assoc in Z. cbn [app] in Z. symmetry in Z. pose proof (quote_splits _ _ _ _ H2 Z H) as X. discriminate.
Qed.

(** ** Layouts *)
Lemma laid_head ts s : laid (map text ts) s -> exists t ts' s', ts = t :: ts' /\ s = text t ++ s'.
Proof. intros L. destruct ts as [|t ts]; [inversion L|]. inversion L; subst; eauto. Qed.
Lemma laid_tokens (P : list token -> jstr -> Prop) :
  (forall t w, blanks w -> P [t] (text t ++ w)) ->
  (forall t u ts w s, blanks w -> w <> [] \/ touching (text t) (text u) -> laid (map text (u :: ts)) s -> P (u :: ts) s -> P (t :: u :: ts) (text t ++ w ++ s)) ->
  forall ts s, laid (map text ts) s -> P ts s.
Proof.
  intros ONE MORE ts s L. remember (map text ts) as ws eqn:W. revert ts W. induction L as [a w B|a b ws w s B T L IH]; intros ts W.
  - destruct ts as [|t [|u ts]]; try discriminate. injection W as ->. apply ONE, B.
  - destruct ts as [|t [|u ts]]; try discriminate. injection W as -> -> ->. apply MORE; auto.
Qed.
Lemma genuine_colon t : genuine t -> forall r, text t = ch ":" :: r -> False.
Proof.
  intros [P _] r E. pose proof (picks_shape _ _ _ P) as S. rewrite E in S. apply shape_cases in S.
  destruct S as [[_ F]|[F|[[F _]|[[F _]|[[_ [F _]]|[q [b [Q [_ V]]]]]]]]]; try discriminate.
  - clear -F. unfold symbols in F. cbn [In] in F. repeat (destruct F as [F|F]; [vm_compute in F; discriminate|]). contradiction.
  - injection V as V _. subst q. destruct Q; discriminate.
Qed.
Lemma genuine_third t a b : genuine t -> is_digit a = true -> is_digit b = true -> forall r, text t = a :: b :: ch ":" :: r -> False.
Proof.
  intros G A B r E. apply (genuine_not_time t [] G (or_introl eq_refl)). rewrite app_nil_r. exists a, b, r. auto.
Qed.
Lemma touching_first a c r r' : touching a (c :: r) -> touching a (c :: r').
Proof. intros T d b' E. injection E as <- _. apply (T c r eq_refl). Qed.

Lemma laid_not_time ts s : laid (map text ts) s -> Forall genuine ts -> ~ time_like s.
Proof.
  revert ts s. apply (laid_tokens (fun ts s => Forall genuine ts -> ~ time_like s)); [intros t w W G|intros t u ts w s W T L _ G]; intros [a [b [r [E [A B]]]]].
  - apply (genuine_not_time t w); [inversion G; assumption|apply blank_tail, W|]. exists a, b, r. auto.
  - assert (Gt : genuine t) by (inversion G; assumption). assert (Gs : Forall genuine (u :: ts)) by (inversion G; assumption).
    assert (Gu : genuine u) by (inversion Gs; assumption).
    destruct (laid_head _ _ L) as [u' [ts' [s' [Eu ->]]]]. injection Eu as <- <-.
    pose proof (genuine_nonnil t Gt) as Nt. pose proof (genuine_nonnil u Gu) as Nu.
    destruct (text t) as [|x [|x1 [|x2 l]]] eqn:X; [contradiction| | |].
    + cbn [app] in E. injection E as -> E. destruct w as [|c w].
      * destruct T as [T|T]; [contradiction|]. destruct (text u) as [|y l'] eqn:Y; [contradiction|]. injection E as -> _.
        destruct (T b l' eq_refl) as [T1 _]. cbn [last] in T1. rewrite <- (field_word a), <- (field_word b), (digit_field b B) in T1. discriminate (T1 (digit_field a A)).
      * injection E as -> _. inversion W as [|? ? H _]; subst. rewrite blank_is_ws, (digit_not_ws b B) in H. discriminate.
    + cbn [app] in E. injection E as -> -> E. destruct w as [|c w].
      * destruct (text u) as [|y l'] eqn:Y; [contradiction|]. injection E as -> _. apply (genuine_colon u Gu l' Y).
      * injection E as -> _. inversion W as [|? ? H _]; subst. discriminate.
    + cbn [app] in E. injection E as -> -> -> _. apply (genuine_third t a b Gt A B l X).
Qed.

Lemma laid_splits ts s : laid (map text ts) s -> Forall genuine ts -> exists ps, splits s ps /\ tokens_of ps = ts.
Proof.
  revert ts s. apply (laid_tokens (fun ts s => Forall genuine ts -> exists ps, splits s ps /\ tokens_of ps = ts)); [intros t w W G|intros t u ts w s W T L IH G].
  - assert (Gt : genuine t) by (inversion G; assumption). destruct (split_leading w [] [] W) as [ps [S E]]; [discriminate|constructor|].
    rewrite app_nil_r in S. cbn [tokens_of] in E. exists (Token t :: ps). split; [|cbn [tokens_of]; rewrite E; reflexivity].
    destruct t as [k v]. cbn [text] in *. apply split_token; [|apply Gt|exact S]. destruct (blank_tail w W) as [->|[c [r [-> C]]]].
    + rewrite app_nil_r. apply Gt.
    + apply (genuine_stop (Tok k v) c r Gt C). inversion W as [|? ? _ Br]; subst. rewrite <- (app_nil_r r). apply blanks_not_time; [exact Br|].
      intros [a [b [z [E1 _]]]]. discriminate.
  - assert (Gt : genuine t) by (inversion G; assumption). assert (Gs : Forall genuine (u :: ts)) by (inversion G; assumption).
    destruct (IH Gs) as [ps [SP E]]. destruct (laid_head _ _ L) as [u' [ts' [s' [Eu Es]]]]. injection Eu as <- <-.
    assert (Gu : genuine u) by (inversion Gs; assumption).
    assert (HD : exists c r, text u ++ s' = c :: r /\ is_ws c = false /\ exists r', text u = c :: r').
    { pose proof (genuine_nonnil u Gu). destruct (text u) as [|x l] eqn:X; [contradiction|]. exists x, (l ++ s'). split; [reflexivity|]. split; [apply (genuine_head u x l Gu X)|eauto]. }
    destruct HD as [c [r [HD [HC [r' HU]]]]].
    destruct (split_leading w s ps W) as [ps' [S' E']]; [|exact SP|].
    + intros c' q. rewrite Es, HD. intros X. injection X as <- _. exact HC.
    + exists (Token t :: ps'). split; [|cbn [tokens_of]; rewrite E', E; reflexivity].
      destruct t as [k v]. cbn [text] in *. apply split_token; [|apply Gt|exact S'].
      destruct w as [|b w].
      * cbn [app]. rewrite Es, HD. apply (genuine_touch (Tok k v) c r Gt HC). destruct T as [T|T]; [contradiction|]. rewrite HU in T. apply (touching_first _ _ _ _ T).
      * inversion W as [|? ? B W']; subst. apply (genuine_stop (Tok k v) b (w ++ text u ++ s') Gt); [rewrite <- blank_is_ws; exact B|].
        apply blanks_not_time; [exact W'|]. apply (laid_not_time _ _ L Gs).
Qed.
Lemma laid_out_lex ts s : Forall genuine ts -> laid_out (map text ts) s -> lex s = Ok ts.
Proof.
  intros G [[X B]|[w [s' [W [L ->]]]]].
  - destruct ts; [|discriminate]. apply (spaced_lex [] s G). constructor. exact B.
  - destruct (laid_splits ts s' L G) as [ps [S E]]. destruct (split_leading w s' ps W) as [ps' [S' E']]; [|exact S|rewrite (lex_splits _ _ S'), E', E; reflexivity].
    intros c r X. destruct (laid_head _ _ L) as [t [ts' [s2 [-> ->]]]]. assert (Gt : genuine t) by (inversion G; assumption).
    pose proof (genuine_nonnil t Gt). destruct (text t) as [|x l] eqn:Y; [contradiction|]. injection X as <- _. apply (genuine_head t x l Gt Y).
Qed.
