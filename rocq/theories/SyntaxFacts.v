(** The tokens of operands and operators. *)
From Verif Require Import Base JNum JNumFacts BigDec Dates Values Ops Funcs Ast Lexer Grammar Listener SpecArith SpecLex SpecDate SpecGrammar SpecSyntax
  NumFacts CacheFacts DateFacts LexFacts LexSplit LexWords LexApi.
Local Open Scope Z_scope.

(** ** Tokens with only one text *)
Lemma genuine_rule t : genuine t -> exists r, In (kind t, r) lexicon /\ matches r (text t).
Proof.
  intros [[_ [_ [[b [r [a [L [M _]]]]] _]]] _]. exists r. split; [|exact M]. rewrite L. apply in_or_app. right. left. reflexivity.
Qed.
Lemma genuine_canonical t : genuine t -> canonical t.
Proof.
  intros G. destruct (genuine_rule t G) as [r [I M]]. destruct t as [k w]. cbn [kind text] in *.
  assert (A : forall k0 w0, (forall r0, In (k0, r0) lexicon -> r0 = Word w0) -> k = k0 -> Tok k w = Tok k0 w0).
  { intros k0 w0 H ->. apply H in I. subst r. apply matches_word in M. subst w. reflexivity. }
  assert (B : forall k0 w0, forallb (fun p => negb (tkind_eqb (fst p) k0) || match snd p with Word v => jstr_eqb v w0 | _ => false end) lexicon = true ->
            forall r0, In (k0, r0) lexicon -> r0 = Word w0).
  { intros k0 w0 F r0 I0. rewrite forallb_forall in F. specialize (F _ I0). cbn [fst snd] in F. unfold tkind_eqb in F.
    destruct (tkind_eq_dec k0 k0) as [_|]; [|contradiction]. cbn [negb orb] in F. destruct r0; try discriminate. apply jstr_eqb_eq in F. subst. reflexivity. }
  unfold canonical. cbn [kind]. split; [|split; [|split; [|split]]].
  - apply A, B. vm_compute. reflexivity.
  - apply A, B. vm_compute. reflexivity.
  - apply A, B. vm_compute. reflexivity.
  - apply A, B. vm_compute. reflexivity.
  - intros ->. assert (F : forallb (fun p : tkind * re => negb (tkind_eqb (fst p) T_EOF)) lexicon = true) by (vm_compute; reflexivity).
    rewrite forallb_forall in F. specialize (F _ I). discriminate F.
Qed.
Lemma lex_canonical s ts : lex s = Ok ts -> Forall canonical ts.
Proof. intros H. apply lex_genuine in H. eapply Forall_impl; [|exact H]. apply genuine_canonical. Qed.

(** ** Operands *)
Lemma lex_one_genuine k w : lex w = Ok [Tok k w] -> genuine (Tok k w).
Proof. intros H. apply lex_genuine in H. inversion H. assumption. Qed.
Definition dots (l : jstr) : nat := length (filter (fun c => (c =? ch ".")%N) l).
Lemma dots_app a b : dots (a ++ b) = (dots a + dots b)%nat.
Proof. unfold dots. rewrite filter_app, app_length. reflexivity. Qed.
Lemma dots_digits l : forallb is_digit l = true -> dots l = 0%nat.
Proof.
  unfold dots. induction l as [|c l IH]; intros H; [reflexivity|]. cbn [forallb filter] in *. apply andb_true_iff in H. destruct H as [C H].
  destruct (N.eqb_spec c (ch ".")) as [->|_]; [discriminate|auto].
Qed.
Lemma version_text c ps : is_digit c = true -> (2 <= length ps)%nat -> Forall digits ps ->
  let w := c :: concat (map (fun p => J "." ++ p) ps) in
  forallb numeric_char w = true /\ matches (Cat digit (Plus ver_part)) w /\ ~ matches (cat [Plus digit; one "."; Plus digit]) w.
Proof.
  intros C L F w. subst w.
  assert (S0 : forall qs, Forall digits qs -> matches (Star ver_part) (concat (map (fun p => J "." ++ p) qs)) /\ forallb numeric_char (concat (map (fun p => J "." ++ p) qs)) = true).
  { induction 1 as [|p qs D _ IH]; [split; [constructor|reflexivity]|]. cbn [map concat]. destruct (digits_all p D) as [N H]. destruct IH as [A B]. split.
    - apply m_more; [|exact A]. destruct p as [|d ds]; [contradiction|]. cbn [forallb] in H. apply andb_true_iff in H. destruct H as [D1 D2].
      apply matches_ver_part. exists d, ds. auto.
    - rewrite !forallb_app, B. rewrite (forallb_impl _ _ p digit_numeric H). reflexivity. }
  destruct (S0 ps F) as [A B]. split; [|split].
  - cbn [forallb]. rewrite B, (digit_numeric c C). reflexivity.
  - apply matches_cat. exists [c], (concat (map (fun p => J "." ++ p) ps)). split; [reflexivity|]. split; [apply single_digit; eauto|].
    destruct ps as [|p ps]; [cbn in L; lia|]. inversion F; subst. cbn [map concat]. apply matches_cat. exists (J "." ++ p), (concat (map (fun p => J "." ++ p) ps)).
    split; [reflexivity|]. split; [|apply S0; assumption]. destruct (digits_all p H1) as [N H]. destruct p as [|d ds]; [contradiction|].
    cbn [forallb] in H. apply andb_true_iff in H. destruct H as [D1 D2]. apply matches_ver_part. exists d, ds. auto.
  - intros M. apply matches_decimal in M. destruct M as [x [y [E [_ [_ [DX DY]]]]]].
    change (ch "." :: y) with (J "." ++ y) in E. apply (f_equal dots) in E. rewrite !dots_app in E. rewrite (dots_digits x DX), (dots_digits y DY) in E.
    assert (CC : forall qs, Forall digits qs -> dots (concat (map (fun p => J "." ++ p) qs)) = length qs).
    { induction 1 as [|p qs D _ IH]; [reflexivity|]. cbn [map concat length]. rewrite !dots_app, IH, (dots_digits p); [reflexivity|apply digits_all, D]. }
    change (c :: concat (map (fun p => J "." ++ p) ps)) with ([c] ++ concat (map (fun p => J "." ++ p) ps)) in E.
    rewrite dots_app, (CC ps F), (dots_digits [c]) in E by (cbn; rewrite C; reflexivity). cbn in E. lia.
Qed.
Lemma version_genuine c ps : is_digit c = true -> (2 <= length ps)%nat -> Forall digits ps ->
  genuine (Tok T_APP_VERSION (c :: concat (map (fun p => J "." ++ p) ps))).
Proof.
  intros C L F. destruct (version_text c ps C L F) as [NW [M ND]]. split; cbn [kind text]; [|discriminate].
  assert (N0 : c :: concat (map (fun p => J "." ++ p) ps) <> []) by discriminate.
  assert (P : lexicon = firstn 35 lexicon ++ (T_APP_VERSION, Cat digit (Plus (Cat (one ".") (Plus digit)))) :: skipn 36 lexicon) by reflexivity.
  eapply (self_picks _ _ _ _ _ N0 P); [exact M|]. intros k r I.
  change (firstn 35 lexicon) with (firstn 34 lexicon ++ [(T_DECIMAL, cat [Plus digit; one "."; Plus digit])]) in I.
  apply in_app_or in I. destruct I as [I|I]; [apply (before_decimal _ k r N0 NW I)|].
  cbn [In] in I. destruct I as [I|[]]. injection I as <- <-. exact ND.
Qed.

(** Dates *)
Lemma before_date w k r c : In (ch "-") w -> w = c :: tl w -> is_digit c = true -> In (k, r) (firstn 37 lexicon) -> ~ matches r w.
Proof.
  intros D E C I M. change (firstn 37 lexicon) with (firstn 34 lexicon ++ firstn 3 (skipn 34 lexicon)) in I. apply in_app_or in I. destruct I as [I|I].
  - assert (W : forall v, matches (Word v) w -> match v with c :: _ => is_digit c | [] => false end = true).
    { intros v MV. apply matches_word in MV. subst v. rewrite E. exact C. }
    unfold lexicon in I. cbn [firstn In] in I.
    repeat (destruct I as [I|I]; [injection I as <- <-; repeat (apply matches_or in M; destruct M as [M|M]); apply W in M; vm_compute in M; discriminate|]). contradiction.
  - assert (ND : is_digit (ch "-") = false) by reflexivity.
    unfold lexicon in I. cbn [skipn firstn In] in I. destruct I as [I|[I|[I|[]]]]; injection I as <- <-.
    + apply matches_decimal in M. destruct M as [x [y [Ew [_ [_ [DX DY]]]]]]. rewrite Ew in D. rewrite forallb_forall in DX, DY.
      apply in_app_or in D. destruct D as [D|[D|D]]; [apply DX in D; congruence|discriminate|apply DY in D; congruence].
    + change (Cat (one ".") (Plus digit)) with ver_part in M. apply matches_version in M. destruct M as [c' [v [Ew [D' V]]]]. rewrite Ew in D.
      assert (V' : ver_ok WantDot v = true -> ~ In (ch "-") v).
      { clear. assert (G : forall u st, ver_ok st u = true -> ~ In (ch "-") u).
        { induction u as [|x u IH]; intros st H I; [exact I|]; destruct I as [I|I]; cbn [ver_ok] in H.
          - subst x. destruct st; cbn in H; discriminate.
          - destruct st; [apply andb_true_iff in H; destruct H as [_ H]; exact (IH _ H I)|apply andb_true_iff in H; destruct H as [_ H]; exact (IH _ H I)|].
            destruct (is_digit x); [exact (IH _ H I)|apply andb_true_iff in H; destruct H as [_ H]; exact (IH _ H I)]. }
        apply G. }
      destruct D as [D|D]; [subst c'; discriminate|exact (V' V D)].
    + apply (matches_plus _ _ _ single_digit) in M. destruct M as [_ M]. rewrite forallb_forall in M. apply M in D. discriminate.
Qed.
Lemma numeral2 n a : numeral 2 n a -> exists x y, a = [x; y] /\ is_digit x = true /\ is_digit y = true.
Proof.
  intros [L [D _]]. destruct a as [|x [|y [|]]]; try discriminate L. unfold all_digits in D. cbn in D.
  apply andb_true_iff in D. destruct D as [D1 D2]. apply andb_true_iff in D2. destruct D2 as [D2 _]. eauto.
Qed.
Lemma numeral4 n a : numeral 4 n a -> exists x y z w, a = [x; y; z; w] /\ is_digit x = true /\ is_digit y = true /\ is_digit z = true /\ is_digit w = true.
Proof.
  intros [L [D _]]. destruct a as [|x [|y [|z [|w [|]]]]]; try discriminate L. unfold all_digits in D. cbn in D.
  repeat (apply andb_true_iff in D; destruct D as [? D]). exists x, y, z, w. auto.
Qed.
Lemma date_classes_text s a : length s = 10%nat -> written_date s a -> matches_classes date_classes s = true /\ In (ch "-") s /\ exists c, s = c :: tl s /\ is_digit c = true.
Proof.
  intros L (y & m & d & n & (p & q & r & Y & M & D & ->) & _).
  destruct (numeral2 _ _ M) as (m1 & m2 & -> & M1 & M2). destruct (numeral2 _ _ D) as (d1 & d2 & -> & D1 & D2).
  destruct Y as [Y|(ds & -> & Ld & _)].
  - destruct (numeral4 _ _ Y) as (y1 & y2 & y3 & y4 & -> & Y1 & Y2 & Y3 & Y4). split; [|split].
    + cbn. rewrite Y1, Y2, Y3, Y4, M1, M2, D1, D2. reflexivity.
    + cbn. tauto.
    + exists y1. auto.
  - exfalso. rewrite !app_length in L. cbn in L. lia.
Qed.
Lemma date_single : Forall2 single [digit; digit; digit; digit; one "-"; digit; digit; one "-"; digit; digit] date_classes.
Proof. repeat (apply Forall2_cons; [first [apply single_digit|apply single_word]|]); apply Forall2_nil. Qed.
Lemma datetime_single : Forall2 single
  [digit; digit; digit; digit; one "-"; digit; digit; one "-"; digit; digit; one " "; digit; digit; one ":"; digit; digit; one ":"; digit; digit] datetime_classes.
Proof. repeat (apply Forall2_cons; [first [apply single_digit|apply single_word]|]); apply Forall2_nil. Qed.
Lemma date_genuine s a : length s = 10%nat -> written_date s a -> genuine (Tok T_DATE s).
Proof.
  intros L W. destruct (date_classes_text s a L W) as [M [D [c [E C]]]]. split; cbn [kind text]; [|discriminate].
  assert (N0 : s <> []) by (rewrite E; discriminate).
  assert (P : lexicon = firstn 37 lexicon ++ (T_DATE, date_re) :: skipn 38 lexicon) by reflexivity.
  eapply (self_picks _ _ _ _ _ N0 P).
  - apply (matches_cat_classes _ _ s date_single). split; [exact M|exact L].
  - intros k r I. exact (before_date s k r c D E C I).
Qed.
Lemma datetime_genuine s x : length s = 19%nat -> written_datetime s x -> genuine (Tok T_DATETIME s).
Proof.
  intros L (p & q & a & h & mi & se & E & W & (ha & mb & sc & H1 & H2 & H3 & ->) & _).
  destruct (numeral2 _ _ H1) as (h1 & h2 & -> & A1 & A2). destruct (numeral2 _ _ H2) as (m1 & m2 & -> & B1 & B2).
  destruct (numeral2 _ _ H3) as (s1 & s2 & -> & C1 & C2).
  assert (Lp : length p = 10%nat) by (rewrite E, !app_length in L; cbn in L; lia).
  destruct (date_classes_text p a Lp W) as [M [D [c [Ep C]]]].
  assert (N0 : s <> []) by (rewrite E, Ep; discriminate).
  assert (P : lexicon = firstn 38 lexicon ++ (T_DATETIME, datetime_re) :: skipn 39 lexicon) by reflexivity.
  split; cbn [kind text]; [|discriminate]. eapply (self_picks _ _ _ _ _ N0 P).
  - apply (matches_cat_classes _ _ s datetime_single). split; [|rewrite L; reflexivity]. rewrite E.
    clear -M Lp A1 A2 B1 B2 C1 C2.
    assert (G : forall cs p, matches_classes cs p = true -> length p = length cs -> forall cs2 q, matches_classes cs2 q = true -> matches_classes (cs ++ cs2) (p ++ q) = true).
    { induction cs as [|c cs IH]; intros p' H Lp' cs2 q Hq; destruct p' as [|y p']; try discriminate Lp'; [exact Hq|]. cbn [matches_classes app] in *.
      apply andb_true_iff in H. destruct H as [H1 H2]. rewrite H1. apply IH; auto. }
    apply (G date_classes p M Lp). cbn. rewrite A1, A2, B1, B2, C1, C2. reflexivity.
  - intros k r I Mr. change (firstn 38 lexicon) with (firstn 37 lexicon ++ [(T_DATE, date_re)]) in I. apply in_app_or in I. destruct I as [I|[I|[]]].
    + apply (before_date s k r c) with (4 := I) (5 := Mr); [rewrite E; apply in_or_app; left; exact D|rewrite E, Ep; reflexivity|exact C].
    + injection I as <- <-. apply (matches_cat_classes _ _ s date_single) in Mr. destruct Mr as [_ Mr]. rewrite L in Mr. discriminate.
Qed.

(** Every operand is one token, and the listener makes the right tree of it. *)
Lemma genuine_not_blank t : genuine t -> is_blank (text t) = false.
Proof.
  intros G. pose proof (genuine_nonnil t G) as N. unfold is_blank. destruct (text t) as [|c w] eqn:T; [contradiction|]. cbn [forallb]. rewrite (genuine_head t c w G T). reflexivity.
Qed.
Lemma map_literal dflt k w : genuine (Tok k w) -> k <> T_FIELD ->
  map_types_token dflt (Tok k w) = (v <- convert_value w (token_data_type (Tok k w)) ;; Ok (NUnary (token_data_type (Tok k w)) v)).
Proof. intros G K. apply genuine_not_blank in G. unfold map_types_token. cbn [kind text] in *. rewrite G. destruct k; try reflexivity. contradiction. Qed.
Lemma operand_token w n : operand w n ->
  exists k, genuine (Tok k w) /\ operand_kind k /\ forall dflt, map_types_token dflt (Tok k w) = Ok n.
Proof.
  intros O. destruct O.
  - exists T_FIELD. split; [apply field_genuine, H|]. split; [cbn; tauto|]. intros dflt. unfold map_types_token. cbn [kind text]. rewrite (field_not_blank f H). reflexivity.
  - exists T_INTEGER. pose proof (integer_genuine ds H) as G. split; [exact G|]. split; [cbn; tauto|]. intros dflt. rewrite (map_literal _ _ _ G) by discriminate.
    destruct (digits_all ds H) as [N D]. unfold token_data_type, numeric_data_type, convert_value, parse_int, parse_long. cbn [kind text]. rewrite (parse_integer_digits ds N D), <- natural_val.
    unfold fits32 in H0. rewrite <- in_int_iff in H0. rewrite H0. reflexivity.
  - exists T_INTEGER. pose proof (integer_genuine ds H) as G. split; [exact G|]. split; [cbn; tauto|]. intros dflt. rewrite (map_literal _ _ _ G) by discriminate.
    destruct (digits_all ds H) as [N D]. unfold token_data_type, numeric_data_type, convert_value, parse_int, parse_long. cbn [kind text]. rewrite (parse_integer_digits ds N D), <- natural_val.
    unfold fits32, fits64 in *. rewrite <- in_int_iff in H0. rewrite <- in_long_iff in H1. rewrite H1. destruct (in_int (natural ds)); [contradiction|reflexivity].
  - exists T_DECIMAL. pose proof (decimal_genuine a b H H0) as G. split; [exact G|]. split; [cbn; tauto|]. intros dflt. rewrite (map_literal _ _ _ G) by discriminate.
    destruct (digits_all a H) as [NA HA]. destruct (digits_all b H0) as [NB HB]. unfold token_data_type. cbn [kind]. unfold convert_value.
    destruct a as [|c a]; [contradiction|]. pose proof HA as HA'. cbn [forallb] in HA. apply andb_true_iff in HA. destruct HA as [HC HA].
    rewrite (parse_bigdec_unsigned ((c :: a) ++ J "." ++ b) c (a ++ J "." ++ b) eq_refl HC).
    change ((c :: a) ++ J "." ++ b) with ((c :: a) ++ ch "." :: b). rewrite (parse_unsigned_point (c :: a) b NA HA' HB), <- natural_val. reflexivity.
  - exists T_WORD. pose proof (quoted_genuine q s H H0) as G. split; [exact G|]. split; [cbn; tauto|]. intros dflt. rewrite (map_literal _ _ _ G) by discriminate.
    unfold token_data_type. cbn [kind]. rewrite (convert_quoted q s H). reflexivity.
  - exists T_TRUE. cbn [In] in H. assert (G : genuine (Tok T_TRUE w)) by (destruct H as [<-|[<-|[]]]; apply lex_one_genuine; vm_compute; reflexivity).
    split; [exact G|]. split; [cbn; tauto|]. intros dflt. destruct H as [<-|[<-|[]]]; reflexivity.
  - exists T_FALSE. cbn [In] in H. assert (G : genuine (Tok T_FALSE w)) by (destruct H as [<-|[<-|[]]]; apply lex_one_genuine; vm_compute; reflexivity).
    split; [exact G|]. split; [cbn; tauto|]. intros dflt. destruct H as [<-|[<-|[]]]; reflexivity.
  - exists T_APP_VERSION. pose proof (version_genuine c ps H H0 H1) as G. split; [exact G|]. split; [cbn; tauto|]. intros dflt. subst w. rewrite (map_literal _ _ _ G) by discriminate. reflexivity.
  - exists T_DATE. pose proof (date_genuine s a H H0) as G. split; [exact G|]. split; [cbn; tauto|]. intros dflt. rewrite (map_literal _ _ _ G) by discriminate.
    unfold token_data_type, convert_value. cbn [kind]. apply parse_date_spec in H0. rewrite H0. reflexivity.
  - exists T_DATETIME. pose proof (datetime_genuine s x H H0) as G. split; [exact G|]. split; [cbn; tauto|]. intros dflt. rewrite (map_literal _ _ _ G) by discriminate.
    unfold token_data_type, convert_value. cbn [kind]. apply parse_datetime_spec in H0. rewrite H0. reflexivity.
Qed.
Lemma genuine_kind k k' w : genuine (Tok k w) -> genuine (Tok k' w) -> k = k'.
Proof. intros [P _] [P' _]. cbn [kind text] in *. exact (proj1 (picks_unique _ _ _ _ _ P P')). Qed.
Lemma operand_mapped k w n dflt : genuine (Tok k w) -> operand w n -> operand_kind k /\ map_types_token dflt (Tok k w) = Ok n.
Proof. intros G O. destruct (operand_token w n O) as [k' [G' [K M]]]. rewrite (genuine_kind _ _ _ G G'). auto. Qed.

(** ** Operators *)
Ltac table_tac I := cbn [In] in I; repeat (destruct I as [I|I]; [injection I as <- <-|]); try contradiction.
Lemma comparator_kind k w op : genuine (Tok k w) -> In (w, op) comparators -> comparator k /\ operator_of k = op.
Proof.
  intros G I. destruct (comparator_token w op I) as [k' [G' [C O]]]. rewrite (genuine_kind _ _ _ G G'). split; [|exact O].
  destruct k'; try discriminate C; cbn; tauto.
Qed.
Lemma arithmetic_token w op : In (w, op) arithmetic_symbols -> exists k, genuine (Tok k w) /\ arithmetic_op k /\ operator_of k = op.
Proof.
  unfold arithmetic_symbols. intros I.
  table_tac I; [exists T_ADD|exists T_SUBTRACT|exists T_MULTIPLY|exists T_DIVIDE|exists T_MODULUS|exists T_EXPONENT];
    (split; [apply lex_one_genuine; vm_compute; reflexivity|split; [cbn; tauto|reflexivity]]).
Qed.
Lemma arithmetic_kind k w op : genuine (Tok k w) -> In (w, op) arithmetic_symbols -> arithmetic_op k /\ operator_of k = op.
Proof. intros G I. destruct (arithmetic_token w op I) as [k' [G' [C O]]]. rewrite (genuine_kind _ _ _ G G'). auto. Qed.
Lemma connective_token w op : In (w, op) connectives -> exists k, genuine (Tok k w) /\ connective k /\ logical_operator k = op.
Proof.
  unfold connectives. intros I.
  table_tac I; [exists T_AND|exists T_AND|exists T_AND|exists T_OR|exists T_OR|exists T_OR];
    (split; [apply lex_one_genuine; vm_compute; reflexivity|split; [cbn; tauto|reflexivity]]).
Qed.
Lemma connective_kind k w op : genuine (Tok k w) -> In (w, op) connectives -> connective k /\ logical_operator k = op.
Proof. intros G I. destruct (connective_token w op I) as [k' [G' [C O]]]. rewrite (genuine_kind _ _ _ G G'). auto. Qed.
Lemma function_token w fn : In (w, fn) function_names -> exists k, genuine (Tok k w) /\ function_kind k /\ function_of k = Some fn.
Proof.
  unfold function_names. intros I.
  table_tac I; [exists T_MIN|exists T_MIN|exists T_MAX|exists T_MAX|exists T_AVG|exists T_AVG|exists T_SUM|exists T_SUM|exists T_MEAN|exists T_MEAN|exists T_MODE|exists T_MODE
    |exists T_MEDIAN|exists T_MEDIAN|exists T_LEN|exists T_LEN|exists T_INT|exists T_INT|exists T_DAYS_ELAPSED|exists T_DAYS_ELAPSED];
    (split; [apply lex_one_genuine; vm_compute; reflexivity|split; [cbn; tauto|reflexivity]]).
Qed.
Lemma function_kind_of k w fn : genuine (Tok k w) -> In (w, fn) function_names -> function_kind k /\ function_of k = Some fn.
Proof. intros G I. destruct (function_token w fn I) as [k' [G' [C O]]]. rewrite (genuine_kind _ _ _ G G'). auto. Qed.
Lemma array_token w op : In (w, op) array_operators -> exists k, genuine (Tok k w) /\ (k = T_CONTAINS_ALL \/ k = T_CONTAINS_ANY) /\ operator_of k = op.
Proof.
  unfold array_operators. intros I.
  table_tac I; [exists T_CONTAINS_ALL|exists T_CONTAINS_ALL|exists T_CONTAINS_ANY|exists T_CONTAINS_ANY];
    (split; [apply lex_one_genuine; vm_compute; reflexivity|split; [cbn; tauto|reflexivity]]).
Qed.
Lemma array_kind k w op : genuine (Tok k w) -> In (w, op) array_operators -> (k = T_CONTAINS_ALL \/ k = T_CONTAINS_ANY) /\ operator_of k = op.
Proof. intros G I. destruct (array_token w op I) as [k' [G' [C O]]]. rewrite (genuine_kind _ _ _ G G'). auto. Qed.
