(** Splitting a text into tokens: totality, determinism, irrelevance of white space, words. *)
From Verif Require Import Base Lexer SpecLex NumFacts CacheFacts LexFacts.

(** ** What a token can look like *)
Definition symbols : list jstr :=
  [J ","; J "&&"; J "||"; J "+"; J "-"; J "*"; J "/"; J "%"; J "^"; J "!="; J ">"; J ">="; J "<"; J "<="; J "="; J "("; J ")"].
Inductive shape : tkind -> jstr -> Prop :=
| sh_word k w : w <> [] -> forallb is_field_char w = true -> shape k w
| sh_sym k w : In w symbols -> shape k w
| sh_date w : matches_classes date_classes w = true -> length w = length date_classes -> shape T_DATE w
| sh_datetime w : matches_classes datetime_classes w = true -> length w = length datetime_classes -> shape T_DATETIME w
| sh_blank w : w <> [] -> forallb is_ws w = true -> shape T_WS w
| sh_quote k q body : q = ch "'" \/ q = 34%N -> forallb (fun c => negb (c =? q)%N) body = true -> shape k (q :: body ++ [q]).

Lemma shape_cases k w : shape k w ->
  (w <> [] /\ forallb is_field_char w = true) \/ In w symbols \/
  (matches_classes date_classes w = true /\ k = T_DATE) \/ (matches_classes datetime_classes w = true /\ k = T_DATETIME) \/
  (w <> [] /\ forallb is_ws w = true /\ k = T_WS) \/
  exists q body, (q = ch "'" \/ q = 34%N) /\ forallb (fun c => negb (c =? q)%N) body = true /\ w = q :: body ++ [q].
Proof.
  destruct 1; [left|right; left|do 2 right; left|do 3 right; left|do 4 right; left|do 5 right]; try (split; auto; fail); try assumption.
  exists q, body. split; [assumption|]. split; [assumption|reflexivity].
Qed.
Lemma forallb_impl {A} (p q : A -> bool) l : (forall c, p c = true -> q c = true) -> forallb p l = true -> forallb q l = true.
Proof. intros I H. apply forallb_forall. intros x X. apply I. rewrite forallb_forall in H. apply H, X. Qed.
Lemma digit_field c : is_digit c = true -> is_field_char c = true.
Proof. intros H. unfold is_field_char, is_alnum. rewrite H. reflexivity. Qed.
Lemma quote_shape k q w : q = ch "'" \/ q = 34%N -> matches (quoted q) w -> shape k w.
Proof. intros Q M. apply matches_quoted in M. destruct M as [b [-> H]]. apply sh_quote; assumption. Qed.
Lemma ver_ok_field st w : ver_ok st w = true -> forallb is_field_char w = true.
Proof.
  revert st. induction w as [|c w IH]; intros st H; [reflexivity|]. cbn [forallb]. destruct st; cbn [ver_ok] in H.
  - apply andb_true_iff in H. destruct H as [C H]. apply N.eqb_eq in C. subst c. rewrite (IH _ H). reflexivity.
  - apply andb_true_iff in H. destruct H as [C H]. rewrite (digit_field c C), (IH _ H). reflexivity.
  - destruct (is_digit c) eqn:D.
    + rewrite (digit_field c D), (IH _ H). reflexivity.
    + apply andb_true_iff in H. destruct H as [C H]. apply N.eqb_eq in C. subst c. rewrite (IH _ H). reflexivity.
Qed.
Lemma word_shape k v w : matches (Word v) w -> forallb is_field_char v = true /\ v <> [] \/ In v symbols -> shape k w.
Proof. intros M H. apply matches_word in M. subst w. destruct H as [[H N]|H]; [apply sh_word; assumption|apply sh_sym; exact H]. Qed.
Ltac solve_word := first
  [ left; split; [vm_compute; reflexivity|vm_compute; discriminate]
  | right; vm_compute; repeat (first [left; reflexivity|right]) ].
Lemma rule_shape k r w : In (k, r) lexicon -> matches r w -> shape k w.
Proof.
  intros I M. unfold lexicon in I. cbn [In] in I.
  repeat (destruct I as [I|I];
    [injection I as <- <-;
     first [ apply (word_shape _ _ _ M); solve_word
           | apply matches_or in M; destruct M as [M|M]; apply (word_shape _ _ _ M); solve_word
           | apply matches_or in M; destruct M as [M|M]; [apply (word_shape _ _ _ M); solve_word|];
             apply matches_or in M; destruct M as [M|M]; apply (word_shape _ _ _ M); solve_word
           | apply (quote_shape _ _ _ (or_introl eq_refl) M)
           | apply (quote_shape _ _ _ (or_intror eq_refl) M)
           | apply matches_or in M; destruct M as [M|M]; [apply (quote_shape _ _ _ (or_introl eq_refl) M)|apply (quote_shape _ _ _ (or_intror eq_refl) M)]
           | idtac ]|]); try contradiction.
  - apply matches_decimal in M. destruct M as [a [b [-> [A [B [DA DB]]]]]]. apply sh_word.
    + destruct a; discriminate.
    + rewrite forallb_app. cbn [forallb]. rewrite (forallb_impl _ _ a digit_field DA), (forallb_impl _ _ b digit_field DB). reflexivity.
  - change (Cat (one ".") (Plus digit)) with ver_part in M. apply matches_version in M. destruct M as [c [v [-> [D V]]]].
    apply sh_word; [discriminate|]. cbn [forallb]. rewrite (digit_field c D), (ver_ok_field _ _ V). reflexivity.
  - apply (matches_plus _ _ _ single_digit) in M. apply sh_word; [apply M|]. apply (forallb_impl _ _ w digit_field), M.
  - unfold date_re in M. eapply (matches_cat_classes _ date_classes) in M; [apply sh_date; apply M|].
    repeat (apply Forall2_cons; [first [apply single_digit|apply single_word]|]). apply Forall2_nil.
  - unfold datetime_re in M. eapply (matches_cat_classes _ datetime_classes) in M; [apply sh_datetime; apply M|].
    repeat (apply Forall2_cons; [first [apply single_digit|apply single_word]|]). apply Forall2_nil.
  - apply (matches_plus _ _ _ (single_any blank)) in M. apply sh_blank; [apply M|]. apply (forallb_impl blank); [intros c; rewrite blank_is_ws; auto|apply M].
  - apply (matches_plus _ _ _ single_field) in M. apply sh_word; apply M.
  - apply matches_any in M. destruct M as [c [-> H]]. apply sh_word; [discriminate|]. cbn [forallb]. unfold is_field_char.
    change (is_alnum c) with (letter_or_digit c). rewrite H. reflexivity.
Qed.

(** ** Rules by position *)
Lemma in_field : In (T_FIELD, Plus (Or (Any letter_or_digit) (Or (one "_") (one ".")))) lexicon.
Proof. unfold lexicon. cbn [In]. repeat (first [left; reflexivity|right]). Qed.
Lemma in_ws : In (T_WS, Plus (Any blank)) lexicon.
Proof. unfold lexicon. cbn [In]. repeat (first [left; reflexivity|right]). Qed.
Lemma in_word : In (T_WORD, Or (quoted (ch "'")) (quoted 34%N)) lexicon.
Proof. unfold lexicon. cbn [In]. repeat (first [left; reflexivity|right]). Qed.
Lemma field_matches w : w <> [] -> forallb is_field_char w = true -> matches (Plus (Or (Any letter_or_digit) (Or (one "_") (one ".")))) w.
Proof. intros N H. apply (matches_plus _ _ _ single_field). auto. Qed.
Lemma ws_matches w : w <> [] -> forallb is_ws w = true -> matches (Plus (Any blank)) w.
Proof. intros N H. apply (matches_plus _ _ _ (single_any blank)). split; [exact N|]. apply (forallb_impl is_ws); [intros c; rewrite blank_is_ws; auto|exact H]. Qed.
Lemma symbol_rule w : In w symbols -> exists k r, In (k, r) lexicon /\ matches r w.
Proof.
  intros I. unfold symbols in I. cbn [In] in I.
  repeat (destruct I as [<-|I]); try contradiction;
  first [ refine (ex_intro _ _ (ex_intro _ (Word _) (conj _ (m_word _)))); unfold lexicon, one; cbn [In]; repeat (first [left; reflexivity|right]); fail
        | idtac ].
  - exists T_AND, (Or (one "AND") (Or (one "and") (one "&&"))). split; [unfold lexicon; cbn [In]; repeat (first [left; reflexivity|right])|].
    apply m_right, m_right. constructor.
  - exists T_OR, (Or (one "OR") (Or (one "or") (one "||"))). split; [unfold lexicon; cbn [In]; repeat (first [left; reflexivity|right])|].
    apply m_right, m_right. constructor.
Qed.

Lemma some_match s k r w rest : In (k, r) lexicon -> matches r w -> s = w ++ rest -> w <> [] -> exists k' w', picks s k' w'.
Proof.
  intros I M E N. destruct (best_match s) as [k' n] eqn:B. destruct (Nat.eq_dec n 0) as [->|NZ].
  - exfalso. destruct (best_fold s k' 0%nat B) as [MAX _].
    destruct (Forall2_in_l _ _ _ _ table_agrees I) as [[k2 f2] [I2 [K2 M2]]]. specialize (MAX _ I2). cbn [snd] in *.
    destruct (M2 s) as [_ [_ UP]]. specialize (UP w rest E M). destruct w; [contradiction|]. cbn [length] in UP. lia.
  - destruct (best_picks s k' n B NZ) as [P _]. eauto.
Qed.

(** ** Dropped characters *)
Lemma has_quote q s : forallb (fun c => negb (c =? q)%N) s = true \/ exists b rest, s = b ++ q :: rest /\ forallb (fun c => negb (c =? q)%N) b = true.
Proof.
  induction s as [|c s IH]; [left; reflexivity|]. destruct (N.eqb_spec c q) as [->|NE].
  - right. exists [], s. split; reflexivity.
  - destruct IH as [IH|[b [rest [-> H]]]].
    + left. cbn [forallb]. rewrite IH. apply N.eqb_neq in NE. rewrite NE. reflexivity.
    + right. exists (c :: b), rest. split; [reflexivity|]. cbn [forallb]. rewrite H. apply N.eqb_neq in NE. rewrite NE. reflexivity.
Qed.
Lemma first_class p ps c s : matches_classes (p :: ps) (c :: s) = true -> p c = true.
Proof. cbn [matches_classes]. intros H. apply andb_true_iff in H. apply H. Qed.

Lemma viable_nil : viable [].
Proof. exists T_FIELD, (Plus (Or (Any letter_or_digit) (Or (one "_") (one ".")))), (J "a"). split; [apply in_field|]. apply field_matches; [discriminate|reflexivity]. Qed.
Lemma sym_viable v u : In (v ++ u) symbols -> viable v.
Proof. intros I. destruct (symbol_rule _ I) as [k [r [L M]]]. exists k, r, u. auto. Qed.

Lemma first_units s : firstn (char_units s) s = first_character s.
Proof. destruct s as [|c [|d s]]; [reflexivity|reflexivity|]. cbn [char_units first_character]. change (high_surrogate c && low_surrogate d) with (is_high c && is_low d). destruct (is_high c && is_low d); reflexivity. Qed.
Lemma units_positive c s : (0 < char_units (c :: s))%nat.
Proof. destruct s as [|d s]; cbn; [lia|]. destruct (is_high c && is_low d); lia. Qed.
Lemma error_drops c s : (forall k w, ~ picks (c :: s) k w) -> drops (c :: s) (firstn (error_skip (c :: s)) (c :: s)).
Proof.
  intros NO.
  assert (NM : forall k r w rest, In (k, r) lexicon -> matches r w -> c :: s = w ++ rest -> w <> [] -> False).
  { intros k r w rest I M E N. destruct (some_match _ _ _ _ _ I M E N) as [k' [w' P]]. exact (NO _ _ P). }
  assert (NF : is_field_char c = false).
  { destruct (is_field_char c) eqn:F; [|reflexivity]. exfalso. apply (NM _ _ [c] s in_field); [|reflexivity|discriminate].
    apply field_matches; [discriminate|]. cbn. rewrite F. reflexivity. }
  assert (NW : is_ws c = false).
  { destruct (is_ws c) eqn:F; [|reflexivity]. exfalso. apply (NM _ _ [c] s in_ws); [|reflexivity|discriminate].
    apply ws_matches; [discriminate|]. cbn. rewrite F. reflexivity. }
  assert (ND : is_digit c = false) by (destruct (is_digit c) eqn:D; [rewrite (digit_field c D) in NF; discriminate|reflexivity]).
  assert (NS : forall w rest, In w symbols -> c :: s = w ++ rest -> w <> [] -> False).
  { intros w rest I E N. destruct (symbol_rule w I) as [k [r [L M]]]. exact (NM k r w rest L M E N). }
  unfold error_skip. destruct ((c =? ch "'")%N || (c =? 34)%N) eqn:Q.
  - (* an unclosed quote *)
    assert (QQ : c = ch "'" \/ c = 34%N) by (apply orb_true_iff in Q; destruct Q as [Q|Q]; apply N.eqb_eq in Q; auto).
    assert (QM : forall b, forallb (fun x => negb (x =? c)%N) b = true -> matches (Or (quoted (ch "'")) (quoted 34%N)) (c :: b ++ [c])).
    { intros b H. destruct QQ as [-> | ->]; [apply m_left|apply m_right]; apply matches_quoted; eauto. }
    destruct (has_quote c s) as [H|[b [rest [-> H]]]].
    + rewrite firstn_all. exists (c :: s), []. split; [symmetry; apply app_nil_r|]. split.
      * exists T_WORD, (Or (quoted (ch "'")) (quoted 34%N)), [c]. split; [apply in_word|apply QM, H].
      * split; [|symmetry; apply app_nil_r]. intros p' rest' E _. rewrite E, app_length. lia.
    + exfalso. apply (NM _ _ (c :: b ++ [c]) rest in_word (QM b H)); [|discriminate]. cbn [app]. rewrite <- app_assoc. reflexivity.
  - apply orb_false_iff in Q. destruct Q as [Q1 Q2]. apply N.eqb_neq in Q1, Q2.
    destruct ((c =? ch "!")%N || (c =? ch "&")%N || (c =? ch "|")%N) eqn:O.
    + assert (V : exists d, In [c; d] symbols /\ forall w, In (c :: w) symbols -> w = [d]).
      { apply orb_true_iff in O. rewrite orb_true_iff in O. rewrite !N.eqb_eq in O. destruct O as [[-> | ->]| ->].
        - exists (ch "="). split; [vm_compute; tauto|]. intros w I. vm_compute in I.
          repeat (destruct I as [I|I]; [try discriminate; injection I as <-; reflexivity|]). contradiction.
        - exists (ch "&"). split; [vm_compute; tauto|]. intros w I. vm_compute in I.
          repeat (destruct I as [I|I]; [try discriminate; injection I as <-; reflexivity|]). contradiction.
        - exists (ch "|"). split; [vm_compute; tauto|]. intros w I. vm_compute in I.
          repeat (destruct I as [I|I]; [try discriminate; injection I as <-; reflexivity|]). contradiction. }
      destruct V as [d [I V]]. exists [c], s. split; [reflexivity|]. split; [apply (sym_viable [c] [d]), I|]. split.
      * intros p' rest' E [k [r [u [L M]]]]. destruct p' as [|x p']; [cbn; lia|]. injection E as <- E.
        destruct p' as [|y p']; [cbn; lia|]. exfalso. apply (rule_shape _ _ _ L) in M. cbn [app] in M.
        remember (c :: y :: p' ++ u) as z eqn:Z. destruct M as [k w _ H|k w H|w H _|w H _|w _ H|k q body QQ H]; subst; try injection Z as -> Z.
        -- cbn [forallb] in H. rewrite NF in H. discriminate.
        -- apply V in H. injection H as -> _. apply (NS [c; d] (p' ++ rest') I); [reflexivity|discriminate].
        -- apply first_class in H. congruence.
        -- apply first_class in H. congruence.
        -- cbn [forallb] in H. rewrite NW in H. discriminate.
        -- destruct QQ; contradiction.
      * cbn [firstn app]. rewrite first_units. reflexivity.
    + apply orb_false_iff in O. destruct O as [O O3]. apply orb_false_iff in O. destruct O as [O1 O2]. apply N.eqb_neq in O1, O2, O3.
      exists [], (c :: s). split; [reflexivity|]. split; [apply viable_nil|]. split; [|rewrite first_units; reflexivity].
      intros p' rest' E [k [r [u [L M]]]]. destruct p' as [|x p']; [cbn; lia|]. injection E as <- E. exfalso.
      apply (rule_shape _ _ _ L) in M. cbn [app] in M.
      remember (c :: p' ++ u) as z eqn:Z. destruct M as [k w _ H|k w H|w H _|w H _|w _ H|k q body QQ H]; subst; try injection Z as -> Z.
      * cbn [forallb] in H. rewrite NF in H. discriminate.
      * assert (I : In [c] symbols).
        { unfold symbols in H. cbn [In] in H.
          repeat (destruct H as [H|H]; [try (vm_compute in H; injection H as <- _; first [vm_compute; tauto|exfalso; first [apply O1; reflexivity|apply O2; reflexivity|apply O3; reflexivity]])|]). contradiction. }
        eapply (NS [c] _ I); [reflexivity|discriminate].
      * apply first_class in H. congruence.
      * apply first_class in H. congruence.
      * cbn [forallb] in H. rewrite NW in H. discriminate.
      * destruct QQ; contradiction.
Qed.
Lemma prefix_same (s p r p' r' : jstr) : s = p ++ r -> s = p' ++ r' -> length p = length p' -> p = p' /\ r = r'.
Proof.
  intros E E' L. rewrite E in E'. split.
  - apply (f_equal (firstn (length p))) in E'. rewrite firstn_app_exact, L, firstn_app_exact in E'. exact E'.
  - apply (f_equal (skipn (length p))) in E'. rewrite skipn_app_exact, L, skipn_app_exact in E'. exact E'.
Qed.
Lemma drops_unique s w w' : drops s w -> drops s w' -> w = w'.
Proof.
  intros [p [r [E [V [MAX W]]]]] [p' [r' [E' [V' [MAX' W']]]]].
  destruct (prefix_same s p r p' r' E E') as [-> ->]; [apply Nat.le_antisymm; [eapply MAX'; eauto|eapply MAX; eauto]|]. congruence.
Qed.

(** ** Totality *)
Lemma lex_from_splits fuel : forall s, (length s <= fuel)%nat -> exists ps, splits s ps /\ lex_from fuel s = Ok (tokens_of ps).
Proof.
  induction fuel as [|fuel IH]; intros s L.
  - destruct s; [|cbn in L; lia]. exists []. split; [constructor|reflexivity].
  - destruct s as [|c s]; [exists []; split; [constructor|reflexivity]|].
    cbn [lex_from]. destruct (best_match (c :: s)) as [k n] eqn:B. destruct n as [|n].
    + pose proof (best_none _ _ B) as NO. pose proof (error_drops c s NO) as D.
      set (m := error_skip (c :: s)) in *.
      assert (P : (0 < m)%nat).
      { unfold m, error_skip. destruct (_ || _); [cbn [length]; lia|]. destruct (_ || _); [lia|apply units_positive]. }
      destruct (IH (skipn m (c :: s))) as [ps [S E]].
      { rewrite skipn_length. cbn [length] in *. lia. }
      exists (Dropped (firstn m (c :: s)) :: ps). split; [|exact E].
      rewrite <- (firstn_skipn m (c :: s)) at 1. apply split_drop; rewrite ?firstn_skipn; try assumption. discriminate.
    + destruct (best_picks _ _ _ B) as [P LN]; [discriminate|]. destruct (IH (skipn (S n) (c :: s))) as [ps [SP E]].
      { rewrite skipn_length. cbn [length] in *. lia. }
      rewrite E. cbn [bind]. rewrite <- (firstn_skipn (S n) (c :: s)) in P at 1.
      destruct (tkind_eq_dec k T_WS) as [->|NW].
      * exists (Blank (firstn (S n) (c :: s)) :: ps). split; [|reflexivity]. rewrite <- (firstn_skipn (S n) (c :: s)) at 1. apply split_blank; assumption.
      * exists (Token (Tok k (firstn (S n) (c :: s))) :: ps). split.
        -- rewrite <- (firstn_skipn (S n) (c :: s)) at 1. apply split_token; assumption.
        -- destruct k; try reflexivity. contradiction.
Qed.
Lemma splits_text s ps : splits s ps -> concat (map piece_text ps) = s.
Proof. induction 1; cbn [map concat piece_text text]; congruence. Qed.
Lemma splits_unique s ps : splits s ps -> forall ps', splits s ps' -> ps = ps'.
Proof.
  induction 1 as [|k w rest ps P K S IH|w rest ps P S IH|w rest ps N NO D S IH]; intros ps' S'.
  - inversion S' as [E|k w rest ps'' P E2 E3 E4|w rest ps'' P E2 E3|w rest ps'' N NO D E2 E3]; subst.
    + reflexivity.
    + destruct P as [PN _]. destruct w; [contradiction|discriminate].
    + destruct P as [PN _]. destruct w; [contradiction|discriminate].
    + destruct w; cbn [app] in *; [|discriminate]. subst. contradiction.
  - remember (w ++ rest) as s eqn:Es. destruct S' as [|k' w' rest' ps' P' K' S'|w' rest' ps' P' S'|w' rest' ps' N' NO' D' S'].
    + destruct P as [PN _]. destruct w; [contradiction|discriminate].
    + destruct (picks_unique _ _ _ _ _ P P') as [-> ->]. apply app_inv_head in Es. subst. f_equal. apply IH, S'.
    + destruct (picks_unique _ _ _ _ _ P P') as [-> ->]. contradiction.
    + destruct (NO' _ _ P).
  - remember (w ++ rest) as s eqn:Es. destruct S' as [|k' w' rest' ps' P' K' S'|w' rest' ps' P' S'|w' rest' ps' N' NO' D' S'].
    + destruct P as [PN _]. destruct w; [contradiction|discriminate].
    + destruct (picks_unique _ _ _ _ _ P P') as [E ->]. subst. contradiction.
    + destruct (picks_unique _ _ _ _ _ P P') as [_ ->]. apply app_inv_head in Es. subst. f_equal. apply IH, S'.
    + destruct (NO' _ _ P).
  - remember (w ++ rest) as s eqn:Es. destruct S' as [|k' w' rest' ps' P' K' S'|w' rest' ps' P' S'|w' rest' ps' N' NO' D' S'].
    + contradiction.
    + destruct (NO _ _ P').
    + destruct (NO _ _ P').
    + pose proof (drops_unique _ _ _ D D') as ->. apply app_inv_head in Es. subst. f_equal. apply IH, S'.
Qed.
Lemma lex_splits s ps : splits s ps -> lex s = Ok (tokens_of ps).
Proof.
  intros S. destruct (lex_from_splits (length s) s (le_n _)) as [ps' [S' E]]. unfold lex. rewrite E. rewrite (splits_unique _ _ S _ S'). reflexivity.
Qed.
Lemma lex_total s : exists ps, splits s ps /\ lex s = Ok (tokens_of ps).
Proof. apply (lex_from_splits (length s) s (le_n _)). Qed.

(** ** Tokens by themselves *)
Lemma picks_prefix w rest k : picks (w ++ rest) k w -> picks w k w.
Proof.
  intros [N [_ [R MAX]]]. split; [exact N|]. split; [exists []; symmetry; apply app_nil_r|]. split; [exact R|].
  intros k' r' w' rest' I E M. apply (MAX k' r' w' (rest' ++ rest) I); [|exact M]. rewrite app_assoc, <- E. reflexivity.
Qed.
Lemma splits_genuine s ps : splits s ps -> Forall genuine (tokens_of ps).
Proof.
  induction 1; cbn [tokens_of]; try assumption; try constructor; try assumption. split; cbn [kind text]; [eapply picks_prefix; eassumption|assumption].
Qed.
Lemma lex_genuine s ts : lex s = Ok ts -> Forall genuine ts.
Proof. intros E. destruct (lex_total s) as [ps [S E']]. rewrite E in E'. injection E' as ->. apply (splits_genuine _ _ S). Qed.

Lemma picks_shape s k w : picks s k w -> shape k w.
Proof. intros [_ [_ [[b [r [a [L [M _]]]]] _]]]. apply (rule_shape k r); [rewrite L; apply in_elt|exact M]. Qed.
Lemma picks_rule s k w : picks s k w -> exists r, In (k, r) lexicon /\ matches r w.
Proof. intros [_ [_ [[b [r [a [L [M _]]]]] _]]]. exists r. split; [rewrite L; apply in_elt|exact M]. Qed.

(** Text that would turn a date into a date with a time. *)
Definition time_like (s : jstr) : Prop := exists a b r, s = a :: b :: ch ":" :: r /\ is_digit a = true /\ is_digit b = true.

Lemma ws_not_field c : is_ws c = true -> is_field_char c = false.
Proof.
  unfold is_ws. intros H. rewrite !orb_true_iff, !N.eqb_eq in H. destruct H as [[[[-> | ->]| ->]| ->]| ->]; reflexivity.
Qed.
Lemma ws_not_quote c : is_ws c = true -> c <> ch "'" /\ c <> 34%N.
Proof. unfold is_ws. intros H. rewrite !orb_true_iff, !N.eqb_eq in H. destruct H as [[[[-> | ->]| ->]| ->]| ->]; split; discriminate. Qed.
Lemma symbol_no_ws w c : In w symbols -> In c w -> is_ws c = false.
Proof.
  intros I. unfold symbols in I. cbn [In] in I. repeat (destruct I as [<-|I]); try contradiction; vm_compute; intros X; repeat (destruct X as [<-|X]); try contradiction; reflexivity.
Qed.
Lemma quote_splits q b b' x : forallb (fun c => negb (c =? q)%N) b = true -> b ++ q :: x = b' ++ [q] ->
  forallb (fun c => negb (c =? q)%N) b' = true -> x = [].
Proof.
  revert b'. induction b as [|y b IH]; intros b' H E H'; destruct b' as [|y' b']; cbn [app] in E; injection E.
  - auto.
  - intros _ <-. cbn [forallb] in H'. rewrite N.eqb_refl in H'. discriminate.
  - intros X ->. destruct b; discriminate.
  - intros E' ->. cbn [forallb] in H, H'. apply andb_true_iff in H, H'. apply (IH b'); [apply H|exact E'|apply H'].
Qed.
Lemma matches_classes_nth ps s i p : matches_classes ps s = true -> nth_error ps i = Some p -> exists c, nth_error s i = Some c /\ p c = true.
Proof.
  revert s i. induction ps as [|q ps IH]; intros s i H E; [destruct i; discriminate|]. destruct s as [|c s]; [discriminate|].
  cbn [matches_classes] in H. apply andb_true_iff in H. destruct H as [P H]. destruct i as [|i]; cbn [nth_error] in *.
  - injection E as ->. eauto.
  - apply IH; assumption.
Qed.

Lemma digit_not_ws c : is_digit c = true -> is_ws c = false.
Proof. intros H. destruct (is_ws c) eqn:W; [|reflexivity]. apply ws_not_field in W. rewrite (digit_field c H) in W. discriminate. Qed.

(** A token's text followed by white space is still that token. *)
Lemma genuine_stop t c rest : genuine t -> is_ws c = true -> ~ time_like rest -> picks (text t ++ c :: rest) (kind t) (text t).
Proof.
  destruct t as [k w]. cbn [kind text]. intros [P K] C T. cbn [kind text] in *. pose proof P as [N [_ [R MAX]]].
  split; [exact N|]. split; [eauto|]. split; [exact R|]. intros k' r' w' rest' I E M.
  destruct (Nat.le_gt_cases (length w') (length w)) as [L|L]; [exact L|]. exfalso.
  (* w' reaches over the white space *)
  assert (W' : exists x, w' = w ++ c :: x /\ rest = x ++ rest').
  { assert (X : w' = firstn (length w') (w ++ c :: rest)) by (rewrite E, firstn_app_exact; reflexivity).
    rewrite firstn_app in X. rewrite firstn_all2 in X by lia. destruct (length w' - length w)%nat as [|j] eqn:J; [lia|].
    cbn [firstn] in X. exists (firstn j rest). split; [exact X|].
    assert (Y : rest' = skipn (length w') (w ++ c :: rest)) by (rewrite E, skipn_app_exact; reflexivity).
    rewrite skipn_app, J in Y. rewrite skipn_all2 in Y by lia. cbn [app skipn] in Y. rewrite Y. symmetry. apply firstn_skipn. }
  destruct W' as [x [-> ->]].
  assert (IC : In c (w ++ c :: x)) by (apply in_elt).
  pose proof (rule_shape _ _ _ I M) as S. pose proof (picks_shape _ _ _ P) as SW.
  remember (w ++ c :: x) as z eqn:Z. destruct S as [k0 z _ H|k0 z H|z H Lz|z H Lz|z _ H|k0 q body QQ H].
  - rewrite forallb_forall in H. specialize (H c IC). rewrite (ws_not_field c C) in H. discriminate.
  - rewrite (symbol_no_ws _ _ H IC) in C. discriminate.
  - assert (A : forall y, In y z -> is_ws y = false).
    { intros y Y. apply In_nth_error in Y. destruct Y as [i Y]. destruct (nth_error date_classes i) as [p|] eqn:Ep.
      - destruct (matches_classes_nth _ _ _ _ H Ep) as [y' [Y' Py]]. rewrite Y in Y'. injection Y' as <-.
        do 10 (destruct i as [|i]; [cbn in Ep; injection Ep as <-; first [apply digit_not_ws, Py|apply N.eqb_eq in Py; subst y; reflexivity]|]).
        destruct i; discriminate.
      - apply nth_error_None in Ep. rewrite <- Lz in Ep. apply nth_error_None in Ep. congruence. }
    rewrite (A c IC) in C. discriminate.
  - (* the only white space of a date-time is at index 10 *)
    assert (A : forall i y, nth_error z i = Some y -> is_ws y = true -> i = 10%nat).
    { intros i y Y WS. destruct (nth_error datetime_classes i) as [p|] eqn:Ep.
      - destruct (matches_classes_nth _ _ _ _ H Ep) as [y' [Y' Py]]. rewrite Y in Y'. injection Y' as <-.
        do 19 (destruct i as [|i]; [cbn in Ep; injection Ep as <-; first [reflexivity|exfalso; apply digit_not_ws in Py; congruence|exfalso; apply N.eqb_eq in Py; subst y; discriminate]|]).
        destruct i; discriminate.
      - apply nth_error_None in Ep. rewrite <- Lz in Ep. apply nth_error_None in Ep. congruence. }
    assert (L10 : length w = 10%nat).
    { apply (A (length w) c); [|exact C]. rewrite Z, nth_error_app2 by lia. rewrite Nat.sub_diag. reflexivity. }
    apply T.
    destruct (matches_classes_nth _ _ 11%nat _ H eq_refl) as [a [Na Da]].
    destruct (matches_classes_nth _ _ 12%nat _ H eq_refl) as [b [Nb Db]].
    destruct (matches_classes_nth _ _ 13%nat _ H eq_refl) as [d [Nd Dd]].
    rewrite Z in Na, Nb, Nd. rewrite nth_error_app2 in Na, Nb, Nd by lia. rewrite L10 in Na, Nb, Nd. cbn [Nat.sub nth_error] in Na, Nb, Nd.
    destruct x as [|x0 [|x1 [|x2 x]]]; try discriminate. cbn [nth_error] in Na, Nb, Nd. injection Na as ->. injection Nb as ->. injection Nd as ->.
    apply N.eqb_eq in Dd. subst d. exists a, b, (x ++ rest'). auto.
  - (* all white space *)
    assert (WW : forallb is_ws w = true).
    { rewrite Z, forallb_app in H. apply andb_true_iff in H. apply H. }
    assert (PW : picks w T_WS w).
    { split; [exact N|]. split; [exists []; symmetry; apply app_nil_r|]. split; [|intros k0 r0 w0 rest0 I0 E0 M0; rewrite E0, app_length; lia].
      exists (firstn 39 lexicon), (Plus (Any blank)), (skipn 40 lexicon). split; [reflexivity|]. split; [apply ws_matches; assumption|].
      intros k0 r0 I0 M0. destruct w as [|y w]; [contradiction|]. cbn [forallb] in WW. apply andb_true_iff in WW. destruct WW as [Y _].
      assert (I1 : In (k0, r0) lexicon) by (rewrite <- (firstn_skipn 39 lexicon); apply in_or_app; auto).
      pose proof (rule_shape _ _ _ I1 M0) as S0. remember (y :: w) as yw eqn:Eyw. destruct S0 as [k0 z0 _ H0|k0 z0 H0|z0 H0 _|z0 H0 _|z0 _ H0|k0 q0 b0 Q0 H0].
      - subst z0. cbn [forallb] in H0. rewrite (ws_not_field y Y) in H0. discriminate.
      - subst z0. rewrite (symbol_no_ws _ y H0 (or_introl eq_refl)) in Y. discriminate.
      - subst z0. apply first_class in H0. apply digit_not_ws in H0. congruence.
      - subst z0. apply first_class in H0. apply digit_not_ws in H0. congruence.
      - clear -I0. unfold lexicon in I0. cbn [firstn In] in I0. repeat (destruct I0 as [I0|I0]; [discriminate|]). contradiction.
      - injection Eyw as -> _. destruct (ws_not_quote y Y). destruct Q0; contradiction. }
    destruct (picks_unique _ _ _ _ _ P PW). contradiction.
  - (* quoted *)
    destruct w as [|q0 w]; [contradiction|]. cbn [app] in Z. injection Z as <- Z.
    assert (NF : is_field_char q = false) by (destruct QQ as [-> | ->]; reflexivity).
    assert (ND : is_digit q = false) by (destruct QQ as [-> | ->]; reflexivity).
    assert (NW : is_ws q = false) by (destruct QQ as [-> | ->]; reflexivity).
    remember (q :: w) as qw eqn:Eqw. destruct SW as [k2 z2 _ H2|k2 z2 H2|z2 H2 _|z2 H2 _|z2 _ H2|k2 q2 b2 Q2 H2].
    + subst z2. cbn [forallb] in H2. rewrite NF in H2. discriminate.
    + subst z2. clear -H2 QQ. unfold symbols in H2. destruct QQ as [-> | ->]; cbn [In] in H2; repeat (destruct H2 as [H2|H2]; [vm_compute in H2; discriminate|]); contradiction.
    + subst z2. apply first_class in H2. congruence.
    + subst z2. apply first_class in H2. congruence.
    + subst z2. cbn [forallb] in H2. rewrite NW in H2. discriminate.
    + injection Eqw as -> <-. rewrite <- app_assoc in Z. cbn [app] in Z. symmetry in Z. pose proof (quote_splits _ _ _ _ H2 Z H) as X. discriminate.
Qed.
