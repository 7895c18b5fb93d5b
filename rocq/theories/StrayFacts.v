(** Lists with words that do not belong there. *)
From Verif Require Import Base Values Ast Lexer Grammar Recover Listener Api SpecGrammar SpecRecover SpecStray ParseFuel ParseFacts RecoverFacts RecoverTexts AnyText.

Lemma element_type x : element_token x -> is_type (kind x) = true.
Proof. intros [E|I]; [rewrite E; reflexivity|]. unfold literal_token in I. cbn [In] in I. decompose [or] I; try contradiction; match goal with H : _ = kind x |- _ => rewrite <- H end; reflexivity. Qed.
Lemma literal_element x : literal_token x -> element_token x.
Proof. right. assumption. Qed.
Lemma literal_no_field x : literal_token x -> kind x <> T_FIELD.
Proof. unfold literal_token. cbn [In]. intros I E. rewrite E in I. decompose [or] I; congruence. Qed.
Lemma stray_plain u : stray u -> is_infix (kind u) = false /\ ends_item (kind u) = false /\ tkind_eqb (kind u) T_EOF = false.
Proof.
  intros [L N]. split; [apply infix_level, L|]. cbn [In] in N. unfold ends_item, is_kind, tkind_eqb.
  destruct (tkind_eq_dec (kind u) T_COMMA), (tkind_eq_dec (kind u) T_RPAREN), (tkind_eq_dec (kind u) T_EOF); try (exfalso; intuition congruence). split; reflexivity.
Qed.

(** A field followed by such a token is an element of its own. *)
Definition alone (k : tkind) : bool := match k with T_INTEGER | T_DECIMAL | T_NOT | T_IN | T_CONTAINS_ALL | T_CONTAINS_ANY => false | _ => true end.
Lemma after_parts x u : stray_after x u -> element_token x /\ stray u /\ (kind x = T_FIELD -> alone (kind u) = true).
Proof.
  intros [St [L|[K N]]]; (split; [|split; [exact St|]]); [right; exact L|intros E; exfalso; revert E; apply literal_no_field, L|left; exact K|].
  intros _. cbn [In] in N. destruct (kind u); try reflexivity; exfalso; tauto.
Qed.

(** ** One element *)
Lemma word_loop f p l y ts ctx : is_infix (kind y) = false -> rloop (S f) ctx p l (matched (y :: ts)) = Ok (l, matched (y :: ts)).
Proof. intros N. apply loop_stops. exact N. Qed.
Lemma word_ploop f p l y ts : is_infix (kind y) = false -> ploop (S f) p l (y :: ts) = Ok (l, y :: ts).
Proof. intros N. cbn [ploop]. unfold is_infix in N. destruct (infix_prec (kind y)); [discriminate|reflexivity]. Qed.
Lemma word_rexpr f ctx x y ts : element_token x -> is_infix (kind y) = false -> (kind x = T_FIELD -> alone (kind y) = true) ->
  rexpr (S (S f)) ctx 0 (matched (x :: y :: ts)) = Ok (PTypes x, matched (y :: ts)).
Proof.
  intros T N F. remember (S f) as g. cbn [rexpr]. cbv zeta. change (lt1 (matched (x :: y :: ts))) with x. change (next_state (matched (x :: y :: ts))) with (matched (y :: ts)).
  change (lt1 (matched (y :: ts))) with y. subst g. destruct T as [K|L].
  - rewrite K. specialize (F K). destruct (kind y) eqn:Ky; try discriminate F; cbn [bind]; apply word_loop; rewrite Ky; exact N.
  - unfold literal_token in L. cbn [In] in L. decompose [or] L; try contradiction; match goal with H : _ = kind x |- _ => rewrite <- H end; cbn [is_function is_type bind]; apply word_loop, N.
Qed.
Lemma word_pexpr f x y ts : element_token x -> is_infix (kind y) = false -> (kind x = T_FIELD -> alone (kind y) = true) ->
  pexpr (S (S f)) 0 (x :: y :: ts) = Ok (PTypes x, y :: ts).
Proof.
  intros T N F. remember (S f) as g. cbn [pexpr]. subst g. destruct T as [K|L].
  - rewrite K. specialize (F K). destruct (kind y) eqn:Ky; try discriminate F; cbn [bind fst snd]; apply word_ploop; rewrite Ky; exact N.
  - unfold literal_token in L. cbn [In] in L. decompose [or] L; try contradiction; match goal with H : _ = kind x |- _ => rewrite <- H end; cbn [is_function is_type bind fst snd]; apply word_ploop, N.
Qed.
Lemma begins_element x ts : element_token x -> sync begins_item (matched (x :: ts)) = Some (matched (x :: ts)).
Proof. intros T. apply sync_hit. cbn [head_kind]. pose proof (element_type x T) as E. unfold begins_item. rewrite E, ?orb_true_r. destruct (kind x); try reflexivity. Qed.
Lemma sync_drop u y ts : stray u -> ends_item (kind y) = true -> sync ends_item (matched (u :: y :: ts)) = Some (matched (y :: ts)).
Proof.
  intros St En. destruct (stray_plain u St) as [_ [N Z]]. unfold sync. change (la1 (matched (u :: y :: ts))) with (kind u). change (la2 (matched (u :: y :: ts))) with (kind y).
  rewrite N, En. cbn [recovering matched orb tokens advance]. rewrite Z. reflexivity.
Qed.
Lemma sync_none u y ts : stray u -> ends_item (kind y) = false -> sync ends_item (matched (u :: y :: ts)) = None.
Proof.
  intros St En. destruct (stray_plain u St) as [_ [N Z]]. unfold sync. change (la1 (matched (u :: y :: ts))) with (kind u). change (la2 (matched (u :: y :: ts))) with (kind y).
  rewrite N, En. reflexivity.
Qed.

(** ** Lists *)
Lemma rparen_plain : is_infix (kind rparen) = false /\ ends_item (kind rparen) = true. Proof. split; reflexivity. Qed.
Lemma comma_plain : is_infix (kind comma) = false /\ ends_item (kind comma) = true. Proof. split; reflexivity. Qed.

Lemma untidy_items b ds cs : untidy b ds cs -> exists items,
  (forall f ts ctx s0 s1, length ds + 3 <= f -> ritems f ctx s0 s1 (matched (ds ++ ts)) = Ok (items, false, matched ts)) /\
  (forall f ts, length cs + 3 <= f -> pitems f (cs ++ ts) = Ok (items, ts)).
Proof.
  intros U. induction U as [x T|x u A|b x ds cs T U [items [R P]]|b x u ds cs A U [items [R P]]].
  - exists [PTypes x]. split.
    + intros f ts ctx s0 s1 Lf. destruct f as [|[|[|f]]]; cbn [length] in Lf; try lia. remember (S (S f)) as g. cbn [ritems app]. subst g.
      rewrite begins_element by exact T. rewrite word_rexpr by (auto || reflexivity). cbn [bind fst snd]. rewrite sync_hit by reflexivity.
      change (la1 (matched (rparen :: ts))) with T_RPAREN. change (is_kind T_COMMA T_RPAREN) with false. cbv iota. rewrite match_hit by reflexivity. reflexivity.
    + intros f ts Lf. destruct f as [|[|[|f]]]; cbn [length] in Lf; try lia. remember (S (S f)) as g. cbn [pitems app]. subst g. rewrite word_pexpr by (auto || reflexivity). reflexivity.
  - exists [PTypes x]. destruct (after_parts x u A) as [T [St K]]. destruct (stray_plain u St) as [N [En Z]]. split.
    + intros f ts ctx s0 s1 Lf. destruct f as [|[|[|f]]]; cbn [length] in Lf; try lia. remember (S (S f)) as g. cbn [ritems app]. subst g.
      rewrite begins_element by exact T. rewrite word_rexpr by assumption. cbn [bind fst snd]. rewrite sync_drop by (auto || reflexivity).
      change (la1 (matched (rparen :: ts))) with T_RPAREN. change (is_kind T_COMMA T_RPAREN) with false. cbv iota. rewrite match_hit by reflexivity. reflexivity.
    + intros f ts Lf. destruct f as [|[|[|f]]]; cbn [length] in Lf; try lia. remember (S (S f)) as g. cbn [pitems app]. subst g. rewrite word_pexpr by (auto || reflexivity). reflexivity.
  - exists (PTypes x :: items). split.
    + intros f ts ctx s0 s1 Lf. destruct f as [|[|[|f]]]; cbn [length] in Lf; try lia. remember (S (S f)) as g. cbn [ritems app]. rewrite begins_element by exact T. subst g.
      rewrite word_rexpr by (auto || reflexivity). cbn [bind fst snd]. rewrite sync_hit by reflexivity.
      change (la1 (matched (comma :: ds ++ ts))) with T_COMMA. change (is_kind T_COMMA T_COMMA) with true. cbv iota.
      change (next_state (matched (comma :: ds ++ ts))) with (matched (ds ++ ts)). rewrite R by lia. reflexivity.
    + intros f ts Lf. destruct f as [|[|[|f]]]; cbn [length] in Lf; try lia. remember (S (S f)) as g. cbn [pitems app]. subst g. rewrite word_pexpr by (auto || reflexivity). cbn [bind fst snd]. change (kind comma) with T_COMMA. cbv iota. rewrite P by lia. reflexivity.
  - exists (PTypes x :: items). destruct (after_parts x u A) as [T [St K]]. destruct (stray_plain u St) as [N [En Z]]. split.
    + intros f ts ctx s0 s1 Lf. destruct f as [|[|[|f]]]; cbn [length] in Lf; try lia. remember (S (S f)) as g. cbn [ritems app]. rewrite begins_element by exact T. subst g.
      rewrite word_rexpr by assumption. cbn [bind fst snd]. rewrite sync_drop by (auto || reflexivity).
      change (la1 (matched (comma :: ds ++ ts))) with T_COMMA. change (is_kind T_COMMA T_COMMA) with true. cbv iota.
      change (next_state (matched (comma :: ds ++ ts))) with (matched (ds ++ ts)). rewrite R by lia. reflexivity.
    + intros f ts Lf. destruct f as [|[|[|f]]]; cbn [length] in Lf; try lia. remember (S (S f)) as g. cbn [pitems app]. subst g. rewrite word_pexpr by (auto || reflexivity). cbn [bind fst snd]. change (kind comma) with T_COMMA. cbv iota. rewrite P by lia. reflexivity.
Qed.

(** Skipping to the next operator. *)
Lemma skip_junk junk us : Forall (fun v => level (kind v) = None /\ kind v <> T_EOF) junk -> (us = [] \/ is_infix (head_kind us) = true) ->
  skip_until (recovery_has [InOps; InParse]) (junk ++ us ++ [eof]) = (junk, us ++ [eof]).
Proof.
  assert (X : forall k, recovery_has [InOps; InParse] k = is_infix k || is_kind T_EOF k) by (intros k; cbn [recovery_has existsb follow_has]; rewrite orb_false_r; reflexivity).
  revert X. generalize (recovery_has [InOps; InParse]) as stop. intros stop X F U. induction F as [|v junk [L K] F IH]; cbn [app].
  - destruct us as [|y us]; [reflexivity|]. destruct U as [U|U]; [discriminate|]. cbn [head_kind] in U. cbn [app skip_until]. rewrite X, U, orb_true_r. reflexivity.
  - cbn [skip_until]. rewrite X, IH. apply infix_level in L. rewrite L. unfold is_kind, tkind_eqb. destruct (tkind_eq_dec (kind v) T_EOF); [contradiction|]. reflexivity.
Qed.
Lemma broken_items ds cs us : broken ds cs -> us = [] \/ is_infix (head_kind us) = true -> exists items,
  (forall f s0 s1, length ds + 3 <= f -> exists st, ritems f [InOps; InParse] s0 s1 (matched (ds ++ us ++ [eof])) = Ok (items, true, st) /\ tokens st = us ++ [eof]) /\
  (forall f ts, length cs + 3 <= f -> pitems f (cs ++ ts) = Ok (items, ts)).
Proof.
  intros B U. induction B as [x u junk A F H|x ds cs T B [items [R P]]].
  - exists [PTypes x]. destruct (after_parts x u A) as [T [St K]]. destruct (stray_plain u St) as [N [En Z]]. split.
    + intros f s0 s1 Lf. destruct f as [|[|[|f]]]; cbn [length] in Lf; try lia. remember (S (S f)) as g. cbn [ritems app]. subst g.
      rewrite begins_element by exact T. rewrite word_rexpr by assumption. cbn [bind fst snd].
      assert (Hd : exists y r, junk ++ us ++ [eof] = y :: r /\ ends_item (kind y) = false).
      { destruct junk as [|v junk].
        - destruct us as [|y us]; [exists eof, []; split; reflexivity|]. destruct U as [U|U]; [discriminate|]. exists y, (us ++ [eof]). split; [reflexivity|]. cbn [head_kind] in U. destruct (kind y); try discriminate U; reflexivity.
        - exists v, (junk ++ us ++ [eof]). split; [reflexivity|]. specialize (H v junk eq_refl). cbn [In] in H. unfold ends_item, is_kind, tkind_eqb.
          destruct (tkind_eq_dec (kind v) T_COMMA), (tkind_eq_dec (kind v) T_RPAREN); try (exfalso; intuition congruence). reflexivity. }
      destruct Hd as [y [r [Ey Ny]]]. rewrite Ey, sync_none by assumption. rewrite <- Ey. eexists. split; [reflexivity|].
      unfold recover. cbn [error_at matched tokens snd]. cbv iota zeta. cbn [snd tokens].
      change (u :: junk ++ us ++ [eof]) with ((u :: junk) ++ us ++ [eof]). rewrite skip_junk; [reflexivity| |exact U]. constructor; [|exact F].
      split; [apply St|]. destruct St as [_ St]. cbn [In] in St. intuition congruence.
    + intros f ts Lf. destruct f as [|[|[|f]]]; cbn [length] in Lf; try lia. remember (S (S f)) as g. cbn [pitems app]. subst g. rewrite word_pexpr by (auto || reflexivity). reflexivity.
  - exists (PTypes x :: items). split.
    + intros f s0 s1 Lf. destruct f as [|[|[|f]]]; cbn [length] in Lf; try lia. remember (S (S f)) as g. cbn [ritems app]. rewrite begins_element by exact T. destruct (R g 110 117) as [st [E S0]]; [lia|]. exists st. split; [|exact S0].
      subst g. rewrite word_rexpr by (auto || reflexivity). cbn [bind fst snd]. rewrite sync_hit by reflexivity.
      change (la1 (matched (comma :: ds ++ us ++ [eof]))) with T_COMMA. change (is_kind T_COMMA T_COMMA) with true. cbv iota.
      change (next_state (matched (comma :: ds ++ us ++ [eof]))) with (matched (ds ++ us ++ [eof])). rewrite E. reflexivity.
    + intros f ts Lf. destruct f as [|[|[|f]]]; cbn [length] in Lf; try lia. remember (S (S f)) as g. cbn [pitems app]. subst g. rewrite word_pexpr by (auto || reflexivity). cbn [bind fst snd]. change (kind comma) with T_COMMA. cbv iota. rewrite P by lia. reflexivity.
Qed.

(** ** Conditions *)
(** The tree of a condition on a list, and how both parsers get there. *)
Lemma opening_tree h : list_opening h -> exists mk, 
  (forall f ts items rest, pwordlist f ts = Ok (items, rest) -> pexpr (S f) 0 (h ++ ts) = ploop f 0 (mk items) rest) /\
  (forall f ts items b st, rwords f [InOps; InParse] (matched ts) = Ok (items, b, false, st) -> rexpr (S f) [InParse] 0 (matched (h ++ ts)) = rloop f [InParse] 0 (mk items) st).
Proof.
  intros [f i F I|f n i F N I].
  - cbn [In] in I. destruct I as [I|[I|[I|[]]]]; [exists (PIn f None i)|exists (PArray f i)|exists (PArray f i)];
      (split; [intros g ts items rest W; cbn [pexpr app]; rewrite F, <- I, W; reflexivity|
        intros g ts items b st W; cbn [rexpr app]; cbv zeta; change (lt1 (matched (f :: i :: ts))) with f; change (next_state (matched (f :: i :: ts))) with (matched (i :: ts));
        change (lt1 (matched (i :: ts))) with i; change (next_state (matched (i :: ts))) with (matched ts); rewrite F, <- I, W; reflexivity]).
  - exists (PIn f (Some n) i). split.
    + intros g ts items rest W. cbn [pexpr app]. rewrite F, N. cbn [expect_tok]. rewrite I. cbn [tkind_eqb]. unfold tkind_eqb. destruct (tkind_eq_dec T_IN T_IN); [|contradiction]. cbn [bind fst snd]. rewrite W. reflexivity.
    + intros g ts items b st W. cbn [rexpr app]. cbv zeta. change (lt1 (matched (f :: n :: i :: ts))) with f. change (next_state (matched (f :: n :: i :: ts))) with (matched (n :: i :: ts)).
      change (lt1 (matched (n :: i :: ts))) with n. change (next_state (matched (n :: i :: ts))) with (matched (i :: ts)). rewrite F, N.
      rewrite match_hit by (apply is_kind_true; exact I). cbn [last]. rewrite W. reflexivity.
Qed.
Lemma opening_length h : list_opening h -> 2 <= length h <= 3.
Proof. intros []; cbn [length]; lia. Qed.

Lemma loop_tokens f ctx l st ts : tokens st = ts -> is_infix (head_kind ts) = true -> rloop f ctx 0 l st = rloop f ctx 0 l (matched ts).
Proof.
  intros <- I. destruct f as [|f]; [reflexivity|]. cbn [rloop]. destruct st as [ts r e s]. cbn [tokens] in *. change (la1 (PState ts r e s)) with (la1 (matched ts)).
  change (next_state (PState ts r e s)) with (next_state (matched ts)). change (lt1 (PState ts r e s)) with (lt1 (matched ts)). rewrite la1_matched.
  unfold is_infix in I. destruct (infix_prec (head_kind ts)) as [q|]; [reflexivity|discriminate].
Qed.
Lemma words_of f ts : pwordlist (S f) (lparen :: ts) = pitems f ts.
Proof. reflexivity. Qed.

(** The tree of the tidy text, and the rest of the way to it. *)
Lemma tidy_rest h cs us mk items t : (forall f ts items rest, pwordlist f ts = Ok (items, rest) -> pexpr (S f) 0 (h ++ ts) = ploop f 0 (mk items) rest) ->
  (forall f ts, length cs + 3 <= f -> pitems f (cs ++ ts) = Ok (items, ts)) -> yield t = h ++ lparen :: cs ++ us -> reads 0 t eof ->
  forall f, 3 * length (yield t) + 5 <= f -> rloop f [InParse] 0 (mk items) (matched (us ++ [eof])) = Ok (t, matched [eof]).
Proof.
  intros P C Y R f Lf. pose proof (parse_tokens_complete t R) as T. unfold parse_tokens in T. cbv zeta in T. dbind T er He. destruct er as [e r]. cbn [fst snd] in T.
  destruct r as [|x [|y r]]; try discriminate. unfold tkind_eqb in T. destruct (tkind_eq_dec (kind x) T_EOF) as [Ex|]; [|discriminate]. injection T as ->.
  rewrite <- (pexpr_mono (parse_fuel (yield t ++ [eof])) (S f)) in He; [|unfold parse_fuel; rewrite app_length; cbn [length]; lia|rewrite He; discriminate].
  assert (Z : yield t ++ [eof] = h ++ lparen :: cs ++ us ++ [eof]) by (rewrite Y, <- app_assoc; cbn [app]; rewrite <- app_assoc; reflexivity).
  assert (Ly : length (yield t) = length h + S (length cs + length us)) by (rewrite Y, app_length; cbn [length]; rewrite app_length; reflexivity).
  rewrite Z in He. destruct f as [|f]; [lia|]. rewrite (P (S f) (lparen :: cs ++ us ++ [eof]) items (us ++ [eof])) in He by (rewrite words_of; apply C; lia).
  assert (Ex' : [x] = [eof]). { destruct (proj1 (proj2 (consumes (S f))) _ _ _ _ _ He) as [a Ea]. apply (f_equal (fun l => last l eof)) in Ea. rewrite !last_append in Ea. cbn [last] in Ea. congruence. }
  rewrite Ex' in He. apply (proj1 (proj2 (agree (S f))) _ _ _ _ _ [InParse] eof He). left. reflexivity.
Qed.

Lemma stray_tree_of h b ds cs us t mk : length h <= 3 ->
  (forall f ts items rest, pwordlist f ts = Ok (items, rest) -> pexpr (S f) 0 (h ++ ts) = ploop f 0 (mk items) rest) ->
  (forall f ts items st, rwords f [InOps; InParse] (matched ts) = Ok (items, false, false, st) -> rexpr (S f) [InParse] 0 (matched (h ++ ts)) = rloop f [InParse] 0 (mk items) st) ->
  1 <= length h -> untidy b ds cs -> yield t = h ++ lparen :: cs ++ us -> reads 0 t eof -> parse_any (h ++ lparen :: ds ++ us) = Ok t.
Proof.
  intros H P Q H1 U Y R. destruct (untidy_items b ds cs U) as [items [D C]].
  assert (Ld : length cs <= length ds) by (clear - U; induction U; cbn [length]; lia).
  assert (Ly : length (yield t) = length h + S (length cs + length us)) by (rewrite Y, app_length; cbn [length]; rewrite app_length; reflexivity).
  apply parse_any_of. intros f Lf. rewrite app_length in Lf. cbn [length] in Lf. rewrite app_length in Lf. exists (matched [eof]).
  rewrite <- app_assoc. cbn [app]. rewrite <- app_assoc. destruct f as [|f]; [lia|].
  rewrite (Q (S f) (lparen :: ds ++ us ++ [eof]) items (matched (us ++ [eof]))).
  - apply (tidy_rest h cs us mk items t P C Y R). lia.
  - cbn [rwords]. rewrite match_hit by reflexivity. rewrite D by lia. reflexivity.
Qed.
Lemma stray_tree h b ds cs us t : list_opening h -> untidy b ds cs -> yield t = h ++ lparen :: cs ++ us -> reads 0 t eof -> parse_any (h ++ lparen :: ds ++ us) = Ok t.
Proof.
  intros H. destruct (opening_tree h H) as [mk [P Q]]. pose proof (opening_length h H). apply (stray_tree_of h b ds cs us t mk); [lia|exact P| |lia].
  intros f ts items st. apply Q.
Qed.
Lemma broken_tree h ds cs us t : list_opening h -> broken ds cs -> us = [] \/ is_infix (head_kind us) = true -> yield t = h ++ lparen :: cs ++ us -> reads 0 t eof ->
  parse_any (h ++ lparen :: ds ++ us) = Ok t.
Proof.
  intros H B U Y R. destruct (opening_tree h H) as [mk [P Q]]. destruct (broken_items ds cs us B U) as [items [D C]].
  assert (Ld : length cs <= length ds) by (clear - B; induction B; cbn [length]; lia).
  assert (Ly : length (yield t) = length h + S (length cs + length us)) by (rewrite Y, app_length; cbn [length]; rewrite app_length; reflexivity).
  apply parse_any_of. intros f Lf. rewrite app_length in Lf. cbn [length] in Lf. rewrite app_length in Lf. rewrite <- app_assoc. cbn [app]. rewrite <- app_assoc. destruct f as [|f]; [lia|].
  destruct (D f 96 103) as [st [E S0]]; [lia|]. pose proof (opening_length h H).
  assert (W : rwords (S f) [InOps; InParse] (matched (lparen :: ds ++ us ++ [eof])) = Ok (items, true, false, st)).
  { cbn [rwords]. rewrite match_hit by reflexivity. rewrite E. reflexivity. }
  rewrite (Q _ _ _ _ _ W). pose proof (tidy_rest h cs us mk items t P C Y R (S f) ltac:(lia)) as T. destruct U as [->|U].
  - cbn [app] in *. rewrite loop_end in T by (reflexivity || lia). injection T as T. exists st. rewrite loop_end by (exact S0 || lia). congruence.
  - exists (matched [eof]). rewrite (loop_tokens _ _ _ _ (us ++ [eof]) S0); [exact T|]. destruct us; [discriminate|exact U].
Qed.
Lemma stray_accepted_of s s' h ds cs us dflt : (forall t, yield t = h ++ lparen :: cs ++ us -> reads 0 t eof -> parse_any (h ++ lparen :: ds ++ us) = Ok t) ->
  untidy true ds cs -> lex s = Ok (h ++ lparen :: cs ++ us) -> sentence (h ++ lparen :: cs ++ us) ->
  lex s' = Ok (h ++ lparen :: ds ++ us) -> ~ sentence (h ++ lparen :: ds ++ us) /\ parse_expression s' dflt = parse_expression s dflt.
Proof.
  intros H U L [t [Y R]] L'. pose proof (H t Y R) as T. split.
  - apply (not_sentence _ _ T). rewrite Y, !app_length. cbn [length]. rewrite !app_length. assert (X : forall b, untidy b ds cs -> length cs <= length ds /\ (b = true -> length cs < length ds)).
    { clear. intros b U. induction U; cbn [length]; intuition (try discriminate; lia). }
    destruct (X true U) as [_ X']. specialize (X' eq_refl). lia.
  - rewrite (parse_as _ _ _ _ L' T). symmetry. apply (parse_as _ _ _ _ L). rewrite <- Y. apply parse_any_complete, R.
Qed.
Lemma stray_accepted s s' h ds cs us dflt : list_opening h -> untidy true ds cs -> lex s = Ok (h ++ lparen :: cs ++ us) -> sentence (h ++ lparen :: cs ++ us) ->
  lex s' = Ok (h ++ lparen :: ds ++ us) -> ~ sentence (h ++ lparen :: ds ++ us) /\ parse_expression s' dflt = parse_expression s dflt.
Proof. intros H U. apply stray_accepted_of; [|exact U]. intros t. apply (stray_tree h true ds cs us t H U). Qed.
Lemma broken_accepted s s' h ds cs us dflt : list_opening h -> broken ds cs -> us = [] \/ (exists o rest, us = o :: rest /\ level (kind o) <> None) ->
  lex s = Ok (h ++ lparen :: cs ++ us) -> sentence (h ++ lparen :: cs ++ us) ->
  lex s' = Ok (h ++ lparen :: ds ++ us) -> ~ sentence (h ++ lparen :: ds ++ us) /\ parse_expression s' dflt = parse_expression s dflt.
Proof.
  intros H B U L [t [Y R]] L'. assert (U' : us = [] \/ is_infix (head_kind us) = true).
  { destruct U as [U|[o [rest [-> Lo]]]]; [left; exact U|]. right. cbn [head_kind]. destruct (is_infix (kind o)) eqn:I; [reflexivity|]. apply infix_level in I. contradiction. }
  pose proof (broken_tree h ds cs us t H B U' Y R) as T. split.
  - intros [t' [Y' R']]. rewrite <- Y', (parse_any_complete t' R') in T. injection T as ->. rewrite Y in Y'. apply app_inv_head in Y'. injection Y' as Y'. apply app_inv_tail in Y'.
    clear - B Y'. induction B as [x u junk A F Hd|x ds cs T B IH]; [injection Y' as <- _; destruct A as [[_ St] _]; cbn [In kind rparen] in St; intuition congruence|]. apply IH. congruence.
  - rewrite (parse_as _ _ _ _ L' T). symmetry. apply (parse_as _ _ _ _ L). rewrite <- Y. apply parse_any_complete, R.
Qed.

(** ** Calls *)
Lemma call_function fn : function_kind (kind fn) -> is_function (kind fn) = true.
Proof. unfold function_kind. cbn [In]. intros H. decompose [or] H; try contradiction; match goal with E : _ = kind fn |- _ => rewrite <- E end; reflexivity. Qed.
Lemma call_words fn f ts items failed st : function_kind (kind fn) -> rwords f [InOps; InParse] (matched ts) = Ok (items, failed, false, st) ->
  rexpr (S f) [InParse] 0 (matched (fn :: ts)) = rloop f [InParse] 0 (if failed then PFuncErr fn items else PFunc fn items) st.
Proof.
  intros H W. cbn [rexpr]. cbv zeta. change (lt1 (matched (fn :: ts))) with fn. change (next_state (matched (fn :: ts))) with (matched ts).
  unfold function_kind in H. cbn [In] in H. decompose [or] H; try contradiction; match goal with E : _ = kind fn |- _ => rewrite <- E end; cbn [is_function]; rewrite W; reflexivity.
Qed.
Lemma call_items fn f ts items rest : function_kind (kind fn) -> pwordlist f ts = Ok (items, rest) -> pexpr (S f) 0 (fn :: ts) = ploop f 0 (PFunc fn items) rest.
Proof.
  intros H W. cbn [pexpr]. unfold function_kind in H. cbn [In] in H. decompose [or] H; try contradiction; match goal with E : _ = kind fn |- _ => rewrite <- E end; cbn [is_function]; rewrite W; reflexivity.
Qed.
Lemma stray_argument s s' fn ds cs us dflt : function_kind (kind fn) -> untidy true ds cs -> lex s = Ok (fn :: lparen :: cs ++ us) -> sentence (fn :: lparen :: cs ++ us) ->
  lex s' = Ok (fn :: lparen :: ds ++ us) -> ~ sentence (fn :: lparen :: ds ++ us) /\ parse_expression s' dflt = parse_expression s dflt.
Proof.
  intros H U. apply (stray_accepted_of s s' [fn] ds cs us dflt); [|exact U]. intros t. apply (stray_tree_of [fn] true ds cs us t (PFunc fn)); [cbn; lia| | |cbn; lia|exact U].
  - intros f ts items rest. apply call_items, H.
  - intros f ts items st W. apply (call_words fn f ts items false st H W).
Qed.

(** The tree the operators after [l] make begins with [l]. *)
Inductive begins_with (l : ptree) : ptree -> Prop :=
| begins_here : begins_with l l
| begins_left a op r : begins_with l a -> begins_with l (mk_infix a op r).
Lemma begins_trans a b c : begins_with a b -> begins_with b c -> begins_with a c.
Proof. intros H K. induction K as [|x op r K IH]; [exact H|]. apply begins_left, IH. Qed.
Lemma loop_begins f : forall ctx p l st t st', rloop f ctx p l st = Ok (t, st') -> begins_with l t.
Proof.
  induction f as [|f IH]; [discriminate|]. intros ctx p l st t st' E. cbn [rloop] in E. destruct (infix_prec (la1 st)) as [q|].
  - destruct (p <=? q).
    + dbind E rr Hr. apply IH in E. eapply begins_trans; [|exact E]. apply begins_left, begins_here.
    + injection E as -> _. apply begins_here.
  - injection E as -> _. apply begins_here.
Qed.
Lemma begins_walk dflt l t st e : begins_with l t -> walk dflt l st = Err e -> walk dflt t st = Err e.
Proof.
  intros B. induction B as [|a op r B IH]; [auto|]. intros E. apply IH in E. unfold mk_infix. destruct (kind op); cbn [walk]; rewrite E; reflexivity.
Qed.
Lemma items_words dflt items : Forall (fun i => exists x, i = PTypes x) items -> forall st, exists st', (fix go (l : list ptree) (st : lstate) {struct l} : res lstate :=
  match l with [] => Ok st | i :: l' => st' <- walk dflt i st ;; go l' st' end) items st = Ok st'.
Proof. intros H. induction H as [|i items [x ->] H IH]; intros st; [eexists; reflexivity|]. cbn [walk bind]. apply IH. Qed.
Lemma failed_call dflt fn items st : Forall (fun i => exists x, i = PTypes x) items -> walk dflt (PFuncErr fn items) st = Err InvalidExpression.
Proof. intros H. cbn [walk]. destruct (items_words dflt items H st) as [st' E]. rewrite E. reflexivity. Qed.
Lemma broken_words ds cs items : broken ds cs -> (forall f ts, length cs + 3 <= f -> pitems f (cs ++ ts) = Ok (items, ts)) -> Forall (fun i => exists x, i = PTypes x) items.
Proof.
  intros B. revert items. induction B as [x u junk A F H|x ds cs T B IH]; intros items P.
  - specialize (P 5 [] (le_n _)). cbn [app] in P. remember 4 as g. cbn [pitems] in P. subst g. rewrite word_pexpr in P by (apply (after_parts x u A) || reflexivity).
    cbn [bind fst snd] in P. change (kind rparen) with T_RPAREN in P. cbv iota in P. injection P as <-. repeat constructor. exists x. reflexivity.
  - destruct (broken_items ds cs [] B (or_introl eq_refl)) as [items' [_ P']].
    specialize (P (S (S (S (length cs + 3)))) [] ltac:(cbn [length]; lia)). cbn [app] in P. remember (S (S (length cs + 3))) as g. cbn [pitems] in P. subst g. rewrite word_pexpr in P by (auto || reflexivity).
    cbn [bind fst snd] in P. change (kind comma) with T_COMMA in P. cbv iota in P. rewrite P' in P by lia. cbn [bind fst snd] in P. injection P as <-. constructor; [exists x; reflexivity|]. apply IH. exact P'.
Qed.
Lemma broken_call s fn ds cs us dflt : function_kind (kind fn) -> broken ds cs -> us = [] \/ (exists o rest, us = o :: rest /\ level (kind o) <> None) ->
  lex s = Ok (fn :: lparen :: ds ++ us) -> parse_expression s dflt = Err InvalidExpression.
Proof.
  intros H B U L. assert (U' : us = [] \/ is_infix (head_kind us) = true).
  { destruct U as [U|[o [rest [-> Lo]]]]; [left; exact U|]. right. cbn [head_kind]. destruct (is_infix (kind o)) eqn:I; [reflexivity|]. apply infix_level in I. contradiction. }
  destruct (broken_items ds cs us B U') as [items [D C]]. pose proof (broken_words ds cs items B C) as W.
  destruct (parse_any_total (fn :: lparen :: ds ++ us)) as [t T]. rewrite (parse_as _ _ _ _ L T).
  unfold parse_any, parse_fuel in T. dbind T er E. destruct er as [t' st]. injection T as ->.
  cbn [app length] in E. rewrite <- app_assoc in E. rewrite app_length in E.
  remember (length ds + length (us ++ [eof])) as n. replace (3 * S (S n) + 3) with (S (S (3 * n + 7))) in E by lia.
  destruct (D (3 * n + 7) 96 103) as [st0 [R _]]; [lia|].
  rewrite (call_words fn (S (3 * n + 7)) (lparen :: ds ++ us ++ [eof]) items true st0 H) in E.
  - unfold listen. rewrite (begins_walk dflt (PFuncErr fn items) t _ InvalidExpression); [reflexivity|eapply loop_begins, E|apply failed_call, W].
  - cbn [rwords]. rewrite match_hit by reflexivity. rewrite R. reflexivity.
Qed.
