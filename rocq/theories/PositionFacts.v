(** Where texts stand among the dotted versions. *)
From Coq Require Import QArith Lia ZifyBool ZifyNat ZifyN.
From Verif Require Import SpecRecover AnyText.
From Verif Require Import Base JNum BigDec Dates Version Values Ops Ast Eval Lexer Api SpecNum SpecBool SpecCompare SpecPath SpecLex SpecDate SpecMixed SpecSyntax SpecInsert SpecLabel SpecPosition
  JNumFacts NumFacts CompareFacts VersionFacts VersionTextFacts DateFacts MixedFacts LexApi LexWords LexTight OddText InsertFacts LabelFacts MeaningFacts.
Local Open Scope Z_scope.

(** ** Lists of items against numbers *)
Definition stops (t : list item) : Prop := match t with IInt _ :: _ => False | _ => True end.
Lemma stop_compare cs s t : trimmed s -> stops t -> list_compare (map I cs ++ t) (map I s) = match components_compare cs s with Eq => list_compare t [] | c => c end.
Proof.
  revert s. induction cs as [|y cs IH]; intros s T H.
  - destruct s as [|z s]; [rewrite components_refl; reflexivity|]. destruct (trimmed_positive (z :: s) T ltac:(discriminate)) as [-> R]. destruct t as [|i t]; [specialize (R []) as [R _]; rewrite app_nil_r in R; exact R|].
    destruct i; [contradiction|reflexivity|reflexivity].
  - destruct s as [|z s].
    + rewrite components_cons_nil. cbn [map app list_compare]. specialize (IH [] T H). cbn [map] in IH. rewrite IH. destruct y; reflexivity.
    + rewrite components_cons. cbn [map app list_compare]. replace (item_compare (I y) (I z)) with (y ?= z)%N by (symmetry; exact (N2Z.inj_compare y z)).
      rewrite IH; [destruct (y ?= z)%N; reflexivity| |exact H]. eapply trimmed_cons; eassumption.
Qed.

(** ** The scanner only adds to what it has *)
Definition parsed (st : list (list item) * list item) : list item := let (o, c) := st in close o c.
Lemma scan_adds s : forall outer cur buf dig, exists X, parsed (scan s outer cur buf dig) = close outer (X ++ cur).
Proof.
  induction s as [|c s IH]; intros outer cur buf dig; cbn [scan].
  - destruct buf as [|b buf]; [exists []; reflexivity|]. eexists [_]. reflexivity.
  - set (flushed := match buf with [] => IInt 0 | _ => _ end).
    assert (New : forall f b g, exists X, parsed (scan s ((f :: cur) :: outer) [] b g) = close outer (X ++ cur)).
    { intros f b g. destruct (IH ((f :: cur) :: outer) [] b g) as [X E]. rewrite E, close_cons. eexists [_; f]. reflexivity. }
    destruct (c =? ch ".")%N; [destruct (IH outer (flushed :: cur) [] dig) as [X E]; rewrite E; exists (X ++ [flushed]); rewrite <- app_assoc; reflexivity|].
    destruct (c =? ch "-")%N; [apply New|]. destruct (is_digit c), dig, buf; auto.
Qed.
(** The segment under way becomes an item. *)
Definition ends_segment (more : jstr) : Prop := more = [] \/ starts (fun c => is_digit c = true \/ separator c) more.
Lemma separator_cases c : (c =? ch ".")%N = true \/ (c =? ch ".")%N = false /\ (c =? ch "-")%N = true \/ (c =? ch ".")%N = false /\ (c =? ch "-")%N = false /\ ~ separator c.
Proof.
  destruct (c =? ch ".")%N eqn:A; [auto|]. right. destruct (c =? ch "-")%N eqn:B; [auto|]. right. split; [reflexivity|]. split; [reflexivity|]. apply N.eqb_neq in A, B. intros [H|H]; auto.
Qed.
Lemma label_ends more : ends_segment more -> forall b buf outer cur,
  exists X, parsed (scan more outer cur (b :: buf) false) = close outer (X ++ string_item (rev (b :: buf)) (match more with c :: _ => is_digit c | [] => false end) :: cur).
Proof.
  intros [-> | [c [r [-> H]]]] b buf outer cur; [exists []; reflexivity|]. cbn [scan]. destruct (separator_cases c) as [A|[[A B]|[A [B Nc]]]]; rewrite A, ?B.
  - assert (D : is_digit c = false) by (apply N.eqb_eq in A; subst c; reflexivity). rewrite D. destruct (scan_adds r outer (parse_item false (rev (b :: buf)) :: cur) [] false) as [X E]. exists X. exact E.
  - assert (D : is_digit c = false) by (apply N.eqb_eq in B; subst c; reflexivity). rewrite D. destruct (scan_adds r ((parse_item false (rev (b :: buf)) :: cur) :: outer) [] [] false) as [X E]. rewrite E, close_cons. eexists [_]. reflexivity.
  - destruct H as [H|H]; [|contradiction]. rewrite H. destruct (scan_adds r ((string_item (rev (b :: buf)) true :: cur) :: outer) [] [c] true) as [X E]. rewrite E, close_cons. eexists [_]. reflexivity.
Qed.
Lemma number_ends more : ~ starts (fun c => is_digit c = true) more -> forall b buf outer cur,
  exists X, parsed (scan more outer cur (b :: buf) true) = close outer (X ++ IInt (digits_val (rev (b :: buf))) :: cur).
Proof.
  intros H b buf outer cur. destruct more as [|c r]; [exists []; reflexivity|]. cbn [scan]. destruct (separator_cases c) as [A|[[A B]|[A [B Nc]]]]; rewrite A, ?B.
  - destruct (scan_adds r outer (parse_item true (rev (b :: buf)) :: cur) [] true) as [X E]. exists X. exact E.
  - destruct (scan_adds r ((parse_item true (rev (b :: buf)) :: cur) :: outer) [] [] true) as [X E]. rewrite E, close_cons. eexists [_]. reflexivity.
  - destruct (is_digit c) eqn:D; [exfalso; apply H; exists c, r; auto|]. destruct (scan_adds r ((parse_item true (rev (b :: buf)) :: cur) :: outer) [] [c] false) as [X E]. rewrite E, close_cons. eexists [_]. reflexivity.
Qed.

(** ** Words *)
Definition word_char (c : jchar) : Prop := is_digit c = false /\ ~ separator c.
Lemma word_char_other c : word_char c -> (c =? ch ".")%N = false /\ (c =? ch "-")%N = false /\ is_digit c = false.
Proof. intros [D H]. split; [apply N.eqb_neq; intros ->; apply H; left; reflexivity|]. split; [apply N.eqb_neq; intros ->; apply H; right; reflexivity|exact D]. Qed.
Lemma lower_word w : Forall word_char w -> Forall word_char (to_lower w).
Proof.
  intros H. apply Forall_forall. intros c I. apply in_map_iff in I. destruct I as [x [<- I]]. rewrite Forall_forall in H. specialize (H x I). unfold lower_char. destruct (is_upper x) eqn:U; [|exact H].
  unfold is_upper in U. split; [unfold is_digit; lia|]. intros [E|E]; revert E; change (ch ".") with 46%N; change (ch "-") with 45%N; lia.
Qed.
Lemma scan_word w : Forall word_char w -> forall s outer cur buf, scan (w ++ s) outer cur buf false = scan s outer cur (rev w ++ buf) false.
Proof.
  induction 1 as [|c w H _ IH]; intros s outer cur buf; [reflexivity|]. destruct (word_char_other c H) as [H1 [H2 H3]]. cbn [app scan]. rewrite H1, H2, H3, IH. cbn [rev]. rewrite <- app_assoc. reflexivity.
Qed.
(** At the start of a segment, or after a number. *)
Lemma word_start w s outer cur dig : Forall word_char w -> w <> [] -> scan (w ++ s) outer cur [] dig = scan s outer cur (rev w) false.
Proof.
  intros F N. destruct w as [|c w]; [contradiction|]. inversion F as [|? ? H F']; subst. destruct (word_char_other c H) as [H1 [H2 H3]]. cbn [app scan]. rewrite H1, H2, H3.
  assert (E : scan (w ++ s) outer cur [c] false = scan s outer cur (rev (c :: w)) false) by (rewrite (scan_word w F'); reflexivity). destruct dig; exact E.
Qed.
Lemma word_after w s outer cur b buf : Forall word_char w -> w <> [] ->
  scan (w ++ s) outer cur (b :: buf) true = scan s ((parse_item true (rev (b :: buf)) :: cur) :: outer) [] (rev w) false.
Proof.
  intros F N. destruct w as [|c w]; [contradiction|]. inversion F as [|? ? H F']; subst. destruct (word_char_other c H) as [H1 [H2 H3]]. cbn [app scan]. rewrite H1, H2, H3. rewrite (scan_word w F'). reflexivity.
Qed.

(** ** What is kept at the end *)
Definition solid (x : item) : Prop := item_is_null x = false /\ match x with IList _ => False | _ => True end.
Lemma solid_kept X x P : solid x -> exists Y, normalize_rev (X ++ x :: P) = Y ++ x :: P.
Proof.
  intros [N L]. induction X as [|i X [Y IH]]; cbn [app normalize_rev].
  - rewrite N. exists []. destruct x; [reflexivity|reflexivity|contradiction].
  - destruct (item_is_null i); [exists Y; exact IH|]. destruct i; [eexists (_ :: X); reflexivity|eexists (_ :: X); reflexivity|]. rewrite IH. eexists (_ :: Y). reflexivity.
Qed.
Lemma nested_kept X x P : solid x -> exists Y, close [P] (X ++ [x]) = rev (normalize_rev P) ++ [IList (x :: Y)].
Proof.
  intros H. rewrite close_cons. destruct (solid_kept X x [] H) as [Y ->]. rewrite rev_app_distr. cbn [rev app close normalize_rev item_is_null]. eexists. reflexivity.
Qed.
Lemma flat_kept X x P : solid x -> exists Y, close [] (X ++ x :: P) = rev P ++ x :: Y.
Proof. intros H. cbn [close]. destruct (solid_kept X x P H) as [Y ->]. rewrite rev_app_distr. cbn [rev]. rewrite <- app_assoc. eexists. reflexivity. Qed.

(** ** The numbers in front *)
Lemma digits_all ds : digits ds -> ds <> [] /\ JNum.all_digits ds = true.
Proof. intros [N D]. split; [exact N|]. apply forallb_forall. intros z Z. rewrite Forall_forall in D. apply D, Z. Qed.
Lemma begins_scan s cs rest : begins s cs rest -> cs <> [] -> forall outer cur dig, exists b buf, parse_item true (rev (b :: buf)) = I (last cs 0%N) /\
  scan (to_lower s) outer cur [] dig = scan (to_lower rest) outer (rev (map I (removelast cs)) ++ cur) (b :: buf) true.
Proof.
  assert (One : forall ds c, digits ds -> natural ds = Z.of_N c -> exists b buf, rev ds = b :: buf /\ parse_item true (rev (b :: buf)) = I c).
  { intros ds c D V. destruct (digits_all ds D) as [N A]. destruct (rev_nonnil _ _ N) as [b [buf E]]. exists b, buf. split; [exact E|]. rewrite <- E, rev_involutive. unfold parse_item, I. rewrite <- natural_val, V. reflexivity. }
  induction 1 as [rest _|ds c rest D V _|ds c rest D V _|ds c s x cs rest D V B IH]; intros NE outer cur dig; [contradiction| | |].
  - destruct (digits_all ds D) as [N A]. destruct (One ds c D V) as [b [buf [E P]]]. exists b, buf. split; [exact P|]. rewrite lower_append, (to_lower_digits ds A), (scan_digits_start ds _ _ _ _ N A), E. reflexivity.
  - destruct (digits_all ds D) as [N A]. destruct (One ds c D V) as [b [buf [E P]]]. exists b, buf. split; [exact P|]. rewrite lower_append, (to_lower_digits ds A), (scan_digits_start ds _ _ _ _ N A), E. reflexivity.
  - destruct (digits_all ds D) as [N A]. destruct (One ds c D V) as [b [buf [E P]]]. destruct (IH ltac:(discriminate) outer (I c :: cur) true) as [b' [buf' [P' E']]]. exists b', buf'. split; [exact P'|].
    rewrite !lower_append, (to_lower_digits ds A), (scan_digits_start ds _ _ _ _ N A), E. change (to_lower (J ".") ++ to_lower s) with (ch "." :: to_lower s). cbn [scan]. change ((ch "." =? ch ".")%N) with true. cbn iota.
    rewrite P, E'. cbn [removelast map rev]. rewrite <- app_assoc. reflexivity.
Qed.

(** ** The side *)
Lemma lower_starts_digit more : (match to_lower more with c :: _ => is_digit c | [] => false end) = (match more with c :: _ => is_digit c | [] => false end).
Proof. destruct more as [|c r]; [reflexivity|]. cbn [to_lower map]. unfold lower_char. destruct (is_upper c) eqn:U; [|reflexivity]. unfold is_upper in U. unfold is_digit. lia. Qed.
Lemma lower_ends more : ends_segment more -> ends_segment (to_lower more).
Proof.
  intros [-> | [c [r [-> H]]]]; [left; reflexivity|]. right. exists (lower_char c), (to_lower r). split; [reflexivity|]. destruct H as [H|[-> | ->]]; [left; rewrite (lower_digit c H); exact H|right; left; reflexivity|right; right; reflexivity].
Qed.
Lemma lower_no_digit more : ~ starts (fun c => is_digit c = true) more -> ~ starts (fun c => is_digit c = true) (to_lower more).
Proof.
  intros H [c [r [E D]]]. pose proof (lower_starts_digit more) as L. rewrite E in L. destruct more as [|x more]; [discriminate E|]. apply H. exists x, more. split; [reflexivity|]. rewrite <- L. exact D.
Qed.
Lemma lower_ignores w name : to_lower w = name -> ignoring_case w name.
Proof.
  intros <-. induction w as [|c w IH]; constructor; [|exact IH]. unfold lower_char. destruct (is_upper c) eqn:U; [right; auto|left; reflexivity].
Qed.
Lemma rep_side p : 0 <= p <= 6 -> compare_null (IStr (rep p)) = (p ?= 5).
Proof. intros R. assert (C : p = 0 \/ p = 1 \/ p = 2 \/ p = 3 \/ p = 4 \/ p = 5 \/ p = 6) by lia. decompose [or] C; subst; reflexivity. Qed.
Lemma known_item w more name p : known more name p -> p <> 5 -> ignoring_case w name ->
  let x := string_item (to_lower w) (match more with c :: _ => is_digit c | [] => false end) in solid x /\ compare_null x = (p ?= 5).
Proof.
  intros K N C x. assert (I : In (name, p) (stages ++ shortcuts)) by (apply in_or_app; destruct K as [K|[K _]]; auto). destruct (stage_names name p I) as [F [R _]].
  assert (E : x = IStr (rep p)).
  { unfold x. rewrite (lower_name w name C F). destruct K as [K|[K [c [r [-> D]]]]]; [apply stage_item, K|]. rewrite D. apply stage_item_numbered, I. }
  rewrite E. split; [|apply rep_side, R]. split; [|exact Logic.I]. rewrite (rep_null p R). apply Z.eqb_neq, N.
Qed.
Lemma other_item w more : w <> [] -> (forall name p, known more name p -> ~ ignoring_case w name) ->
  let x := string_item (to_lower w) (match more with c :: _ => is_digit c | [] => false end) in solid x /\ compare_null x = Gt.
Proof.
  intros N H x. set (y := to_lower w) in *. assert (Ny : y <> []) by (unfold y; destruct w; [contradiction|discriminate]).
  assert (No : forall name p, known more name p -> jstr_eqb y name = false).
  { intros name p K. destruct (jstr_eqb y name) eqn:E; [|reflexivity]. apply jstr_eqb_iff in E. exfalso. exact (H name p K (lower_ignores w name E)). }
  assert (St : forall name p, In (name, p) stages -> jstr_eqb y name = false) by (intros name p K; apply (No name p); left; exact K).
  assert (Sh : (match more with c :: _ => is_digit c | [] => false end) = true -> forall name p, In (name, p) shortcuts -> jstr_eqb y name = false).
  { intros D name p K. apply (No name p). right. split; [exact K|]. destruct more as [|c r]; [discriminate|]. exists c, r. auto. }
  assert (E : x = IStr y).
  { unfold x, string_item. cbv zeta. set (f := match more with c :: _ => is_digit c | [] => false end) in *. destruct f.
    - rewrite (Sh eq_refl (J "a") 0), (Sh eq_refl (J "b") 1), (Sh eq_refl (J "m") 2) by (cbn; tauto). rewrite (St (J "ga") 5), (St (J "final") 5), (St (J "cr") 3) by (cbn; tauto). reflexivity.
    - rewrite (St (J "ga") 5), (St (J "final") 5), (St (J "cr") 3) by (cbn; tauto). reflexivity. }
  assert (Sym : forall q, jstr_eqb y q = false -> jstr_eqb q y = false).
  { intros q E0. destruct (jstr_eqb q y) eqn:E1; [|reflexivity]. apply jstr_eqb_iff in E1. subst q. rewrite (proj2 (jstr_eqb_iff y y) eq_refl) in E0. discriminate. }
  assert (Q : comparable_qualifier y = J "7-" ++ y).
  { unfold comparable_qualifier, qualifiers, index_of. rewrite (Sym _ (St (J "alpha") 0 ltac:(cbn; tauto))), (Sym _ (St (J "beta") 1 ltac:(cbn; tauto))), (Sym _ (St (J "milestone") 2 ltac:(cbn; tauto))),
      (Sym _ (St (J "rc") 3 ltac:(cbn; tauto))), (Sym _ (St (J "snapshot") 4 ltac:(cbn; tauto))), (Sym _ (St (J "sp") 6 ltac:(cbn; tauto))). destruct y as [|c y']; [contradiction|reflexivity]. }
  rewrite E. split; [split; [|exact Logic.I]|]; cbn [item_is_null compare_null]; rewrite Q; reflexivity.
Qed.
Lemma number_item ds : digits ds -> 0 < natural ds -> solid (IInt (digits_val ds)) /\ compare_null (IInt (digits_val ds)) = Gt.
Proof. intros _ P. rewrite natural_val in P. unfold solid. cbn [item_is_null compare_null]. destruct (digits_val ds =? 0) eqn:E; [lia|auto]. Qed.

(** After numbers the rest is a list of its own, or it stands among them. *)
Lemma side_parsed rest p cs b buf cur : side rest p -> rest <> [] -> parse_item true (rev (b :: buf)) :: cur = rev (map I cs) ->
  exists cs' t, parsed (scan (to_lower rest) [] cur (b :: buf) true) = map I cs' ++ t /\ stops t /\ list_compare t [] = p /\ (forall s, components_compare cs' s = components_compare cs s).
Proof.
  intros H NR P.
  assert (Nested : forall X x, solid x -> compare_null x = p -> p <> Eq -> exists cs' t, close [rev (map I cs)] (X ++ [x]) = map I cs' ++ t /\ stops t /\ list_compare t [] = p /\ (forall s, components_compare cs' s = components_compare cs s)).
  { intros X x Sx Cx Np. destruct (nested_kept X x (rev (map I cs)) Sx) as [Y ->]. destruct (trim_components cs) as [r [k [Ec [_ ->]]]]. exists r, [IList (x :: Y)]. split; [reflexivity|]. split; [exact Logic.I|].
    split; [cbn [list_compare compare_null]; rewrite Cx; destruct p; [contradiction|reflexivity|reflexivity]|]. intros s. rewrite Ec. pose proof (components_zeros r k s 0) as K. cbn [repeat] in K. rewrite app_nil_r in K. symmetry. exact K. }
  assert (Flat : forall X x, solid x -> (forall n, x <> IInt n) -> compare_null x = p -> p <> Eq -> exists cs' t, close [] (X ++ x :: rev (map I cs)) = map I cs' ++ t /\ stops t /\ list_compare t [] = p /\ (forall s, components_compare cs' s = components_compare cs s)).
  { intros X x Sx Nx Cx Np. destruct (flat_kept X x (rev (map I cs)) Sx) as [Y ->]. rewrite rev_involutive. exists cs, (x :: Y). split; [reflexivity|]. split; [destruct x; [exact (Nx n eq_refl)|exact Logic.I|exact Logic.I]|].
    split; [cbn [list_compare]; rewrite Cx; destruct p; [contradiction|reflexivity|reflexivity]|]. reflexivity. }
  assert (Label : forall sep w more, In sep [[]; J "-"; J "."] -> word w more ->
    (let x := string_item (to_lower w) (match more with c :: _ => is_digit c | [] => false end) in solid x /\ compare_null x = p) -> p <> Eq ->
    exists cs' t, parsed (scan (to_lower (sep ++ w ++ more)) [] cur (b :: buf) true) = map I cs' ++ t /\ stops t /\ list_compare t [] = p /\ (forall s, components_compare cs' s = components_compare cs s)).
  { intros sep w more Hs [Nw [Fw Em]] [Sx Cx] Np. assert (Nl : to_lower w <> []) by (destruct w; [contradiction|discriminate]). pose proof (lower_word w Fw) as Fl.
    destruct (rev_nonnil _ _ Nl) as [c0 [r0 Er]]. rewrite !lower_append.
    assert (St : forall outer cur0, exists X, parsed (scan (to_lower more) outer cur0 (rev (to_lower w)) false) = close outer (X ++ string_item (to_lower w) (match more with c :: _ => is_digit c | [] => false end) :: cur0)).
    { intros outer cur0. rewrite Er. destruct (label_ends (to_lower more) (lower_ends more Em) c0 r0 outer cur0) as [X E]. rewrite lower_starts_digit, <- Er, rev_involutive in E. exists X. rewrite <- Er. exact E. }
    cbn [In] in Hs. destruct Hs as [<-|[<-|[<-|[]]]].
    - cbn [to_lower map app]. fold (to_lower w). fold (to_lower more). rewrite (word_after _ _ _ _ _ _ Fl Nl), P. destruct (St [rev (map I cs)] []) as [X ->]. apply Nested; assumption.
    - change (to_lower (J "-") ++ to_lower w ++ to_lower more) with (ch "-" :: to_lower w ++ to_lower more). cbn [scan]. change ((ch "-" =? ch ".")%N) with false. change ((ch "-" =? ch "-")%N) with true. cbn iota.
      rewrite P, (word_start _ _ _ _ _ Fl Nl). destruct (St [rev (map I cs)] []) as [X ->]. apply Nested; assumption.
    - change (to_lower (J ".") ++ to_lower w ++ to_lower more) with (ch "." :: to_lower w ++ to_lower more). cbn [scan]. change ((ch "." =? ch ".")%N) with true. cbn iota.
      rewrite P, (word_start _ _ _ _ _ Fl Nl). destruct (St [] (rev (map I cs))) as [X ->]. apply Flat; [assumption| |assumption|assumption]. intros n0 E. unfold string_item in E. discriminate E. }
  destruct H as [|sep w more name p Hs W K Np C|sep w more Hs W K|ds more D Pos Nm]; [contradiction| | |].
  - apply Label; [exact Hs|exact W|exact (known_item w more name p K Np C)|]. intros E. apply Z.compare_eq in E. contradiction.
  - apply Label; [exact Hs|exact W|apply other_item; [apply W|exact K]|discriminate].
  - destruct (digits_all ds D) as [Nd Ad]. rewrite !lower_append, (to_lower_digits ds Ad). change (to_lower (J "-") ++ ds ++ to_lower more) with (ch "-" :: ds ++ to_lower more). cbn [scan].
    change ((ch "-" =? ch ".")%N) with false. change ((ch "-" =? ch "-")%N) with true. cbn iota. rewrite P, (scan_digits_start ds _ _ _ _ Nd Ad). destruct (rev_nonnil _ _ Nd) as [c0 [r0 Er]]. rewrite Er.
    destruct (number_ends (to_lower more) (lower_no_digit more Nm) c0 r0 [rev (map I cs)] []) as [X ->]. rewrite <- Er, rev_involutive. destruct (number_item ds D Pos) as [Sx Cx]. apply Nested; [exact Sx|exact Cx|discriminate].
Qed.

Lemma side_first rest p : side rest p -> ~ starts (fun c => is_digit c = true \/ c = ch ".") rest ->
  exists t, parse_version rest = t /\ stops t /\ list_compare t [] = p.
Proof.
  intros H NS. change (parse_version rest) with (parsed (scan (to_lower rest) [] [] [] false)).
  assert (Nested : forall X x, solid x -> compare_null x = p -> p <> Eq -> exists t, close [[IInt 0]] (X ++ [x]) = t /\ stops t /\ list_compare t [] = p).
  { intros X x Sx Cx Np. destruct (nested_kept X x [IInt 0] Sx) as [Y ->]. eexists. split; [reflexivity|]. split; [exact Logic.I|]. cbn [normalize_rev item_is_null Z.eqb rev app list_compare compare_null]. rewrite Cx. destruct p; [contradiction|reflexivity|reflexivity]. }
  assert (Label : forall sep w more, rest = sep ++ w ++ more -> In sep [[]; J "-"; J "."] -> word w more ->
    (let x := string_item (to_lower w) (match more with c :: _ => is_digit c | [] => false end) in solid x /\ compare_null x = p) -> p <> Eq ->
    exists t, parsed (scan (to_lower rest) [] [] [] false) = t /\ stops t /\ list_compare t [] = p).
  { intros sep w more -> Hs [Nw [Fw Em]] [Sx Cx] Np. assert (Nl : to_lower w <> []) by (destruct w; [contradiction|discriminate]). pose proof (lower_word w Fw) as Fl.
    destruct (rev_nonnil _ _ Nl) as [c0 [r0 Er]]. rewrite !lower_append.
    assert (St : forall outer cur0, exists X, parsed (scan (to_lower more) outer cur0 (rev (to_lower w)) false) = close outer (X ++ string_item (to_lower w) (match more with c :: _ => is_digit c | [] => false end) :: cur0)).
    { intros outer cur0. rewrite Er. destruct (label_ends (to_lower more) (lower_ends more Em) c0 r0 outer cur0) as [X E]. rewrite lower_starts_digit, <- Er, rev_involutive in E. exists X. rewrite <- Er. exact E. }
    cbn [In] in Hs. destruct Hs as [<-|[<-|[<-|[]]]].
    - cbn [to_lower map app]. fold (to_lower w). fold (to_lower more). rewrite (word_start _ _ _ _ _ Fl Nl). destruct (St [] []) as [X ->]. destruct (flat_kept X _ [] Sx) as [Y ->]. eexists. split; [reflexivity|].
      cbn [rev app]. split; [exact Logic.I|]. cbn [list_compare]. rewrite Cx. destruct p; [contradiction|reflexivity|reflexivity].
    - change (to_lower (J "-") ++ to_lower w ++ to_lower more) with (ch "-" :: to_lower w ++ to_lower more). cbn [scan]. change ((ch "-" =? ch ".")%N) with false. change ((ch "-" =? ch "-")%N) with true. cbn iota.
      rewrite (word_start _ _ _ _ _ Fl Nl). destruct (St [[IInt 0]] []) as [X ->]. apply Nested; assumption.
    - exfalso. apply NS. exists (ch "."), (w ++ more). split; [reflexivity|right; reflexivity]. }
  destruct H as [|sep w more name p Hs W K Np C|sep w more Hs W K|ds more D Pos Nm].
  - exists []. split; [reflexivity|]. split; [exact Logic.I|reflexivity].
  - apply (Label sep w more); [reflexivity|exact Hs|exact W|exact (known_item w more name p K Np C)|]. intros E. apply Z.compare_eq in E. contradiction.
  - apply (Label sep w more); [reflexivity|exact Hs|exact W|apply other_item; [apply W|exact K]|discriminate].
  - destruct (digits_all ds D) as [Nd Ad]. rewrite !lower_append, (to_lower_digits ds Ad). change (to_lower (J "-") ++ ds ++ to_lower more) with (ch "-" :: ds ++ to_lower more). cbn [scan].
    change ((ch "-" =? ch ".")%N) with false. change ((ch "-" =? ch "-")%N) with true. cbn iota. rewrite (scan_digits_start ds _ _ _ _ Nd Ad). destruct (rev_nonnil _ _ Nd) as [c0 [r0 Er]]. rewrite Er.
    destruct (number_ends (to_lower more) (lower_no_digit more Nm) c0 r0 [[IInt 0]] []) as [X ->]. rewrite <- Er, rev_involutive. destruct (number_item ds D Pos) as [Sx Cx]. apply Nested; [exact Sx|exact Cx|discriminate].
Qed.

(** ** The order *)
Lemma numbers_parsed t b : begins t b [] -> exists r k, b = r ++ repeat 0%N k /\ trimmed r /\ parse_version t = map I r.
Proof.
  intros B. destruct (trim_components b) as [r [k [E [T H]]]]. exists r, k. split; [exact E|]. split; [exact T|]. rewrite <- H. change (parse_version t) with (parsed (scan (to_lower t) [] [] [] false)).
  destruct b as [|c b].
  - inversion B; subst. reflexivity.
  - destruct (begins_scan t (c :: b) [] B ltac:(discriminate) [] [] false) as [x [buf [P ->]]]. pose proof (rev_last (c :: b) ltac:(discriminate)) as RL. cbn [to_lower map scan parsed close]. rewrite P, app_nil_r, RL. reflexivity.
Qed.
Lemma position_of_list s cs t p b u : parse_version s = map I cs ++ t -> stops t -> list_compare t [] = p -> begins u b [] -> version_compare s u = placed cs p b.
Proof.
  intros E St C B. destruct (numbers_parsed u b B) as [r [k [Eb [T P]]]]. unfold version_compare. rewrite item_compare_list, E, P, (stop_compare cs r t T St), C, Eb. unfold placed.
  pose proof (components_zeros cs 0 r k) as K. cbn [repeat] in K. rewrite app_nil_r in K. rewrite K. reflexivity.
Qed.
Lemma position_known s cs rest p b u : begins s cs rest -> side rest p -> begins u b [] -> version_compare s u = placed cs p b.
Proof.
  intros S D B. destruct cs as [|c cs].
  - assert (E : s = rest /\ ~ starts (fun c => is_digit c = true \/ c = ch ".") rest) by (inversion S; subst; auto). destruct E as [-> NS]. destruct (side_first rest p D NS) as [t [E [St C]]].
    exact (position_of_list rest [] t p b u E St C B).
  - destruct (begins_scan s (c :: cs) rest S ltac:(discriminate) [] [] false) as [x [buf [P E]]]. pose proof (rev_last (c :: cs) ltac:(discriminate)) as RL. rewrite app_nil_r in E.
    destruct rest as [|r0 rest].
    + assert (p = Eq) as ->. { inversion D as [|sep w more nm q Hs W _ _ _ X|sep w more Hs W _ X|ds more _ _ _ X]; [reflexivity| |]; exfalso; apply app_eq_nil in X; destruct X as [_ X]; apply app_eq_nil in X; destruct X as [X _]; destruct W as [W _]; exact (W X). }
      destruct (numbers_parsed s (c :: cs) S) as [r [k [Ec [_ Hp]]]]. pose proof (position_of_list s r [] Eq b u) as H. rewrite app_nil_r in H. rewrite (H Hp Logic.I eq_refl B). unfold placed. rewrite Ec.
      pose proof (components_zeros r k b 0) as K. cbn [repeat] in K. rewrite app_nil_r in K. rewrite K. reflexivity.
    + destruct (side_parsed (r0 :: rest) p (c :: cs) x buf (rev (map I (removelast (c :: cs)))) D ltac:(discriminate)) as [cs' [t [Hp [St [C K]]]]]; [rewrite P; exact RL|].
      assert (Hs : parse_version s = map I cs' ++ t) by (change (parse_version s) with (parsed (scan (to_lower s) [] [] [] false)); rewrite E; exact Hp).
      rewrite (position_of_list s cs' t p b u Hs St C B). unfold placed. rewrite K. reflexivity.
Qed.

(** Every text has a position. *)
Definition fine (i : item) : Prop := match i with IInt n => 0 <= n | _ => True end.
Lemma fine_parse dig buf : (dig = true -> JNum.all_digits buf = true) -> fine (parse_item dig (rev buf)).
Proof.
  intros H. destruct dig; [|exact Logic.I]. cbn [parse_item]. unfold parse_item, fine. apply digits_val_nonneg. specialize (H eq_refl). unfold JNum.all_digits in *. rewrite forallb_forall in *. intros c I. apply H, in_rev, I.
Qed.
Lemma scan_fine s : forall outer cur buf dig, Forall (Forall fine) outer -> Forall fine cur -> (dig = true -> JNum.all_digits buf = true) ->
  Forall (Forall fine) (fst (scan s outer cur buf dig)) /\ Forall fine (snd (scan s outer cur buf dig)).
Proof.
  induction s as [|c s IH]; intros outer cur buf dig Fo Fc Fb; cbn [scan].
  - destruct buf as [|b buf]; [split; assumption|]. split; [assumption|]. apply Forall_cons; [apply (fine_parse dig (b :: buf)), Fb|assumption].
  - set (flushed := match buf with [] => IInt 0 | _ => _ end). assert (Ff : fine flushed) by (unfold flushed; destruct buf as [|b buf]; [cbn; lia|apply (fine_parse dig (b :: buf)), Fb]).
    assert (Nil : forall g : bool, g = true -> JNum.all_digits [] = true) by reflexivity.
    destruct (c =? ch ".")%N; [apply IH; auto|]. destruct (c =? ch "-")%N; [apply IH; auto|].
    destruct (is_digit c) eqn:D, dig; destruct buf as [|b buf]; apply IH; auto; try discriminate; try (intros _; unfold JNum.all_digits; cbn [forallb]; rewrite D; try reflexivity; apply (Fb eq_refl)).
Qed.
Lemma normalize_fine l : Forall fine l -> Forall fine (normalize_rev l).
Proof. induction 1 as [|i l H F IH]; cbn [normalize_rev]; [constructor|]. destruct (item_is_null i); [exact IH|]. destruct i; [constructor; assumption|constructor; assumption|constructor; [assumption|exact IH]]. Qed.
Lemma close_fine outer : forall cur, Forall (Forall fine) outer -> Forall fine cur -> Forall fine (close outer cur).
Proof.
  induction outer as [|P outer IH]; intros cur Fo Fc; cbn [close]; [apply Forall_rev, normalize_fine, Fc|]. inversion Fo; subst. apply IH; [assumption|]. constructor; [exact Logic.I|assumption].
Qed.
Lemma split_numbers l : Forall fine l -> exists cs t, l = map I cs ++ t /\ stops t.
Proof.
  induction 1 as [|i l H F [cs [t [-> St]]]]; [exists [], []; split; [reflexivity|exact Logic.I]|]. destruct i as [n|s|l'].
  - exists (Z.to_N n :: cs), t. split; [|exact St]. cbn [map app]. unfold I. rewrite Z2N.id by exact H. reflexivity.
  - exists [], (IStr s :: map I cs ++ t). split; [reflexivity|exact Logic.I].
  - exists [], (IList l' :: map I cs ++ t). split; [reflexivity|exact Logic.I].
Qed.
Lemma position_exists s : exists cs p, forall u b, begins u b [] -> version_compare s u = placed cs p b.
Proof.
  assert (F : Forall fine (parse_version s)).
  { unfold parse_version. pose proof (scan_fine (to_lower s) [] [] [] false (Forall_nil _) (Forall_nil _) ltac:(discriminate)) as [A B]. destruct (scan (to_lower s) [] [] [] false) as [o c]. apply close_fine; assumption. }
  destruct (split_numbers _ F) as [cs [t [E St]]]. exists cs, (list_compare t []). intros u b B. exact (position_of_list s cs t _ b u E St eq_refl B).
Qed.

(** ** In conditions *)
Lemma text_type s : exists ty, stands (VStr s) ty /\ (ty = STRING \/ ty = DATE \/ ty = DATETIME).
Proof.
  destruct (parse_datetime s) as [x|] eqn:T; [|destruct (parse_date s) as [a|] eqn:A].
  - exists DATETIME. split; [|auto]. apply (stands_datetime (VStr s) x). right. exists s. split; [reflexivity|]. apply parse_datetime_spec, T.
  - exists DATE. split; [|auto]. apply (stands_date (VStr s) a). right. exists s. split; [reflexivity|]. apply parse_date_spec, A.
  - exists STRING. split; [|auto]. apply stands_text; intros x W; [apply parse_date_spec in W|apply parse_datetime_spec in W]; congruence.
Qed.
Lemma version_outcome E d l r v s t op x : version_text op v s -> yields E d l v -> yields E d r (VVer t) ->
  (accepts op (version_compare s t) = Some x -> bool_eval E d (SpecCompare.cond l op r) = Ok x) /\ (accepts op (CompOpp (version_compare s t)) = Some x -> bool_eval E d (SpecCompare.cond r op l) = Ok x).
Proof.
  intros V L R.
  assert (H : exists ty, stands v ty /\ read_as v VERSION (AVersion s) /\ (forall c, accepts op c <> None -> meeting op ty VERSION = Some VERSION /\ meeting op VERSION ty = Some VERSION)).
  { destruct V as [[-> [N1 N2]]| ->].
    - destruct (text_type s) as [ty [S T]]. exists ty. split; [exact S|]. split; [apply (read_version (VStr s))|]. intros c0 A.
      destruct op; try contradiction; try (exfalso; apply A; destruct c0; reflexivity); destruct T as [-> |[-> | ->]]; split; reflexivity.
    - exists VERSION. split; [apply stands_version|]. split; [apply (read_version (VVer s))|]. intros c0 A. destruct op; try (exfalso; apply A; destruct c0; reflexivity); split; reflexivity. }
  destruct H as [ty [S [RD M]]]. split; intros A; (assert (A0 : accepts op Eq <> None) by (clear -A; destruct op; cbn in *; try discriminate; destruct (version_compare _ _); discriminate)); destruct (M _ A0) as [M1 M2].
  - exact (proj1 (mixed_comparison E d l r op Eq v (VVer t) ty VERSION A0 L R S (stands_version t)) VERSION _ _ _ x M1 RD (read_version (VVer t)) (by_version s t) A).
  - rewrite <- version_compare_antisym in A.
    exact (proj1 (mixed_comparison E d r l op Eq (VVer t) v VERSION ty A0 R L (stands_version t) S) VERSION _ _ _ x M2 (read_version (VVer t)) RD (by_version t s) A).
Qed.
Lemma position_condition s : exists cs p, forall E d l r v u b op x, version_text op v s -> begins u b [] -> yields E d l v -> yields E d r (VVer u) ->
  (accepts op (placed cs p b) = Some x -> bool_eval E d (SpecCompare.cond l op r) = Ok x) /\ (accepts op (CompOpp (placed cs p b)) = Some x -> bool_eval E d (SpecCompare.cond r op l) = Ok x).
Proof.
  destruct (position_exists s) as [cs [p H]]. exists cs, p. intros E d l r v u b op x V B L R. rewrite <- (H u b B). exact (version_outcome E d l r v s u op x V L R).
Qed.
Lemma side_condition E d l r v s cs rest p u b op x : begins s cs rest -> side rest p -> version_text op v s -> begins u b [] -> yields E d l v -> yields E d r (VVer u) ->
  (accepts op (placed cs p b) = Some x -> bool_eval E d (SpecCompare.cond l op r) = Ok x) /\ (accepts op (CompOpp (placed cs p b)) = Some x -> bool_eval E d (SpecCompare.cond r op l) = Ok x).
Proof. intros S D V B L R. rewrite <- (position_known s cs rest p b u S D B). exact (version_outcome E d l r v s u op x V L R). Qed.
Lemma no_start P : ~ starts P ([] : jstr).
Proof. intros [c [r [E _]]]. discriminate E. Qed.
Lemma dotted_begins b : b <> [] -> begins (dotted b) b [].
Proof.
  assert (D : forall c, digits (print_N c) /\ natural (print_N c) = Z.of_N c).
  { intros c. split; [apply print_digits|]. rewrite natural_val. apply print_N_val. }
  induction b as [|c [|c' b] IH]; intros N; [contradiction| |].
  - cbn [dotted]. rewrite <- (app_nil_r (print_N c)). apply b_last; [apply D|apply D|apply no_start].
  - change (dotted (c :: c' :: b)) with (print_N c ++ J "." ++ dotted (c' :: b)). apply b_more; [apply D|apply D|apply IH; discriminate].
Qed.
Lemma side_written E d dflt f m sym op v s cs rest p b x : operand f m -> In (sym, op) comparators -> begins s cs rest -> side rest p -> version_text op v s -> yields E d m v ->
  (3 <= length b)%nat -> (hd 10 b < 10)%N -> accepts op (placed cs p b) = Some x -> evaluate_boolean E (comparison_text f sym (dotted b)) d dflt = Ok x.
Proof.
  intros F C S D V Y L H X. rewrite (literal_compared E d dflt f m sym op _ _ _ F C (literal_version b L H)). assert (B : b <> []) by (intros ->; cbn in L; lia).
  exact (proj1 (side_condition E d m _ v s cs rest p _ b op x S D V (dotted_begins b B) Y (literal_yields E d VERSION (VVer (dotted b)) ltac:(discriminate))) X).
Qed.

(** ** Thresholds *)
Lemma components_lt_trans a b c : components_compare a b <> Gt -> components_compare b c = Lt -> components_compare a c = Lt.
Proof.
  intros H K. destruct (components_compare a c) eqn:E; [exfalso|reflexivity|exfalso].
  - assert (components_compare c b <> Gt). { apply (components_trans c a b); [rewrite components_antisym, E; discriminate|exact H]. } rewrite components_antisym, K in H0. apply H0. reflexivity.
  - apply (components_trans a b c H); [rewrite K; discriminate|exact E].
Qed.
Lemma components_trans_lt a b c : components_compare a b = Lt -> components_compare b c <> Gt -> components_compare a c = Lt.
Proof.
  intros H K. pose proof (components_antisym b c) as A. rewrite (components_antisym c a). rewrite (components_antisym b a) in H. destruct (components_compare b a) eqn:Eb; try discriminate H.
  assert (Ec : components_compare c a = Gt); [|rewrite Ec; reflexivity]. destruct (components_compare c a) eqn:E; [exfalso|exfalso|reflexivity]; apply (components_trans b c a K); try (rewrite E; discriminate); exact Eb.
Qed.
Lemma components_eq_right cs a b : components_compare a b = Eq -> components_compare cs a = components_compare cs b.
Proof.
  intros H. assert (H' : components_compare b a = Eq) by (rewrite components_antisym, H; reflexivity).
  destruct (components_compare cs a) eqn:A; destruct (components_compare cs b) eqn:B; try reflexivity; exfalso.
  - assert (X : components_compare cs a = Lt) by (apply (components_trans_lt cs b a B); rewrite H'; discriminate). congruence.
  - apply (components_trans cs a b); [rewrite A; discriminate|rewrite H; discriminate|exact B].
  - assert (X : components_compare cs b = Lt) by (apply (components_trans_lt cs a b A); rewrite H; discriminate). congruence.
  - apply (components_trans cs a b); [rewrite A; discriminate|rewrite H; discriminate|exact B].
  - apply (components_trans cs b a); [rewrite B; discriminate|rewrite H'; discriminate|exact A].
  - apply (components_trans cs b a); [rewrite B; discriminate|rewrite H'; discriminate|exact A].
Qed.
Lemma placed_down cs p a b : components_compare a b <> Gt -> placed cs p a = placed cs p b \/ placed cs p a = Gt \/ placed cs p b = Lt.
Proof.
  intros H. destruct (components_compare a b) eqn:E; [left; unfold placed; rewrite (components_eq_right cs a b E); reflexivity| |contradiction]. unfold placed.
  destruct (components_compare cs a) eqn:A; [| |auto].
  - right. right. assert (X : components_compare cs b = Lt) by (apply (components_lt_trans cs a b); [rewrite A; discriminate|exact E]). rewrite X. reflexivity.
  - right. right. assert (X : components_compare cs b = Lt) by (apply (components_lt_trans cs a b); [rewrite A; discriminate|exact E]). rewrite X. reflexivity.
Qed.
Lemma looser_accepts op cs p a b : looser op b a -> accepts op (placed cs p b) = Some true -> accepts op (placed cs p a) = Some true.
Proof.
  unfold looser. destruct op; try contradiction; intros H; destruct (placed_down cs p _ _ H) as [-> |[E|E]]; auto; rewrite E; try reflexivity; try discriminate; destruct (placed cs p _); try discriminate; reflexivity.
Qed.
(** A text with two points is no number. *)
Definition points (s : jstr) : nat := count_occ N.eq_dec s (ch ".").
Lemma digits_points ds : JNum.all_digits ds = true -> points ds = 0%nat.
Proof. intros A. unfold points. apply count_occ_not_In. intros I. unfold JNum.all_digits in A. rewrite forallb_forall in A. specialize (A _ I). discriminate A. Qed.
Lemma points_app a b : points (a ++ b) = (points a + points b)%nat.
Proof. apply count_occ_app. Qed.
Lemma sign_points n s : sign_text n s -> points s = 0%nat.
Proof. destruct 1; reflexivity. Qed.
Lemma number_points s q : written_number s q -> (points s <= 1)%nat.
Proof.
  intros (neg & sg & ip & fp & f & e & x & -> & S & A & F & _ & X & _). rewrite !points_app, (sign_points _ _ S), (digits_points ip A).
  assert (Pf : (points f <= 1)%nat) by (destruct F as [|ds A']; [cbn; lia|rewrite points_app, (digits_points ds A'); cbn; lia]).
  assert (Px : points x = 0%nat) by (destruct X as [|neg' letter sg' ds' e' Lt S' N' A' _ _ _]; [reflexivity|]; rewrite !points_app, (sign_points _ _ S'), (digits_points ds' A'); destruct Lt as [-> | ->]; reflexivity). lia.
Qed.
Lemma begins_points t b : begins t b [] -> (length b <= S (points t))%nat.
Proof.
  remember [] as rest. induction 1 as [rest H|ds c rest D V H|ds c rest D V H|ds c s x cs rest D V B IH]; [cbn; lia|cbn; lia|discriminate|]. specialize (IH Heqrest). destruct (digits_all ds D) as [_ A].
  rewrite !points_app, (digits_points ds A). change (points (J ".")) with 1%nat. cbn [length] in *. lia.
Qed.
Lemma thresholds E d l v op ra rb a b ua ub : yields E d l v -> SpecExact.genuine v -> begins ua a [] -> begins ub b [] -> (3 <= length a)%nat -> (3 <= length b)%nat -> yields E d ra (VVer ua) -> yields E d rb (VVer ub) -> looser op b a ->
  bool_eval E d (SpecCompare.cond l op rb) = Ok true -> bool_eval E d (SpecCompare.cond l op ra) = Ok true.
Proof.
  intros L G Ba Bb La Lb Ya Yb Lo H. assert (A0 : accepts op Eq <> None) by (destruct op; try contradiction; discriminate). assert (NE : op <> EQUALS /\ op <> NOT_EQUAL) by (destruct op; try contradiction; split; discriminate).
  destruct (genuine_kinds v G) as [[ty S]|[dbl [t [-> F]]]]; [apply L| |rewrite (not_finite_left E d l rb op Eq dbl t _ A0 F L Yb) in H; discriminate].
  destruct (mixed_comparison E d l rb op Eq v (VVer ub) ty VERSION A0 L Yb S (stands_version ub)) as [_ [Bad Cases]]. destruct Cases as [I|(t & m & m' & c & x & M & R & R' & K & X)]; [rewrite (Bad I) in H; discriminate|].
  assert (T : t = VERSION).
  { assert (Nn : forall q, ~ valued (VVer ub) q). { intros q W. apply number_points in W. pose proof (begins_points ub b Bb). cbn [show] in W. lia. }
    destruct op; try contradiction; destruct ty; cbn in M; try discriminate M; injection M as <-; try reflexivity; exfalso; inversion R'; subst; eapply Nn; eassumption. }
  subst t. inversion R; subst. inversion R'; subst. inversion K; subst.
  destruct (position_exists (show v)) as [cs [p P]]. cbn [show] in *. rewrite (P ub b Bb) in X.
  pose proof (proj1 (mixed_comparison E d l rb op Eq v (VVer ub) ty VERSION A0 L Yb S (stands_version ub)) VERSION _ _ _ x M (read_version v) (read_version (VVer ub)) (by_version (show v) ub)) as O. cbn [show] in O. rewrite (P ub b Bb) in O.
  specialize (O X). rewrite H in O. injection O as <-.
  apply (proj1 (mixed_comparison E d l ra op Eq v (VVer ua) ty VERSION A0 L Ya S (stands_version ua)) VERSION _ _ _ true M (read_version v) (read_version (VVer ua)) (by_version (show v) ua)). cbn [show]. rewrite (P ua a Ba).
  exact (looser_accepts op cs p a b Lo X).
Qed.
Lemma field_yields E d f op u x : proper_data d -> to_lower f <> J "null" -> op <> EQUALS -> op <> NOT_EQUAL ->
  bool_eval E d (SpecCompare.cond (NField (Some f)) op (NUnary VERSION (VVer u))) = Ok x -> exists v, yields E d (NField (Some f)) v.
Proof.
  intros P N N1 N2 H. unfold SpecCompare.cond in H. cbn [bool_eval is_arith_base] in H.
  assert (K : is_null_check (NField (Some f)) (NUnary VERSION (VVer u)) op = Ok false) by (destruct op; try reflexivity; contradiction).
  destruct (field_cases d (Some f) P) as [[v [F Nv]]|[F|[e [F _]]]]; rewrite F in H; cbn [bind] in H; rewrite ?K in H; cbn [bind] in H; try discriminate H.
  exists v. split; [cbn [arith_eval]; unfold field_value_or_fail; rewrite F; reflexivity|]. split; [exact Nv|].
  intros [g [E0 L]]. injection E0 as <-. contradiction.
Qed.
Lemma thresholds_written E d dflt f sym op a b : field_name f -> to_lower f <> J "null" -> proper_data d -> (forall v, yields E d (NField (Some f)) v -> SpecExact.genuine v) -> In (sym, op) comparators ->
  (3 <= length a)%nat -> (hd 10 a < 10)%N -> (3 <= length b)%nat -> (hd 10 b < 10)%N -> looser op b a ->
  evaluate_boolean E (comparison_text f sym (dotted b)) d dflt = Ok true -> evaluate_boolean E (comparison_text f sym (dotted a)) d dflt = Ok true.
Proof.
  intros F Nn P G C La Ha Lb Hb Lo. rewrite (literal_compared E d dflt f _ sym op _ _ _ (o_field f F) C (literal_version b Lb Hb)), (literal_compared E d dflt f _ sym op _ _ _ (o_field f F) C (literal_version a La Ha)). intros H.
  assert (NE : op <> EQUALS /\ op <> NOT_EQUAL) by (destruct op; try contradiction; split; discriminate). destruct (field_yields E d f op _ true P Nn (proj1 NE) (proj2 NE) H) as [v Y].
  assert (A : a <> []) by (intros ->; cbn in La; lia). assert (B : b <> []) by (intros ->; cbn in Lb; lia).
  exact (thresholds E d _ v op _ _ a b _ _ Y (G v Y) (dotted_begins a A) (dotted_begins b B) La Lb (literal_yields E d VERSION (VVer (dotted a)) ltac:(discriminate)) (literal_yields E d VERSION (VVer (dotted b)) ltac:(discriminate)) Lo H).
Qed.
(** The order of versions with labels goes round in circles. *)
Lemma circle E d : let holds s t := bool_eval E d (SpecCompare.cond (lit (VVer s)) LESS_THAN (lit (VVer t))) = Ok true in
  holds (J "1.0.rc1") (J "1.0") /\ holds (J "1.0") (J "1.0-1") /\ holds (J "1.0-1") (J "1.0.rc1").
Proof. cbv zeta. repeat split; vm_compute; reflexivity. Qed.

(** For concrete texts *)
Lemma other_check w more : forallb (fun np => negb (jstr_eqb (to_lower w) (fst np))) (stages ++ shortcuts) = true -> forall name p, known more name p -> ~ ignoring_case w name.
Proof.
  intros H name p K C. assert (I : In (name, p) (stages ++ shortcuts)) by (apply in_or_app; destruct K as [K|[K _]]; auto). destruct (stage_names name p I) as [F _]. rewrite forallb_forall in H. specialize (H _ I). cbn [fst] in H.
  rewrite (lower_name w name C F), (proj2 (jstr_eqb_iff name name) eq_refl) in H. discriminate.
Qed.
Lemma word_check w more : w <> [] -> forallb (fun c => negb (is_digit c) && negb (c =? ch ".")%N && negb (c =? ch "-")%N) w = true ->
  match more with [] => true | c :: _ => is_digit c || (c =? ch ".")%N || (c =? ch "-")%N end = true -> word w more.
Proof.
  intros N F M. split; [exact N|]. split.
  - apply Forall_forall. intros c H. rewrite forallb_forall in F. specialize (F c H). destruct (is_digit c); [discriminate|]. split; [reflexivity|].
    destruct (separator_cases c) as [A|[[A B]|[A [B Nc]]]]; rewrite A, ?B in F; try discriminate F. exact Nc.
  - destruct more as [|c r]; [auto|]. right. exists c, r. split; [reflexivity|]. destruct (is_digit c); [auto|]. right. destruct (N.eqb_spec c (ch ".")); [left; assumption|]. right. apply N.eqb_eq. destruct (c =? ch "-")%N; [reflexivity|discriminate M].
Qed.
Lemma starts_check (s : jstr) : match s with [] => true | c :: _ => negb (is_digit c) && negb (c =? ch ".")%N end = true -> ~ starts (fun c => is_digit c = true \/ c = ch ".") s.
Proof. intros H [c [r [-> [D| ->]]]]; [rewrite D in H|]; discriminate H. Qed.
Lemma digits_check ds : ds <> [] -> forallb is_digit ds = true -> digits ds.
Proof. intros N H. split; [exact N|]. apply Forall_forall. intros c I. rewrite forallb_forall in H. exact (H c I). Qed.
