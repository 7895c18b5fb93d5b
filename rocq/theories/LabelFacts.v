(** Versions with labels. *)
From Coq Require Import QArith Lia ZifyBool ZifyNat ZifyN.
From Verif Require Import SpecRecover AnyText.
From Verif Require Import Base JNum BigDec Dates Version Values Ops Ast Eval Lexer Api SpecNum SpecBool SpecCompare SpecPath SpecLex SpecDate SpecMixed SpecSyntax SpecInsert SpecLabel
  JNumFacts NumFacts CompareFacts VersionFacts VersionTextFacts DateFacts MixedFacts LexApi LexWords LexTight OddText InsertFacts.
Local Open Scope Z_scope.

(** ** Labels and case *)
Definition name_char (d : jchar) : Prop := is_lower d = true.
Lemma lower_name q name : ignoring_case q name -> Forall name_char name -> to_lower q = name.
Proof.
  induction 1 as [|c d q name H _ IH]; intros F; [reflexivity|]. inversion F as [|? ? L F']; subst. cbn [to_lower map]. unfold to_lower in IH. rewrite (IH F'). f_equal.
  unfold lower_char. destruct H as [-> | [U ->]]; [|rewrite U; reflexivity]. unfold name_char, is_lower in L. unfold is_upper. destruct ((65 <=? d) && (d <=? 90))%N eqn:E; [lia|reflexivity].
Qed.
Lemma stage_names name p : In (name, p) (stages ++ shortcuts) -> Forall name_char name /\ 0 <= p <= 6 /\ exists c r, name = c :: r.
Proof. intros I. cbn [stages shortcuts app In] in I. repeat (destruct I as [I|I]; [injection I as <- <-; split; [repeat constructor|]; split; [lia|eexists _, _; reflexivity]|]). contradiction. Qed.
Definition rep (p : Z) : jstr := nth (Z.to_nat p) qualifiers [].
Lemma stage_item name p f : In (name, p) stages -> string_item name f = IStr (rep p).
Proof. intros I. cbn [stages In] in I. repeat (destruct I as [I|I]; [injection I as <- <-; destruct f; reflexivity|]). contradiction. Qed.
Lemma stage_item_numbered name p : In (name, p) (stages ++ shortcuts) -> string_item name true = IStr (rep p).
Proof. intros I. apply in_app_or in I. destruct I as [I|I]; [apply stage_item, I|]. cbn [shortcuts In] in I. repeat (destruct I as [I|I]; [injection I as <- <-; reflexivity|]). contradiction. Qed.
Lemma name_char_other c : name_char c -> (c =? ch ".")%N = false /\ (c =? ch "-")%N = false /\ is_digit c = false.
Proof. unfold name_char, is_lower, is_digit. intros H. cbn. lia. Qed.
Lemma scan_letters w : Forall name_char w -> forall s outer cur buf, scan (w ++ s) outer cur buf false = scan s outer cur (rev w ++ buf) false.
Proof.
  induction 1 as [|c w H _ IH]; intros s outer cur buf; [reflexivity|]. destruct (name_char_other c H) as [H1 [H2 H3]]. cbn [app scan]. rewrite H1, H2, H3, IH. cbn [rev]. rewrite <- app_assoc. reflexivity.
Qed.
Definition number_tail (n : Z) : list item := if n =? 0 then [] else [IList [IInt n]].
Definition tail (p n : Z) : list item := if p =? 5 then [] else [IList (IStr (rep p) :: number_tail n)].

(** ** What the scanner makes of a label *)
Lemma rep_null p : 0 <= p <= 6 -> item_is_null (IStr (rep p)) = (p =? 5).
Proof. intros R. assert (C : p = 0 \/ p = 1 \/ p = 2 \/ p = 3 \/ p = 4 \/ p = 5 \/ p = 6) by lia. decompose [or] C; subst; reflexivity. Qed.
Lemma letters_start w s outer cur dig : Forall name_char w -> w <> [] -> scan (w ++ s) outer cur [] dig = scan s outer cur (rev w) false.
Proof.
  intros F N. destruct w as [|c w]; [contradiction|]. inversion F as [|? ? H F']; subst. destruct (name_char_other c H) as [H1 [H2 H3]]. cbn [app scan]. rewrite H1, H2, H3.
  assert (E : scan (w ++ s) outer cur [c] false = scan s outer cur (rev (c :: w)) false) by (rewrite (scan_letters w F'); reflexivity). destruct dig; exact E.
Qed.
Lemma close_cons parent outer cur : close (parent :: outer) cur = close outer (IList (rev (normalize_rev cur)) :: parent).
Proof. reflexivity. Qed.
Lemma label_closed l p n cur dig : label l p n -> (let (o, c) := scan (to_lower l) [cur] [] [] dig in close o c) = rev (normalize_rev (tail p n ++ cur)).
Proof.
  destruct 1 as [q name p I C|q name p ds I P5 C D].
  - destruct (stage_names name p) as [F [R [c0 [r0 N]]]]; [apply in_or_app; auto|]. rewrite (lower_name q name C F). rewrite <- (app_nil_r name) at 1. rewrite letters_start; [|exact F|rewrite N; discriminate].
    cbn [scan]. assert (RN : exists x y, rev name = x :: y) by (apply rev_nonnil; rewrite N; discriminate). destruct RN as [x [y RN]]. rewrite RN, <- RN. rewrite rev_involutive. cbn [parse_item].
    unfold parse_item. rewrite (stage_item name p false I). rewrite close_cons. cbn [close]. f_equal. cbn [normalize_rev]. rewrite (rep_null p R). unfold tail.
    destruct (p =? 5) eqn:E; cbn [rev app number_tail Z.eqb normalize_rev item_is_null]; reflexivity.
  - destruct (stage_names name p I) as [F [R [c0 [r0 N]]]]. destruct D as [Dn Dd]. assert (Da : JNum.all_digits ds = true) by (apply forallb_forall; intros z Z; rewrite Forall_forall in Dd; apply Dd, Z).
    unfold to_lower. rewrite map_app. fold (to_lower q). fold (to_lower ds). rewrite (lower_name q name C F), (to_lower_digits ds Da). rewrite letters_start; [|exact F|rewrite N; discriminate].
    assert (RN : exists x y, rev name = x :: y) by (apply rev_nonnil; rewrite N; discriminate). destruct RN as [x [y RN]].
    destruct ds as [|c ds]; [contradiction|]. inversion Dd as [|? ? Hc Hd]; subst. cbn [scan]. destruct (digit_not_dot c Hc) as [-> ->]. rewrite Hc. rewrite RN, <- RN.
    rewrite rev_involutive, (stage_item_numbered _ p I). rewrite <- (app_nil_r ds). rewrite scan_digits by (unfold JNum.all_digits in Da; cbn [forallb] in Da; apply andb_true_iff in Da; apply Da).
    cbn [scan]. change (rev ds ++ [c]) with (rev (c :: ds)).
    destruct (rev_nonnil _ (c :: ds) ltac:(discriminate)) as [x' [y' RN']]. rewrite RN', <- RN'. rewrite rev_involutive. unfold parse_item. rewrite <- natural_val, app_nil_r. rewrite !close_cons. cbn [close].
    f_equal. unfold tail, number_tail. replace (p =? 5) with false by (symmetry; apply Z.eqb_neq; exact P5). pose proof (rep_null p R) as RP. replace (p =? 5) with false in RP by (symmetry; apply Z.eqb_neq; exact P5).
    cbn [normalize_rev]. change (item_is_null (IInt (natural (c :: ds)))) with (natural (c :: ds) =? 0). destruct (natural (c :: ds) =? 0) eqn:Z0; cbn [rev app normalize_rev].
    + change (item_is_null (IList [])) with true. cbn iota. rewrite RP. reflexivity.
    + change (item_is_null (IList [IInt (natural (c :: ds))])) with false. cbn iota. rewrite RP. reflexivity.
Qed.

(** ** Components followed by more *)
Lemma scan_components cs s outer cur dig : cs <> [] -> exists buf, buf <> [] /\ parse_item true (rev buf) = I (last cs 0%N) /\
  scan (dotted cs ++ s) outer cur [] dig = scan s outer (rev (map I (removelast cs)) ++ cur) buf true.
Proof.
  revert outer cur dig. induction cs as [|c [|c' cs] IH]; intros outer cur dig Hn; [congruence| |].
  - exists (rev (print_N c)). split; [intros E; apply (f_equal (@rev jchar)) in E; rewrite rev_involutive in E; exact (print_N_nonnil c E)|]. split; [apply parse_item_digits|].
    cbn [dotted removelast map rev app]. apply scan_digits_start; auto using print_N_nonnil, print_N_digits.
  - destruct (IH outer (I c :: cur) true ltac:(discriminate)) as [buf [N [P E]]]. exists buf. split; [exact N|]. split; [exact P|].
    change (dotted (c :: c' :: cs)) with (print_N c ++ ch "." :: dotted (c' :: cs)). rewrite <- app_assoc. rewrite scan_digits_start by auto using print_N_nonnil, print_N_digits.
    destruct (rev_nonnil _ _ (print_N_nonnil c)) as (x & r & E0). cbn [app scan]. pose proof (parse_item_digits c) as P0. rewrite E0 in P0 |- *. rewrite P0.
    change ((ch "." =? ch ".")%N) with true. cbn iota. rewrite E. cbn [removelast map rev]. rewrite <- !app_assoc. reflexivity.
Qed.
Lemma rev_last cs : cs <> [] -> I (last cs 0%N) :: rev (map I (removelast cs)) = rev (map I cs).
Proof. intros N. rewrite (app_removelast_last 0%N N) at 3. rewrite map_app, rev_app_distr. reflexivity. Qed.
Lemma label_first l p n : label l p n -> exists c r, to_lower l = c :: r /\ name_char c.
Proof.
  assert (H : forall q name p, In (name, p) (stages ++ shortcuts) -> ignoring_case q name -> forall s, exists c r, to_lower (q ++ s) = c :: r /\ name_char c).
  { intros q name p0 I C s. destruct (stage_names name p0 I) as [F [_ [c [r E]]]]. unfold to_lower. rewrite map_app. fold (to_lower q). rewrite (lower_name q name C F), E. rewrite E in F. inversion F as [|? ? L _]; subst. exists c, (r ++ map lower_char s). split; [reflexivity|assumption]. }
  destruct 1 as [q name p I C|q name p ds I _ C _]; [|eapply H; eassumption]. rewrite <- (app_nil_r q). eapply H; [apply in_or_app; left; eassumption|eassumption].
Qed.
Lemma lower_append a b : to_lower (a ++ b) = to_lower a ++ to_lower b.
Proof. apply map_app. Qed.
Lemma release_parsed s cs p n : release s cs p n -> parse_version s = rev (normalize_rev (tail p n ++ rev (map I cs))).
Proof.
  destruct 1 as [cs N|cs sep l p n N Sp L]; [rewrite parse_dotted by exact N; reflexivity|].
  unfold parse_version. rewrite !lower_append, to_lower_dotted. destruct (scan_components cs (to_lower sep ++ to_lower l) [] [] false N) as [buf [Nb [P E]]]. rewrite E. clear E.
  rewrite app_nil_r. destruct buf as [|b0 buf]; [contradiction|]. pose proof (rev_last cs N) as RL. destruct Sp as [-> | ->].
  - change (to_lower (J "-") ++ to_lower l) with (ch "-" :: to_lower l). cbn [scan]. change ((ch "-" =? ch ".")%N) with false. change ((ch "-" =? ch "-")%N) with true. cbn iota. rewrite P, RL.
    apply (label_closed l p n _ true L).
  - cbn [to_lower map app]. destruct (label_first l p n L) as [c [r [El Hc]]]. pose proof (label_closed l p n (rev (map I cs)) false L) as LC. fold (to_lower l). rewrite El in *.
    destruct (name_char_other c Hc) as [H1 [H2 H3]]. cbn [scan] in *. rewrite H1, H2, H3 in *. rewrite P, RL. exact LC.
Qed.

(** ** Comparing *)
Definition trimmed (r : list N) : Prop := forall r', r <> r' ++ [0%N].
Fixpoint drop0 (l : list N) : list N := match l with 0%N :: l' => drop0 l' | _ => l end.
Lemma drop0_ints l : normalize_rev (map I l) = map I (drop0 l).
Proof. induction l as [|c l IH]; [reflexivity|]. cbn [map normalize_rev item_is_null I]. destruct c as [|c]; [exact IH|reflexivity]. Qed.
Lemma drop0_prefix l : exists k, l = repeat 0%N k ++ drop0 l.
Proof. induction l as [|c l [k IH]]; [exists 0%nat; reflexivity|]. destruct c as [|c]; [exists (S k); cbn [repeat app drop0]; rewrite <- IH; reflexivity|exists 0%nat; reflexivity]. Qed.
Lemma drop0_head l l' : drop0 l <> 0%N :: l'.
Proof. induction l as [|c l IH]; [discriminate|]. destruct c as [|c]; [exact IH|discriminate]. Qed.
Lemma trim_components cs : exists r k, cs = r ++ repeat 0%N k /\ trimmed r /\ rev (normalize_rev (rev (map I cs))) = map I r.
Proof.
  destruct (drop0_prefix (rev cs)) as [k E]. exists (rev (drop0 (rev cs))), k. split; [|split].
  - rewrite <- (rev_involutive cs) at 1. rewrite E at 1. rewrite rev_app_distr, rev_repeat. reflexivity.
  - intros r' H. apply (f_equal (@rev N)) in H. rewrite rev_involutive, rev_app_distr in H. exact (drop0_head _ _ H).
  - rewrite <- map_rev, drop0_ints, <- map_rev. reflexivity.
Qed.
Lemma trimmed_cons x r : trimmed (x :: r) -> trimmed r.
Proof. intros T r' ->. apply (T (x :: r')). reflexivity. Qed.
Lemma components_cons x a y b : components_compare (x :: a) (y :: b) = match (x ?= y)%N with Eq => components_compare a b | c => c end.
Proof. unfold components_compare. cbn [length Nat.max]. unfold padded. cbn [length Nat.sub app lexicographic]. reflexivity. Qed.
Lemma components_zeros r k s m : components_compare (r ++ repeat 0%N k) (s ++ repeat 0%N m) = components_compare r s.
Proof.
  set (n := (length r + k + length s + m)%nat). rewrite !(components_any _ _ n); unfold n; rewrite ?app_length, ?repeat_length; try lia.
  rewrite !padded_trim; [reflexivity| |]; rewrite app_length, repeat_length; lia.
Qed.
Lemma components_nil s : components_compare [] s = lexicographic (repeat 0%N (length s)) s.
Proof. unfold components_compare, padded. cbn [length Nat.max app]. rewrite Nat.sub_0_r, Nat.sub_diag. cbn [repeat]. rewrite app_nil_r. reflexivity. Qed.
Lemma trimmed_positive s : trimmed s -> s <> [] -> components_compare [] s = Lt /\ forall t, rest_compare (map I s ++ t) = Lt /\ list_compare (map I s ++ t) [] = Gt.
Proof.
  intros T N. rewrite components_nil. induction s as [|y s IH]; [contradiction|]. cbn [length repeat lexicographic map app rest_compare list_compare I compare_null].
  destruct y as [|y]; [|split; [reflexivity|]; intros t; split; reflexivity]. assert (Ns : s <> []) by (intros ->; apply (T []); reflexivity). destruct (IH (trimmed_cons _ _ T) Ns) as [H1 H2].
  split; [exact H1|]. intros t. destruct (H2 t) as [H3 H4]. split; [exact H3|exact H4].
Qed.
Definition nested (t : list item) : Prop := t = [] \/ exists l, t = [IList l].
Lemma tails_compare r s tx ty : trimmed r -> trimmed s -> nested tx -> nested ty ->
  list_compare (map I r ++ tx) (map I s ++ ty) = match components_compare r s with Eq => list_compare tx ty | c => c end.
Proof.
  revert s. induction r as [|x r IH]; intros s Tr Ts X Y.
  - destruct s as [|y s]; [rewrite components_refl; reflexivity|]. destruct (trimmed_positive (y :: s) Ts ltac:(discriminate)) as [-> H]. destruct X as [-> | [l ->]]; [apply H|reflexivity].
  - destruct s as [|y s].
    + rewrite components_antisym. destruct (trimmed_positive (x :: r) Tr ltac:(discriminate)) as [-> H]. cbn [CompOpp map app]. destruct Y as [-> | [l ->]]; [apply (H tx)|reflexivity].
    + rewrite components_cons. cbn [map app list_compare]. replace (item_compare (I x) (I y)) with (x ?= y)%N by (symmetry; exact (N2Z.inj_compare x y)).
      rewrite IH; [destruct (x ?= y)%N; reflexivity| | |exact X|exact Y]; eapply trimmed_cons; eassumption.
Qed.
Lemma tail_nested p n : nested (tail p n).
Proof. unfold nested, tail. destruct (p =? 5); eauto. Qed.
Lemma label_bounds l p n : label l p n -> 0 <= p <= 6 /\ 0 <= n /\ (p = 5 -> n = 0).
Proof.
  destruct 1 as [q name p I C|q name p ds I P5 C D].
  - destruct (stage_names name p) as [_ [R _]]; [apply in_or_app; auto|]. lia.
  - destruct (stage_names name p I) as [_ [R _]]. pose proof (natural_nonneg ds D). lia.
Qed.
Lemma release_bounds s cs p n : release s cs p n -> cs <> [] /\ 0 <= p <= 6 /\ 0 <= n /\ (p = 5 -> n = 0).
Proof. destruct 1 as [cs N|cs sep l p n N _ L]; [split; [exact N|lia]|]. split; [exact N|apply (label_bounds l), L]. Qed.
Lemma number_tails n n' : 0 <= n -> 0 <= n' -> list_compare (number_tail n) (number_tail n') = (n ?= n').
Proof.
  intros H H'. unfold number_tail. destruct (Z.eqb_spec n 0) as [-> |Z], (Z.eqb_spec n' 0) as [-> |Z']; cbn [list_compare rest_compare compare_null item_compare].
  - reflexivity.
  - replace (n' =? 0) with false by lia. symmetry. apply Z.compare_lt_iff. lia.
  - replace (n =? 0) with false by lia. symmetry. apply Z.compare_gt_iff. lia.
  - destruct (n ?= n'); reflexivity.
Qed.
Lemma tail_order p n p' n' : 0 <= p <= 6 -> 0 <= n -> (p = 5 -> n = 0) -> 0 <= p' <= 6 -> 0 <= n' -> (p' = 5 -> n' = 0) ->
  list_compare (tail p n) (tail p' n') = match p ?= p' with Eq => n ?= n' | c => c end.
Proof.
  intros R N Z R' N' Z'.
  assert (C : p = 0 \/ p = 1 \/ p = 2 \/ p = 3 \/ p = 4 \/ p = 5 \/ p = 6) by lia. assert (C' : p' = 0 \/ p' = 1 \/ p' = 2 \/ p' = 3 \/ p' = 4 \/ p' = 5 \/ p' = 6) by lia.
  assert (S : forall a, list_compare [IList (IStr (rep a) :: number_tail n)] [IList (IStr (rep a) :: number_tail n')] = (n ?= n')).
  { intros a. cbn [list_compare]. rewrite item_compare_list. cbn [list_compare item_compare]. rewrite jstr_compare_refl, number_tails by assumption. destruct (n ?= n'); reflexivity. }
  assert (G : forall a b, a <> 5 -> b <> 5 -> list_compare (tail a n) (tail b n') = match jstr_compare (comparable_qualifier (rep a)) (comparable_qualifier (rep b)) with Eq => (n ?= n') | c => c end).
  { intros a b A B. unfold tail. rewrite (proj2 (Z.eqb_neq a 5) A), (proj2 (Z.eqb_neq b 5) B). cbn [list_compare]. rewrite item_compare_list. cbn [list_compare item_compare].
    rewrite number_tails by assumption. destruct (jstr_compare _ _); [destruct (n ?= n')|..]; reflexivity. }
  destruct (Z.eq_dec p 5) as [-> |P5], (Z.eq_dec p' 5) as [-> |P5'].
  - rewrite (Z eq_refl), (Z' eq_refl). reflexivity.
  - unfold tail at 1. cbn [Z.eqb Pos.eqb]. unfold tail. rewrite (proj2 (Z.eqb_neq p' 5) P5'). cbn [list_compare rest_compare compare_null]. decompose [or] C'; subst; try reflexivity; contradiction.
  - unfold tail at 2. cbn [Z.eqb Pos.eqb]. unfold tail. rewrite (proj2 (Z.eqb_neq p 5) P5). cbn [list_compare rest_compare compare_null]. decompose [or] C; subst; try reflexivity; contradiction.
  - rewrite (G p p' P5 P5'). clear G S Z Z' R R'. decompose [or] C; subst; decompose [or] C'; subst; try contradiction; reflexivity.
Qed.
Lemma normalize_tail p n l : normalize_rev (tail p n ++ l) = tail p n ++ normalize_rev l.
Proof. unfold tail. destruct (p =? 5); reflexivity. Qed.
Lemma rev_tail p n : rev (tail p n) = tail p n.
Proof. unfold tail. destruct (p =? 5); reflexivity. Qed.
Lemma releases_order s a p n t b p' n' : release s a p n -> release t b p' n' -> version_compare s t = release_order a p n b p' n'.
Proof.
  intros A B. unfold version_compare. rewrite item_compare_list, (release_parsed _ _ _ _ A), (release_parsed _ _ _ _ B), !normalize_tail, !rev_app_distr, !rev_tail.
  destruct (release_bounds _ _ _ _ A) as [_ [R [N Z]]]. destruct (release_bounds _ _ _ _ B) as [_ [R' [N' Z']]].
  destruct (trim_components a) as [r [k [Ea [Tr ->]]]]. destruct (trim_components b) as [u [m [Eb [Tu ->]]]].
  rewrite (tails_compare r u _ _ Tr Tu (tail_nested _ _) (tail_nested _ _)), tail_order by assumption. unfold release_order. rewrite Ea, Eb, components_zeros. reflexivity.
Qed.

(** ** A label after a dot *)
Definition dot_tail (p n : Z) : list item := number_tail n ++ (if p =? 5 then [] else [IStr (rep p)]).
Lemma dot_closed l p n cur dig : label l p n -> (let (o, c) := scan (to_lower l) [] cur [] dig in close o c) = rev (normalize_rev (dot_tail p n ++ cur)).
Proof.
  destruct 1 as [q name p I C|q name p ds I P5 C D].
  - destruct (stage_names name p) as [F [R [c0 [r0 N]]]]; [apply in_or_app; auto|]. rewrite (lower_name q name C F). rewrite <- (app_nil_r name) at 1. rewrite letters_start; [|exact F|rewrite N; discriminate].
    cbn [scan]. assert (RN : exists x y, rev name = x :: y) by (apply rev_nonnil; rewrite N; discriminate). destruct RN as [x [y RN]]. rewrite RN, <- RN. rewrite rev_involutive.
    unfold parse_item. rewrite (stage_item name p false I). cbn [close]. f_equal. unfold dot_tail. cbn [number_tail Z.eqb app normalize_rev]. rewrite (rep_null p R). destruct (p =? 5) eqn:E; [reflexivity|].
    cbn [app normalize_rev]. rewrite (rep_null p R), E. reflexivity.
  - destruct (stage_names name p I) as [F [R [c0 [r0 N]]]]. destruct D as [Dn Dd]. assert (Da : JNum.all_digits ds = true) by (apply forallb_forall; intros z Z; rewrite Forall_forall in Dd; apply Dd, Z).
    unfold to_lower. rewrite map_app. fold (to_lower q). fold (to_lower ds). rewrite (lower_name q name C F), (to_lower_digits ds Da). rewrite letters_start; [|exact F|rewrite N; discriminate].
    assert (RN : exists x y, rev name = x :: y) by (apply rev_nonnil; rewrite N; discriminate). destruct RN as [x [y RN]].
    destruct ds as [|c ds]; [contradiction|]. inversion Dd as [|? ? Hc Hd]; subst. cbn [scan]. destruct (digit_not_dot c Hc) as [-> ->]. rewrite Hc. rewrite RN, <- RN.
    rewrite rev_involutive, (stage_item_numbered _ p I). rewrite <- (app_nil_r ds). rewrite scan_digits by (unfold JNum.all_digits in Da; cbn [forallb] in Da; apply andb_true_iff in Da; apply Da).
    cbn [scan]. change (rev ds ++ [c]) with (rev (c :: ds)).
    destruct (rev_nonnil _ (c :: ds) ltac:(discriminate)) as [x' [y' RN']]. rewrite RN', <- RN'. rewrite rev_involutive. unfold parse_item. rewrite <- natural_val, app_nil_r. rewrite !close_cons. cbn [close].
    f_equal. unfold dot_tail, number_tail. pose proof (rep_null p R) as RP. replace (p =? 5) with false in * by (symmetry; apply Z.eqb_neq; exact P5).
    cbn [normalize_rev]. change (item_is_null (IInt (natural (c :: ds)))) with (natural (c :: ds) =? 0). destruct (natural (c :: ds) =? 0) eqn:Z0; cbn [rev app normalize_rev].
    + change (item_is_null (IList [])) with true. cbn iota. reflexivity.
    + change (item_is_null (IList [IInt (natural (c :: ds))])) with false. cbn iota. rewrite RP. reflexivity.
Qed.
Lemma dot_parsed cs l p n : cs <> [] -> label l p n -> parse_version (dotted cs ++ J "." ++ l) = rev (normalize_rev (dot_tail p n ++ rev (map I cs))).
Proof.
  intros N L. unfold parse_version. rewrite !lower_append, to_lower_dotted. destruct (scan_components cs (to_lower (J ".") ++ to_lower l) [] [] false N) as [buf [Nb [P E]]]. rewrite E. clear E.
  rewrite app_nil_r. destruct buf as [|b0 buf]; [contradiction|]. pose proof (rev_last cs N) as RL.
  change (to_lower (J ".") ++ to_lower l) with (ch "." :: to_lower l). cbn [scan]. change ((ch "." =? ch ".")%N) with true. cbn iota. rewrite P, RL. apply (dot_closed l p n _ true L).
Qed.
Lemma components_cons_nil y cs : components_compare (y :: cs) [] = match y with 0%N => components_compare cs [] | _ => Gt end.
Proof. rewrite components_antisym, components_nil, (components_antisym [] cs), components_nil. destruct y; reflexivity. Qed.
Lemma dot_compare cs s x t : trimmed s -> list_compare (map I cs ++ IStr x :: t) (map I s) = match components_compare cs s with Eq => list_compare (IStr x :: t) [] | c => c end.
Proof.
  revert s. induction cs as [|y cs IH]; intros s T.
  - destruct s as [|z s]; [rewrite components_refl; reflexivity|]. destruct (trimmed_positive (z :: s) T ltac:(discriminate)) as [-> _]. reflexivity.
  - destruct s as [|z s].
    + rewrite components_cons_nil. cbn [map app list_compare]. specialize (IH [] T). cbn [map] in IH. rewrite IH. destruct y; reflexivity.
    + rewrite components_cons. cbn [map app list_compare]. replace (item_compare (I y) (I z)) with (y ?= z)%N by (symmetry; exact (N2Z.inj_compare y z)).
      rewrite IH; [destruct (y ?= z)%N; reflexivity|]. eapply trimmed_cons; eassumption.
Qed.
Lemma dot_order cs l p n b : cs <> [] -> label l p n -> b <> [] ->
  version_compare (dotted cs ++ J "." ++ l) (dotted b) = match components_compare cs b with Eq => p ?= 5 | c => c end.
Proof.
  intros N L B. unfold version_compare. rewrite item_compare_list, (dot_parsed cs l p n N L), (release_parsed _ _ _ _ (r_plain b B)). cbn [tail Z.eqb Pos.eqb app].
  destruct (trim_components b) as [u [m [Eb [Tu ->]]]]. destruct (label_bounds l p n L) as [R [Nn Z]]. unfold dot_tail. destruct (p =? 5) eqn:P5.
  - apply Z.eqb_eq in P5. subst p. rewrite (Z eq_refl). cbn [number_tail Z.eqb app]. destruct (trim_components cs) as [r [k [Ea [Tr ->]]]].
    pose proof (tails_compare r u [] [] Tr Tu (or_introl eq_refl) (or_introl eq_refl)) as H. rewrite !app_nil_r in H. rewrite H, Ea, Eb, components_zeros. reflexivity.
  - assert (E : rev (normalize_rev ((number_tail n ++ [IStr (rep p)]) ++ rev (map I cs))) = map I cs ++ IStr (rep p) :: number_tail n).
    { unfold number_tail. destruct (n =? 0); cbn [app normalize_rev]; rewrite (rep_null p R), P5; cbn [item_is_null rev app]; rewrite rev_involutive, <- ?app_assoc; reflexivity. }
    rewrite E, (dot_compare cs u _ _ Tu). pose proof (components_zeros cs 0 u m) as K. cbn [repeat] in K. rewrite app_nil_r in K. rewrite Eb, K.
    destruct (components_compare cs u); try reflexivity. cbn [list_compare compare_null].
    assert (C : p = 0 \/ p = 1 \/ p = 2 \/ p = 3 \/ p = 4 \/ p = 6) by lia. decompose [or] C; subst; reflexivity.
Qed.

(** ** In conditions *)
Definition date_char (c : jchar) : Prop := is_digit c = true \/ In c [ch "-"; ch "+"; ch " "; ch ":"].
Lemma numeral_chars k n s : numeral k n s -> Forall date_char s.
Proof. intros [_ [D _]]. apply Forall_forall. intros c H. left. unfold JNum.all_digits in D. rewrite forallb_forall in D. apply D, H. Qed.
Lemma date_chars s a : written_date s a -> Forall date_char s.
Proof.
  intros (y & m & d & n & (p & q & r & Y & M & D & ->) & _). apply Forall_app. split; [|apply Forall_app; split; [repeat constructor; right; cbn; tauto|apply Forall_app; split; [exact (numeral_chars _ _ _ M)|
    apply Forall_app; split; [repeat constructor; right; cbn; tauto|exact (numeral_chars _ _ _ D)]]]].
  destruct Y as [Y|(ds & -> & _ & Y)]; [exact (numeral_chars _ _ _ Y)|]. apply Forall_app. split; [repeat constructor; right; cbn; tauto|exact (numeral_chars _ _ _ Y)].
Qed.
Lemma datetime_chars s x : written_datetime s x -> Forall date_char s.
Proof.
  intros (p & q & a & h & mi & se & -> & W & (ha & mb & sc & H1 & H2 & H3 & ->) & _). repeat (apply Forall_app; split); try (repeat constructor; right; cbn; tauto); try (eapply numeral_chars; eassumption).
  exact (date_chars _ _ W).
Qed.
Lemma label_letter l p n : label l p n -> exists c, In c l /\ ~ date_char c.
Proof.
  intros L. destruct (label_first l p n L) as [c [r [E N]]]. destruct l as [|c0 l]; [discriminate|]. injection E as E _. exists c0. split; [left; reflexivity|].
  unfold name_char, is_lower, lower_char in *. intros [D|D]; [unfold is_digit in D; destruct (is_upper c0); subst; lia|].
  cbn in D. destruct D as [<-|[<-|[<-|[<-|[]]]]]; cbn in E; subst c; discriminate N.
Qed.
Lemma letter_stands s c : In c s -> ~ date_char c -> stands (VStr s) STRING.
Proof.
  intros I N. constructor; intros a W; [apply date_chars in W|apply datetime_chars in W]; rewrite Forall_forall in W; exact (N (W c I)).
Qed.
Lemma release_stands s a p n : release s a p n -> stands (VStr s) STRING.
Proof.
  destruct 1 as [cs N|cs sep l p n N Sp L].
  - pose proof (dotted_no_dash cs) as D. constructor; intros x W; [apply parse_date_spec in W|apply parse_datetime_spec in W]; pose proof (no_dash_string _ D) as T; cbn in T.
    + destruct (parse_datetime (dotted cs)); [discriminate|]. rewrite W in T. discriminate.
    + rewrite W in T. discriminate.
  - destruct (label_letter l p n L) as [c [I H]]. apply (letter_stands _ c); [|exact H]. apply in_or_app. right. apply in_or_app. right. exact I.
Qed.
Lemma dot_stands cs l p n : label l p n -> stands (VStr (dotted cs ++ J "." ++ l)) STRING.
Proof. intros L. destruct (label_letter l p n L) as [c [I H]]. apply (letter_stands _ c); [|exact H]. apply in_or_app. right. right. exact I. Qed.
Lemma version_condition E d l r v s t op x c : (v = VStr s /\ stands (VStr s) STRING /\ op <> EQUALS /\ op <> NOT_EQUAL \/ v = VVer s) -> yields E d l v -> yields E d r (VVer t) ->
  (version_compare s t = c -> accepts op c = Some x -> bool_eval E d (cond l op r) = Ok x) /\ (version_compare t s = c -> accepts op c = Some x -> bool_eval E d (cond r op l) = Ok x).
Proof.
  intros V L R.
  assert (H : exists ty, stands v ty /\ read_as v VERSION (AVersion s) /\ (forall c, accepts op c <> None -> meeting op ty VERSION = Some VERSION /\ meeting op VERSION ty = Some VERSION)).
  { destruct V as [[-> [S [N1 N2]]]| ->].
    - exists STRING. split; [exact S|]. split; [apply (read_version (VStr s))|]. intros c0 A. destruct op; try contradiction; try (exfalso; apply A; destruct c0; reflexivity); split; reflexivity.
    - exists VERSION. split; [apply stands_version|]. split; [apply (read_version (VVer s))|]. intros c0 A. destruct op; try (exfalso; apply A; destruct c0; reflexivity); split; reflexivity. }
  destruct H as [ty [S [RD M]]]. split; intros <- A; (assert (A0 : accepts op Eq <> None) by (clear -A; destruct op; cbn in *; try discriminate; destruct (version_compare _ _); discriminate)); destruct (M _ A0) as [M1 M2].
  - exact (proj1 (mixed_comparison E d l r op Eq v (VVer t) ty VERSION A0 L R S (stands_version t)) VERSION _ _ _ x M1 RD (read_version (VVer t)) (by_version s t) A).
  - exact (proj1 (mixed_comparison E d r l op Eq (VVer t) v VERSION ty A0 R L (stands_version t) S) VERSION _ _ _ x M2 (read_version (VVer t)) RD (by_version t s) A).
Qed.
Lemma release_condition E d l r v s a p n t b p' n' op x : release s a p n -> release t b p' n' -> (v = VStr s /\ op <> EQUALS /\ op <> NOT_EQUAL \/ v = VVer s) ->
  yields E d l v -> yields E d r (VVer t) ->
  (accepts op (release_order a p n b p' n') = Some x -> bool_eval E d (cond l op r) = Ok x) /\ (accepts op (release_order b p' n' a p n) = Some x -> bool_eval E d (cond r op l) = Ok x).
Proof.
  intros A B V L R. assert (V' : v = VStr s /\ stands (VStr s) STRING /\ op <> EQUALS /\ op <> NOT_EQUAL \/ v = VVer s) by (destruct V as [[-> [N1 N2]]|V]; [left; split; [reflexivity|]; split; [apply (release_stands s a p n A)|auto]|auto]).
  split; intros X.
  - exact (proj1 (version_condition E d l r v s t op x _ V' L R) (releases_order _ _ _ _ _ _ _ _ A B) X).
  - exact (proj2 (version_condition E d l r v s t op x _ V' L R) (releases_order _ _ _ _ _ _ _ _ B A) X).
Qed.
Lemma dot_condition E d l r v cs lb p n b op x : cs <> [] -> label lb p n -> b <> [] -> let s := dotted cs ++ J "." ++ lb in (v = VStr s /\ op <> EQUALS /\ op <> NOT_EQUAL \/ v = VVer s) ->
  yields E d l v -> yields E d r (VVer (dotted b)) -> accepts op (match components_compare cs b with Eq => p ?= 5 | c => c end) = Some x -> bool_eval E d (cond l op r) = Ok x.
Proof.
  intros N Lb B s V L R X. assert (V' : v = VStr s /\ stands (VStr s) STRING /\ op <> EQUALS /\ op <> NOT_EQUAL \/ v = VVer s) by (destruct V as [[-> [N1 N2]]|V]; [left; split; [reflexivity|]; split; [apply (dot_stands cs lb p n Lb)|auto]|auto]).
  exact (proj1 (version_condition E d l r v s (dotted b) op x _ V' L R) (dot_order cs lb p n b N Lb B) X).
Qed.
(** Against a literal in the text of a condition. *)
Lemma dotted_parts b : b <> [] -> exists c r, b = c :: r /\ dotted b = print_N c ++ concat (map (fun p => J "." ++ p) (map print_N r)).
Proof.
  induction b as [|c [|c' b] IH]; intros N; [contradiction|exists c, []; rewrite app_nil_r; auto|]. destruct (IH ltac:(discriminate)) as [c0 [r0 [E H]]]. injection E as <- <-. exists c, (c' :: b). split; [reflexivity|].
  change (dotted (c :: c' :: b)) with (print_N c ++ J "." ++ dotted (c' :: b)). rewrite H. cbn [map concat]. rewrite <- app_assoc. reflexivity.
Qed.
Lemma literal_version b : (3 <= length b)%nat -> (hd 10 b < 10)%N -> operand (dotted b) (NUnary VERSION (VVer (dotted b))).
Proof.
  intros L H. destruct b as [|c r]; [cbn in L; lia|]. destruct (dotted_parts (c :: r) ltac:(discriminate)) as [c' [r' [E D]]]. injection E as <- <-. rewrite D. cbn [hd] in H.
  assert (P : exists z, print_N c = [z] /\ is_digit z = true).
  { assert (C : (c = 0 \/ c = 1 \/ c = 2 \/ c = 3 \/ c = 4 \/ c = 5 \/ c = 6 \/ c = 7 \/ c = 8 \/ c = 9)%N) by (clear -H; lia). decompose [or] C; subst; eexists; split; reflexivity. }
  destruct P as [z [-> Z]]. apply (o_version z (map print_N r)); [exact Z|rewrite map_length; cbn [length] in L; lia|]. apply Forall_forall. intros w I. apply in_map_iff in I. destruct I as [k [<- _]]. apply print_digits.
Qed.
Lemma release_written E d dflt f m sym op v s a p n b x : operand f m -> In (sym, op) comparators -> release s a p n -> (v = VStr s /\ op <> EQUALS /\ op <> NOT_EQUAL \/ v = VVer s) ->
  yields E d m v -> (3 <= length b)%nat -> (hd 10 b < 10)%N -> accepts op (release_order a p n b 5 0) = Some x -> evaluate_boolean E (comparison_text f sym (dotted b)) d dflt = Ok x.
Proof.
  intros F C A V Y L H X. rewrite (literal_compared E d dflt f m sym op _ _ _ F C (literal_version b L H)).
  assert (B : b <> []) by (intros ->; cbn in L; lia).
  exact (proj1 (release_condition E d m _ v s a p n (dotted b) b 5 0 op x A (r_plain b B) V Y (literal_yields E d VERSION (VVer (dotted b)) ltac:(discriminate))) X).
Qed.
