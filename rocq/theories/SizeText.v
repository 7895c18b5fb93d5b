(** The size of the tree of a text. *)
From Coq Require Import Lia.
From Verif Require Import Base JNum Values Ops Funcs Ast Lexer Grammar Recover Listener Api SpecLex SpecTight SpecGrammar SpecSyntax SpecText ParseFacts.
From Verif Require Import FieldFacts RecoverFacts ListenFacts.
From Verif Require Import SyntaxFacts TextFacts OddText SpecRecord RecordFacts RecordText OddCases SpecSize SizeFacts.

Lemma any_size s dflt n k : parse_expression s dflt = Ok n -> words_in s k -> objects n <= (2 * k + 1) * (2 * k + 1).
Proof.
  intros E [ts [L <-]]. unfold parse_expression in E. rewrite L in E. cbn [bind] in E. apply bind_ok in E. destruct E as [t [E1 E]].
  apply listen_size in E. apply parse_any_size in E1. pose proof (Nat.mul_le_mono _ _ _ _ E1 E1). lia.
Qed.
Lemma words_characters s k : words_in s k -> k <= length s.
Proof. intros [ts [L <-]]. apply lex_size, L. Qed.
Lemma depth_objects n : depth n <= objects n.
Proof.
  assert (A : forall l, Forall (fun n => depth n <= objects n) l ->
    (fix deepest (l : list node) : nat := match l with [] => 0 | i :: l' => Nat.max (depth i) (deepest l') end) l <=
    (fix all (l : list node) : nat := match l with [] => 0 | i :: l' => objects i + all l' end) l) by (induction 1; cbn in *; lia).
  induction n as [f|dt v|l r op IHl IHr|f items IH|l r op dt IHl IHr|f lo hi t1 t2|f items IH|f op items IH|l r op IHl IHr] using node_ind'; cbn [depth objects]; try lia.
  - destruct r; cbn in IHr; lia.
  - specialize (A _ IH). lia.
  - specialize (A _ IH). lia.
  - specialize (A _ IH). lia.
  - destruct r; cbn in IHr; lia.
Qed.

Lemma operand_objects w n : operand w n -> objects n = 1.
Proof. destruct 1; reflexivity. Qed.
Lemma listed_objects ws ns : Forall2 operand ws ns -> objs ns = length ws.
Proof. induction 1 as [|w n ws ns O F IH]; [reflexivity|]. cbn [objs fold_right length]. fold (objs ns). rewrite IH, (operand_objects _ _ O). reflexivity. Qed.
Lemma commas_length ws : length ws <= length (commas ws).
Proof. induction ws as [|w [|x ws] IH]; [apply le_n|apply le_n|]. cbn [commas length] in *. lia. Qed.
Lemma bracketed_length ws : length (bracketed ws) = S (S (length ws)).
Proof. unfold bracketed. cbn [length]. rewrite app_length. cbn. lia. Qed.
Lemma written_objects b s ws n : written b s ws n -> objects n <= length ws.
Proof.
  assert (L : forall ws ns, listed ws ns -> objs ns <= length (commas ws)).
  { intros us ns [_ F]. rewrite (listed_objects _ _ F). apply commas_length. }
  induction 1; cbn [objects]; rewrite ?objs_eq;
    repeat match goal with H : listed _ _ |- _ => apply L in H | H : operand _ _ |- _ => apply operand_objects in H end;
    repeat (cbn [length objects] in *; rewrite ?app_length, ?bracketed_length in * ); try lia.
Qed.
Lemma erase_objects n : objects (erase n) = objects n.
Proof.
  assert (A : forall l, Forall (fun n => objects (erase n) = objects n) l -> objs (map erase l) = objs l).
  { induction 1 as [|x l Hx H IH]; [reflexivity|]. cbn [map objs fold_right]. fold (objs l) (objs (map erase l)). lia. }
  induction n as [f|dt v|l r op IHl IHr|f items IH|l r op dt IHl IHr|f lo hi t1 t2|f items IH|f op items IH|l r op IHl IHr] using node_ind'; cbn [erase objects]; rewrite ?objs_eq; try reflexivity;
    try (rewrite (A _ IH); reflexivity); try (destruct r; cbn in IHr; lia). lia.
Qed.
Lemma written_size s ws n t dflt : written Nothing s ws n -> laid_out ws t -> exists n', parse_expression t dflt = Ok n' /\ objects n' <= length ws.
Proof.
  intros W O. destruct (written_good _ _ _ _ W) as [p [Y [G [R [Rg [_ D]]]]]]. pose proof (layout_words (yield p) ws t Y G O) as L.
  destruct (loose_parsed t p n dflt L) as [n' [P [D' _]]]; [apply R; unfold open; cbn; unfold comparator; cbn; intuition discriminate|constructor; exact Rg|apply D|].
  exists n'. split; [exact P|]. rewrite <- (erase_objects n'), (proj1 (denotes_erase dflt) p n' D' n (D _)), erase_objects. apply (written_objects _ _ _ _ W).
Qed.

(** The chain. *)
Definition eq_token : token := Tok T_EQ (J "=").
Definition one_token : token := Tok T_INTEGER (J "1").
Definition base : ptree := PCmp (PTypes (Tok T_FIELD (J "x"))) eq_token (PParen (PArith (PTypes (Tok T_FIELD (J "y"))) (Tok T_ADD (J "+")) (PTypes one_token))).
Fixpoint chain (k : nat) : ptree := match k with O => base | S k' => PCmp (chain k') eq_token (PTypes one_token) end.
Definition one_node : node := NUnary INTEGER (VInt 1).
Fixpoint nest (j : nat) (d : node) : node :=
  match j with O => NCmp (NField (Some (J "x"))) d EQUALS STRING | S j' => NCmp (nest j' d) one_node EQUALS INTEGER end.
Fixpoint chain_node (k : nat) : node :=
  match k with O => nest 0 (NArith (NField (Some (J "y"))) (Some one_node) ADD) | S k' => nest (S k') (chain_node k') end.
Lemma chain_yield k : map text (yield (chain k)) = chained k.
Proof.
  induction k as [|k IH]; [reflexivity|]. cbn [chain yield]. rewrite map_app, IH. unfold chained. rewrite <- app_assoc. f_equal.
  change [eq_token; one_token] with ([eq_token; one_token]). cbn [map text eq_token one_token].
  change [J "="; J "1"] with (concat [[J "="; J "1"]]) at 2. rewrite <- concat_app. replace (repeat [J "="; J "1"] k ++ [[J "="; J "1"]]) with (repeat [J "="; J "1"] (S k)); [reflexivity|].
  replace (S k) with (k + 1) by lia. rewrite repeat_app. reflexivity.
Qed.
Lemma chain_genuine k : Forall genuine (yield (chain k)).
Proof.
  induction k as [|k IH]; [repeat apply Forall_cons; try apply Forall_nil; apply lex_one_genuine; vm_compute; reflexivity|].
  cbn [chain yield]. apply Forall_app. split; [exact IH|]. repeat apply Forall_cons; try apply Forall_nil; apply lex_one_genuine; vm_compute; reflexivity.
Qed.
Lemma chain_reads k m next : m <= 9 -> reads m (chain k) next.
Proof.
  revert m next. induction k as [|k IH]; intros m next Hm.
  - apply (r_cmp _ 9); [unfold comparator; cbn; tauto|reflexivity|exact Hm|apply r_operand; unfold operand_kind; cbn; tauto|].
    apply r_paren. apply (r_arith _ 3); [unfold arithmetic_op; cbn; tauto|reflexivity|lia|apply r_operand; unfold operand_kind; cbn; tauto|apply r_operand; unfold operand_kind; cbn; tauto].
  - cbn [chain]. apply (r_cmp _ 9); [unfold comparator; cbn; tauto|reflexivity|exact Hm|apply IH; lia|apply r_operand; unfold operand_kind; cbn; tauto].
Qed.
Lemma chain_parent k : is_parent (chain k) = false.
Proof. destruct k; reflexivity. Qed.
Lemma chain_types dflt k : as_types dflt (chain k) = None \/ k = 0.
Proof. destruct k; auto. Qed.
Lemma chain_start dflt k t s : (exists o, t = NCmp (fst o) (snd o) EQUALS STRING) \/ (exists o, t = NCmp (fst o) (snd o) EQUALS INTEGER) -> map_context dflt (chain k) (t :: s) = Ok (nest k t, s).
Proof.
  intros T. revert t s T. induction k as [|k IH]; intros t s T.
  - cbn. destruct T as [[o ->]|[o ->]]; reflexivity.
  - cbn [chain map_context]. unfold steals. rewrite chain_parent. replace (top_is_cmp_or_bool (t :: s)) with true by (destruct T as [[o ->]|[o ->]]; reflexivity).
    cbn [is_parent orb negb as_types]. change (map_types_token dflt one_token) with (Ok one_node). cbn [bind fst snd]. rewrite (IH _ _ T). reflexivity.
Qed.
Lemma chain_cmp k : (exists o, chain_node k = NCmp (fst o) (snd o) EQUALS STRING) \/ (exists o, chain_node k = NCmp (fst o) (snd o) EQUALS INTEGER).
Proof. destruct k as [|k]; cbn [chain_node nest]; [left; eexists (_, _)|right; eexists (_, _)]; reflexivity. Qed.
Lemma chain_walk dflt k : forall st, stack st = [] -> exists l c, walk dflt (chain k) st = Ok (LState [chain_node k] l c).
Proof.
  induction k as [|k IH]; intros [s l c] S; cbn [stack] in S; subst s.
  - eexists _, _. reflexivity.
  - destruct (IH (LState [] l c) eq_refl) as [l1 [c1 W]]. exists (Some one_token), (Datatypes.S c1). cbn [chain walk]. rewrite W. cbn [bind]. unfold exit_types. cbn [stack last_token token_count].
    unfold push_context. cbn [stack]. change (PCmp (chain k) eq_token (PTypes one_token)) with (chain (Datatypes.S k)). rewrite (chain_start dflt (Datatypes.S k) _ _ (chain_cmp k)). reflexivity.
Qed.
Lemma nest_depth j d : 1 <= depth d -> depth (nest j d) = j + 1 + depth d.
Proof. intros H. induction j as [|j IH]; cbn [nest depth]; [lia|]. rewrite IH. cbn. lia. Qed.
Lemma chain_depth k : 2 * depth (chain_node k) = k * k + 3 * k + 6.
Proof.
  induction k as [|k IH]; [reflexivity|]. cbn [chain_node]. rewrite nest_depth by lia. lia.
Qed.
Lemma chain_parsed k s dflt : laid_out (chained k) s -> exists n, parse_expression s dflt = Ok n /\ 2 * depth n = k * k + 3 * k + 6.
Proof.
  intros O. exists (chain_node k). split; [|apply chain_depth]. rewrite (layout_listen (chain k) (chained k) s dflt (chain_yield k) (chain_genuine k) (chain_reads k 0 _ ltac:(lia)) O).
  unfold listen. destruct (chain_walk dflt k (LState [] None 0) eq_refl) as [l [c ->]]. reflexivity.
Qed.
Lemma chain_words k s : laid_out (chained k) s -> words_in s (7 + 2 * k).
Proof.
  intros O. exists (yield (chain k)). split; [apply (layout_words _ _ _ (chain_yield k) (chain_genuine k) O)|]. rewrite <- (map_length text), chain_yield. unfold chained.
  rewrite app_length. cbn [length]. f_equal. clear O. induction k as [|k IH]; [reflexivity|]. cbn [repeat concat app length]. rewrite IH. lia.
Qed.
Lemma chained_text k : laid_out (chained k) (J "x=(y+1)" ++ concat (repeat (J "=1") k)).
Proof.
  right. exists [], (J "x=(y+1)" ++ concat (repeat (J "=1") k)). split; [constructor|]. split; [|reflexivity].
  assert (T : forall j, laid (J ")" :: concat (repeat [J "="; J "1"] j)) (J ")" ++ concat (repeat (J "=1") j)) /\ laid (J "1" :: concat (repeat [J "="; J "1"] j)) (J "1" ++ concat (repeat (J "=1") j))).
  { induction j as [|j [_ IH]]; [split; apply (laid_last _ []); constructor|].
    assert (L : laid (J "=" :: J "1" :: concat (repeat [J "="; J "1"] j)) (J "=" ++ J "1" ++ concat (repeat (J "=1") j))) by (apply (laid_more (J "=") (J "1") _ []); [constructor|right; apply touching_b_ok; vm_compute; reflexivity|exact IH]).
    split; [apply (laid_more (J ")") (J "=") _ [])|apply (laid_more (J "1") (J "=") _ [])]; first [exact L|right; apply touching_b_ok; vm_compute; reflexivity|constructor]. }
  unfold chained. cbn [app].
  change (J "x=(y+1)" ++ concat (repeat (J "=1") k)) with (J "x" ++ [] ++ J "=" ++ [] ++ J "(" ++ [] ++ J "y" ++ [] ++ J "+" ++ [] ++ J "1" ++ [] ++ J ")" ++ concat (repeat (J "=1") k)).
  do 6 (apply laid_more; [constructor|right; apply touching_b_ok; vm_compute; reflexivity|]).
  apply T.
Qed.
Lemma deep_refuted c : exists s n, parse_expression s None = Ok n /\ c * length s < depth n.
Proof.
  set (k := 8 * c + 8). destruct (chain_parsed k _ None (chained_text k)) as [n [P D]]. exists (J "x=(y+1)" ++ concat (repeat (J "=1") k)), n. split; [exact P|].
  assert (L : length (J "x=(y+1)" ++ concat (repeat (J "=1") k)) = 7 + 2 * k).
  { rewrite app_length. f_equal. generalize k. clear. induction k as [|k IH]; [reflexivity|]. cbn [repeat concat]. rewrite app_length, IH. change (length (J "=1")) with 2. lia. }
  rewrite L. subst k. nia.
Qed.
