(** Conditions with computed elements: alone, first in a row, and later in a row. *)
From Verif Require Import RecoverFacts.
From Verif Require Import Base Values Ops Funcs Ast Eval Lexer Grammar Listener Api SpecLex SpecGrammar SpecSyntax SpecText SpecChain SpecElements
  LexFacts LexSplit LexWords SyntaxFacts ParseFacts ListenFacts TextFacts TextApi ChainFacts ChainText ListText.
Local Open Scope nat_scope.

Scheme element_elements := Induction for element Sort Prop with elements_element := Induction for element_list Sort Prop.
Combined Scheme element_both from element_elements, elements_element.

(** What computed elements leave behind: as conditions they are false. *)
Definition silent (j : node) : Prop := (exists a b op, j = NArith a b op) \/ (exists fn ns, j = NFunc fn ns).
Lemma silent_clean junk : Forall silent junk -> clean junk.
Proof. intros F. eapply Forall_impl; [|exact F]. cbn beta. intros j [[a [b [op ->]]]|[fn [ns ->]]]; discriminate. Qed.
Lemma silent_false E d j : silent j -> bool_eval E d j = Ok false.
Proof. intros [[a [b [op ->]]]|[fn [ns ->]]]; reflexivity. Qed.

Definition element_tree (ws : list jstr) (n : node) (t : ptree) : Prop :=
  built ws n t /\ simple t /\ (forall k next, k <= 2 -> open next -> reads k t next) /\
  forall dflt st, exists junk lt tc, walk dflt t st = Ok (LState (junk ++ stack st) lt tc) /\ Forall silent junk /\
    (length ws <> 1 -> exists j, junk = n :: j) /\ (length ws = 1 -> junk = []).
Definition elements_tree (wss : list (list jstr)) (ns : list node) (ts : list ptree) : Prop :=
  map text (sep_yield ts) = listing wss /\ Forall genuine (sep_yield ts) /\ (wss <> [] -> reads_items ts) /\ (wss = [] -> ts = []) /\ (wss <> [] -> ts <> []) /\ simples ts /\
  (forall dflt, denotes_list dflt ts ns) /\
  forall dflt st, exists junk lt tc, walk_list dflt ts st = Ok (LState (junk ++ stack st) lt tc) /\ Forall silent junk /\ (compound wss -> junk <> []) /\
    (forall before ws0 us nsb n0 nsu, wss = before ++ ws0 :: map (fun w => [w]) us -> ns = nsb ++ n0 :: nsu -> length before = length nsb -> length ws0 <> 1 -> exists j, junk = n0 :: j) /\
    (Forall (fun ws => length ws = 1) wss -> junk = []).

Lemma open_comma : open comma.
Proof. unfold open, comparator. cbn [kind comma In]. intros C. decompose [or] C; congruence. Qed.

Lemma call_words_length f fn wss : In (f, fn) function_names -> length (f :: bracketed (listing wss)) <> 1.
Proof. intros _. unfold bracketed. cbn [length]. lia. Qed.

Lemma element_trees : (forall ws n, element ws n -> exists t, element_tree ws n t) /\ (forall wss ns, element_list wss ns -> exists ts, elements_tree wss ns ts).
Proof.
  apply (element_both (fun ws n _ => exists t, element_tree ws n t) (fun wss ns _ => exists ts, elements_tree wss ns ts)).
  - intros w n O. destruct (operand_good _ _ O) as [t [P [Y [G [R D]]]]]. exists t. split; [split; auto|]. split; [constructor; exact P|]. split; [intros; apply R|].
    intros dflt st. destruct (plain_walk dflt t st P) as [lt [tc W]]. exists [], lt, tc. split; [exact W|]. split; [constructor|]. split; [intros H; contradiction H; reflexivity|reflexivity].
  - intros x o y m op n X I Y. destruct (operand_good _ _ X) as [l [P1 [Y1 [G1 [R1 D1]]]]]. destruct (operand_good _ _ Y) as [r [P2 [Y2 [G2 [R2 D2]]]]].
    destruct (symbol_level o op I) as [k [G [Ka L]]]. exists (PArith l (Tok k o) r). assert (S0 : simple (PArith l (Tok k o) r)) by (constructor; assumption).
    assert (Gt : Forall genuine (yield (PArith l (Tok k o) r))) by (apply infix_genuine; assumption).
    assert (D : forall dflt, denotes dflt (PArith l (Tok k o) r) (NArith m (Some n) op)) by (intros; constructor; auto).
    split; [split; [apply (infix_yield l (Tok k o) r [x] [y]); assumption|split; [exact Gt|exact D]]|]. split; [exact S0|]. split.
    + intros k' next K O. eapply r_arith; [exact Ka|exact L| |apply R1|apply R2]. destruct op; cbn [tightness]; try lia;
        exfalso; unfold arithmetic_symbols in I; cbn [In] in I; decompose [or] I; try discriminate; contradiction.
    + intros dflt st. destruct (proj1 (simple_walk dflt) _ S0 _ Gt (D dflt)) as [M _]. destruct (plain_walk dflt l st P1) as [lt [tc Wl]].
      destruct (plain_walk dflt r (LState (stack st) lt tc) P2) as [lt' [tc' Wr]]. exists [NArith m (Some n) op], lt', tc'. split.
      { cbn [walk]. rewrite Wl. cbn [bind]. rewrite Wr. cbn [bind]. unfold push_context. rewrite M. reflexivity. }
      split; [constructor; [left; eauto|constructor]|]. split; [eauto|discriminate].
  - intros f fn wss ns I N _ [ts [Y [G [R [_ [_ [S0 [D W]]]]]]]]. destruct (function_token f fn I) as [kf [Gf [Kf _]]]. exists (PFunc (Tok kf f) ts).
    assert (Sf : simple (PFunc (Tok kf f) ts)) by (constructor; exact S0).
    assert (Gt : Forall genuine (yield (PFunc (Tok kf f) ts))) by (rewrite yield_func; apply (list_end [Tok kf f]); [constructor; [exact Gf|constructor]|exact G]).
    assert (Df : forall dflt, denotes dflt (PFunc (Tok kf f) ts) (NFunc fn ns)) by (intros; apply d_func; [exact I|apply D]).
    split; [split; [|split; [exact Gt|exact Df]]|]. { rewrite yield_func. cbn [map text]. rewrite map_app, Y. reflexivity. }
    split; [exact Sf|]. split; [intros; apply r_func; [exact Kf|apply R, N]|]. intros dflt st. destruct (proj1 (simple_walk dflt) _ Sf _ Gt (Df dflt)) as [M _].
    destruct (W dflt st) as [junk [lt [tc [E [F _]]]]]. exists (NFunc fn ns :: junk), lt, tc. split; [rewrite walk_func, E; cbn [bind]; unfold push_context; rewrite M; reflexivity|].
    split; [constructor; [right; eauto|exact F]|]. split; [eauto|]. intros H. unfold bracketed in H. cbn [length] in H. lia.
  - exists []. split; [reflexivity|]. split; [constructor|]. split; [contradiction|]. split; [reflexivity|]. split; [contradiction|]. split; [constructor|]. split; [constructor|].
    intros dflt [s lt tc]. exists [], lt, tc. split; [reflexivity|]. split; [constructor|]. split; [intros X; inversion X|]. split; [|reflexivity]. intros before ? ? ? ? ? X. destruct before; discriminate.
  - intros ws n wss ns _ [t [[Y [G D]] [S0 [R W]]]] _ [ts [Ys [Gs [Rs [E0 [N0 [Ss [Ds Ws]]]]]]]].
    exists (t :: ts). assert (NE : wss = [] \/ wss <> []) by (destruct wss; [left; reflexivity|right; discriminate]).
    split; [|split; [|split; [|split; [discriminate|split; [discriminate|split; [constructor; assumption|split; [intros; constructor; auto|]]]]]]].
    + destruct NE as [-> | NE]; [rewrite (E0 eq_refl); cbn [listing]; change (sep_yield [t]) with (yield t); exact Y|]. rewrite sep_yield_cons by apply N0, NE.
      rewrite map_app, Y. cbn [map]. rewrite Ys. destruct wss; [contradiction|reflexivity].
    + destruct NE as [-> | NE]; [rewrite (E0 eq_refl); exact G|]. rewrite sep_yield_cons by apply N0, NE. apply Forall_app. split; [exact G|]. constructor; [exact comma_genuine|exact Gs].
    + intros _. destruct NE as [-> | NE]; [rewrite (E0 eq_refl); constructor; apply R; [lia|apply open_rparen]|]. apply r_more; [apply R; [lia|apply open_comma]|apply Rs, NE].
    + intros dflt st. destruct (W dflt st) as [j1 [lt [tc [E [F1 [H1 K1]]]]]]. destruct (Ws dflt (LState (j1 ++ stack st) lt tc)) as [j2 [lt' [tc' [E' [F2 [C2 [H2 K2]]]]]]].
      exists (j2 ++ j1), lt', tc'. split; [|split; [apply Forall_app; split; assumption|split; [|split]]].
      * change (walk_list dflt (t :: ts) st) with (st' <- walk dflt t st ;; walk_list dflt ts st'). rewrite E. cbn [bind]. rewrite E'. cbn [stack]. rewrite app_assoc. reflexivity.
      * intros C X. apply app_eq_nil in X as [X1 X2]. inversion C as [? ? L|? ? L]; subst; [destruct (H1 L); congruence|apply (C2 L); reflexivity].
      * intros before ws0 us nsb n0 nsu Ew En Ln L0. destruct before as [|b before], nsb as [|nb nsb]; cbn [app length] in *; try discriminate.
        { injection Ew as -> Ew. injection En as -> En. destruct (H1 L0) as [j ->]. rewrite K2; [eauto|]. rewrite Ew. apply Forall_forall. intros w Iw.
          apply in_map_iff in Iw as [u [<- _]]. reflexivity. }
        { injection Ew as -> Ew. injection En as -> En. destruct (H2 before ws0 us nsb n0 nsu Ew En) as [j ->]; [lia|exact L0|]. eexists; reflexivity. }
      * intros F. inversion F as [|? ? A B]; subst. rewrite (K1 A), (K2 B). reflexivity.
Qed.
