(** The token sets of the error recovery model are those of the automaton. *)
From Verif Require Import Base Lexer Grammar Recover RecoverFacts.
From Verif Require Import SpecGrammar LexerAtn Listener Api ParserAtn NetFacts NetMain NetFinal.
Local Open Scope Z_scope.

(** The return states of the invocations behind a frame. *)
Definition opens (fr : frame) : list N :=
  match fr with InParse => [23] | InParen => [28] | InOps => [36; 42; 52; 54; 58; 80; 82] | InWords => [103; 117] end%N.
Definition same_set (f : tkind -> bool) (l : list Z) (k : tkind) : bool := Bool.eqb (f k) (has l (code k)).
Lemma same_set_iff f l k : same_set f l k = true -> (f k = true <-> In (code k) l).
Proof. unfold same_set. intros H. apply eqb_prop in H. rewrite H. apply has_in. Qed.

Transparent next_tokens.
Lemma frame_sets fr r k : In r (opens fr) -> k <> T_WS -> (follow_has fr k = true <-> In (code k) (next_tokens r)).
Proof.
  intros R N. apply same_set_iff.
  destruct fr; cbn [opens In] in R; repeat match goal with D : _ \/ _ |- _ => destruct D as [<- | D] end; try contradiction; destruct k; try congruence; vm_compute; reflexivity.
Qed.
Lemma frame_end fr r : In r (opens fr) -> existsb (Z.eqb epsilon) (next_tokens r) = match fr with InOps => true | _ => false end.
Proof.
  intros R. destruct fr; cbn [opens In] in R; repeat match goal with D : _ \/ _ |- _ => destruct D as [<- | D] end; try contradiction; vm_compute; reflexivity.
Qed.
Opaque next_tokens.
Lemma in_filter k l : In (code k) (filter (fun x => negb (x =? epsilon)) l) <-> In (code k) l.
Proof.
  rewrite filter_In. split; [tauto |]. intros H. split; [exact H |]. destruct k; reflexivity.
Qed.
Lemma resume_same st ctx k : Forall2 (fun r fr => In r (opens fr)) st ctx -> k <> T_WS -> (recovery_has ctx k = true <-> In (code k) (resume_set st)).
Proof.
  intros H N. unfold resume_set. rewrite in_filter. induction H as [| r fr st ctx R H IH]; [cbn; split; [discriminate | contradiction] |].
  cbn [recovery_has existsb flat_map]. rewrite orb_true_iff, in_app_iff, (frame_sets fr r k R N). fold (recovery_has ctx k). now rewrite IH.
Qed.
Lemma expected_same st ctx k : Forall2 (fun r fr => In r (opens fr)) st ctx -> k <> T_WS -> (context_has ctx k = true <-> In (code k) (expected_after st)).
Proof.
  intros H N. induction H as [| r fr st ctx R H IH].
  - cbn. unfold is_kind. destruct k; cbn; intuition (try discriminate).
  - cbn [expected_after]. rewrite (frame_end _ _ R), in_app_iff, in_filter, <- (frame_sets fr r k R N). destruct fr; cbn [context_has follow_has]; try (cbn [In]; tauto).
    rewrite orb_true_iff. now rewrite IH.
Qed.
Lemma sync_same k : k <> T_WS ->
  (forall q, In q [96; 110]%N -> (begins_item k = true <-> In (code k) (next_tokens q))) /\
  (forall q, In q [103; 117; 122; 124]%N -> (ends_item k = true <-> In (code k) (next_tokens q))) /\
  (forall q a, In (q, a) [(28, T_RPAREN); (125, T_RPAREN); (40, T_TO); (47, T_IN); (92, T_LPAREN); (23, T_EOF)]%N -> (k = a <-> In (code k) (next_tokens q))) /\
  (forall q, In q [41; 129]%N -> (is_numeric_type k = true <-> In (code k) (next_tokens q))).
Proof.
  intros N. split; [| split; [| split]]; intros q.
  - intros H. apply same_set_iff. cbn [In] in *. repeat match goal with D : _ \/ _ |- _ => destruct D as [<- | D] end; try contradiction; destruct k; try congruence; vm_compute; reflexivity.
  - intros H. apply same_set_iff. cbn [In] in *. repeat match goal with D : _ \/ _ |- _ => destruct D as [<- | D] end; try contradiction; destruct k; try congruence; vm_compute; reflexivity.
  - intros a H. split.
    + intros <-. cbn [In] in *. repeat match goal with D : _ \/ _ |- _ => destruct D as [[= <- <-] | D] end; try contradiction; vm_compute; tauto.
    + intros I. apply has_in in I. cbn [In] in *. repeat match goal with D : _ \/ _ |- _ => destruct D as [[= <- <-] | D] end; try contradiction; destruct k; first [reflexivity | vm_compute in I; discriminate I].
  - intros H. apply same_set_iff. cbn [In] in *. repeat match goal with D : _ \/ _ |- _ => destruct D as [<- | D] end; try contradiction; destruct k; try congruence; vm_compute; reflexivity.
Qed.

Lemma run_is_result s ts t dflt : generated_lex s = Some ts -> parse_run ts t -> parse_expression s dflt = listen dflt t.
Proof.
  intros H R. pose proof (generated_tokens _ _ H) as (B & C & L). apply (net_tree s ts t H) in R. destruct R as [<- R].
  unfold parse_expression. rewrite L. cbn [bind]. rewrite parse_any_complete by exact R. reflexivity.
Qed.
