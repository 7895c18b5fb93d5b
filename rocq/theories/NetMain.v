(** The generated parser and the parser model agree on the sentences of the grammar: the induction. *)
From Coq Require Import FMapPositive.
From Verif Require Import Base Lexer Grammar LexerAtn ParserTable ParserAtn NetFacts NetRun NetParse ParseFuel ParseFacts.
Local Open Scope Z_scope.
Opaque next_tokens.

Definition good {X} (r : res X) (Q : X -> Prop) : Prop := match r with Ok x => Q x | Err SyntaxError => False | Err _ => True end.
Lemma good_bind X Y (r : res X) (k : X -> res Y) (Q : X -> Prop) (R : Y -> Prop) : good r Q -> (forall x, Q x -> good (k x) R) -> good (bind r k) R.
Proof. intros H I. destruct r as [x | e]; cbn in *; auto. Qed.
Definition nows (ts : list token) : Prop := Forall (fun t => kind t <> T_WS) ts.

(** The two places of wordlist() where an element is parsed. *)
Inductive slot := First | More.
Definition slot_call (s : slot) : N := match s with First => 99 | More => 113 end.
Definition slot_loop (s : slot) : N := match s with First => 103 | More => 117 end.
Definition slot_back (s : slot) : N := match s with First => 105 | More => 119 end.
Definition slot_rest (s : slot) : N := match s with First => 122 | More => 124 end.

Lemma slot_enter s st ks : A (slot_call s) st ks -> A 2 (slot_loop s :: st) ks.
Proof. intros H. destruct s; cbn [slot_call slot_loop] in *; at_state H; exact H. Qed.
Lemma slot_leave s st t ts : kind t <> T_WS -> A 3 (slot_loop s :: st) (codes (t :: ts)) ->
  A 122 st (codes (t :: ts)) /\ blanks_run (slot_loop s) (slot_back s) (t :: ts) (t :: ts).
Proof.
  intros N H. at_end H. pose proof (synced _ _ _ _ _ _ H) as Y. split; [| now apply blanks_end].
  destruct s; cbn [slot_loop] in H; at_state H.
  - at_state H. at_state H. cbn [codes map] in H. destruct H as [K _]. destruct (kind t); try discriminate K. congruence.
  - at_state H. exact H.
  - at_state H. at_state H. cbn [codes map] in H. destruct H as [K _]. destruct (kind t); try discriminate K. congruence.
  - at_state H. at_state H. at_state H. exact H.
Qed.
Lemma blanks_4 p st t ts : kind t <> T_WS -> A 96 st (codes (t :: ts)) -> predicted_blanks p 4 st 96 98 (t :: ts) (t :: ts) /\ A 99 st (codes (t :: ts)).
Proof.
  intros N H. pose proof (synced _ _ _ _ _ _ H) as Y.
  assert (W : forall p' m, ~ accepts p' m 94 st (codes (t :: ts))).
  { intros p' m V. at_state V. at_state V. cbn [codes map] in V. destruct V as [K _]. destruct (kind t); try discriminate K. congruence. }
  at_state H; [exfalso; eapply W; eauto |]. split.
  - apply pblanks_end; [exact Y |]. split.
    + exists 97%N. split; [reflexivity |]. split; [lia |]. apply acc_plain; [now apply unfree | lia | reflexivity].
    + intros j J (x & X & Z & V). destruct j as [| [| j]]; try lia. vm_compute in X. injection X as <-. eapply W; eauto.
  - at_state H. exact H.
Qed.
Lemma blanks_6 p st t ts : kind t <> T_WS -> A 110 st (codes (t :: ts)) -> predicted_blanks p 6 st 110 112 (t :: ts) (t :: ts) /\ A 113 st (codes (t :: ts)).
Proof.
  intros N H. pose proof (synced _ _ _ _ _ _ H) as Y.
  assert (W : forall p' m, ~ accepts p' m 108 st (codes (t :: ts))).
  { intros p' m V. at_state V. at_state V. cbn [codes map] in V. destruct V as [K _]. destruct (kind t); try discriminate K. congruence. }
  at_state H; [exfalso; eapply W; eauto |]. split.
  - apply pblanks_end; [exact Y |]. split.
    + exists 111%N. split; [reflexivity |]. split; [lia |]. apply acc_plain; [now apply unfree | lia | reflexivity].
    + intros j J (x & X & Z & V). destruct j as [| [| j]]; try lia. vm_compute in X. injection X as <-. eapply W; eauto.
  - at_state H. exact H.
Qed.
Lemma list_nonempty q w st ks : estack st -> A q (w :: st) ks -> ks <> [].
Proof. intros E H. eapply acc_nonempty; [exact H |]. right. right. now apply estack_parse. Qed.
Lemma expr_nonempty q st ks : estack st -> A q st ks -> ks <> [].
Proof. intros E H. eapply acc_nonempty; [exact H |]. right. now apply estack_parse. Qed.
Lemma field_alone st t : estack st -> kind t = T_FIELD -> ~ A 2 st (codes [t]).
Proof.
  intros E K H. apply at_primary in H. destruct H as (i & q & N & H). pose proof (alternative_first _ _ _ _ _ _ _ N H) as F.
  destruct i as [| [| [| [| [| [| [| [| i]]]]]]]]; try contradiction;
    try (match type of F with _ /\ _ => destruct F as [-> F] end; try congruence; try (rewrite K in F; discriminate F)).
  - subst q. apply at_operand in H. destruct H as [(t' & ts' & [= <- <-] & T & H) | H].
    + now apply expr_nonempty in H.
    + cbn [codes map] in H. rewrite K in H. apply after_ok in H; [| vm_compute; reflexivity | exact E].
      vm_compute in H. repeat match goal with D : _ \/ _ |- _ => destruct D as [D | D] end; try contradiction; discriminate.
  - at_state H. destruct H as [_ H]. at_state H. at_state H. at_state H.
  - at_state H. destruct H as [_ H]. at_state H; at_state H; at_state H.
  - at_state H. destruct H as [_ H]. at_state H. at_state H. at_state H.
Qed.

Definition expr_good (f : nat) : Prop := forall p ts st, nows ts -> estack st -> fits p st -> A 2 st (codes ts) ->
  good (pexpr f p ts) (fun er => nows (snd er) /\ A 3 st (codes (snd er)) /\ expression_run p st ts (fst er) (snd er)).
Definition loop_good (f : nat) : Prop := forall p q l ts st, In q [83; 85]%N -> nows ts -> estack st -> fits p st -> A 83 st (codes ts) ->
  good (ploop f p l ts) (fun er => nows (snd er) /\ A 3 st (codes (snd er)) /\ loop_run p q st l ts (fst er) (snd er)).
Definition words_good (f : nat) : Prop := forall p ts w st, nows ts -> estack st -> In w [36; 52; 54]%N -> A 10 (w :: st) (codes ts) ->
  good (pwordlist f ts) (fun ir => nows (snd ir) /\ A w st (codes (snd ir)) /\ wordlist_run p (w :: st) ts (fst ir) (snd ir)).
Definition items_good (f : nat) : Prop := forall p s ts w st, nows ts -> estack st -> In w [36; 52; 54]%N -> A (slot_call s) (w :: st) (codes ts) ->
  good (pitems f ts) (fun ir => nows (snd ir) /\ A w st (codes (snd ir)) /\ exists e items ts2, fst ir = e :: items /\
    expression_run 0 (slot_loop s :: w :: st) ts e ts2 /\ blanks_run (slot_loop s) (slot_back s) ts2 ts2 /\ items_run p (slot_rest s) (w :: st) ts2 items (snd ir)).

Lemma words_tail w st ks : In w [36; 52; 54]%N -> A w st ks -> A 83 st ks.
Proof.
  intros [<- | [<- | [<- | []]]] H.
  - at_state H. at_state H. exact H.
  - at_state H. at_state H. exact H.
  - at_state H. exact H.
Qed.
Lemma expr_head st ts : estack st -> A 2 st (codes ts) -> exists t ts', ts = t :: ts' /\ in_sync 53 ts.
Proof.
  intros E H. destruct ts as [| t ts']; [now apply expr_nonempty in H |]. exists t, ts'. split; [reflexivity |]. at_state H. eapply synced; eauto.
Qed.

Lemma expr_step f : expr_good f -> loop_good f -> words_good f -> expr_good (S f).
Proof.
  intros X L W p ts st B E F H. destruct (expr_head st ts E H) as (t & ts' & -> & Y). cbn [pexpr].
  assert (B' : nows ts') by (inversion B; assumption).
  apply good_bind with (Q := fun lr => nows (snd lr) /\ A 83 st (codes (snd lr)) /\ primary_run p st (t :: ts') (fst lr) (snd lr)).
  2: { intros (l & ts1) (B1 & H1 & R1). cbn [fst snd] in *. pose proof (L p 83%N l ts1 st) as G. specialize (G (or_introl eq_refl) B1 E F H1).
       destruct (ploop f p l ts1) as [[t' rest] | e]; cbn [good fst snd] in *; [| exact G]. destruct G as (G1 & G2 & G3). repeat split; auto.
       eapply run_expression; eauto. }
  destruct (kind t) eqn:K; cbn [is_function is_type];
  try (* a literal, or nothing *)
    (destruct (choose_operand p st t ts' E F) as [M R]; [now rewrite K | rewrite K; cbn; intuition discriminate | exact H |]; rewrite K in R; cbn [is_type] in R;
     cbn [good fst snd]; split; [assumption | split; [exact R |]]; apply run_types; [exact M |];
     first [apply types_take | apply types_none]; [rewrite K; reflexivity | apply acc_return; [reflexivity |]; apply loop_tail; [left; reflexivity | exact R]]; fail);
  try (* a function *)
    (destruct (choose_function p st t ts' E) as [M R]; [now rewrite K | exact H |];
     apply good_bind with (Q := fun wr => nows (snd wr) /\ A 36 st (codes (snd wr)) /\ wordlist_run p (36%N :: st) ts' (fst wr) (snd wr));
     [apply W; auto; cbn; tauto |];
     intros (items & rest) (B1 & H1 & R1); cbn [good fst snd] in *; split; [assumption |]; split; [apply words_tail with 36%N; [cbn; tauto | exact H1] |];
     apply run_function; [exact M | rewrite K; reflexivity | exact R1]; fail).
  - (* NOT *)
    destruct (choose_not p st t ts' E K H) as [M R].
    apply good_bind with (Q := fun er => nows (snd er) /\ A 3 (54%N :: st) (codes (snd er)) /\ expression_run 15 (54%N :: st) ts' (fst er) (snd er)).
    + apply X; auto; [apply es_tail; [left; reflexivity | exact E] | right; do 2 eexists; split; [reflexivity | left; reflexivity]].
    + intros (e & rest) (B1 & H1 & R1). cbn [good fst snd] in *. split; [assumption |]. at_end H1. split; [apply tail_loop with 54%N; [left; reflexivity | exact H1] |].
      now apply run_not.
  - (* - *)
    destruct (choose_negation p st t ts' E K H) as [M R].
    apply good_bind with (Q := fun er => nows (snd er) /\ A 3 (54%N :: st) (codes (snd er)) /\ expression_run 13 (54%N :: st) ts' (fst er) (snd er)).
    + apply X; auto; [apply es_tail; [left; reflexivity | exact E] | right; do 2 eexists; split; [reflexivity | left; reflexivity]].
    + intros (e & rest) (B1 & H1 & R1). cbn [good fst snd] in *. split; [assumption |]. at_end H1. split; [apply tail_loop with 54%N; [left; reflexivity | exact H1] |].
      now apply run_negation.
  - (* ( *)
    destruct (choose_parent p st t ts' E K H) as [M R].
    apply good_bind with (Q := fun er => nows (snd er) /\ A 3 (28%N :: st) (codes (snd er)) /\ expression_run 0 (28%N :: st) ts' (fst er) (snd er)).
    + apply X; auto; [apply es_paren; exact E | left; reflexivity].
    + intros (e & rest) (B1 & H1 & R1). cbn [fst snd] in *. at_end H1. at_state H1. destruct rest as [| b rest]; [contradiction |].
      cbn [codes map] in H1. destruct H1 as [KB H1]. at_state H1. assert (Kb : kind b = T_RPAREN) by (destruct (kind b); try discriminate KB; reflexivity).
      rewrite (expect_hit _ _ _ Kb). cbn [bind good fst snd]. split; [inversion B1; assumption |].
      split; [apply tail_loop with 54%N; [left; reflexivity | exact H1] |]. eapply run_parent; eauto.
  - (* a field *)
    destruct ts' as [| u ts2]; [exfalso; eapply field_alone; eauto |]. assert (B2 : nows ts2) by (inversion B'; assumption).
    destruct (choose_field p st t u ts2 E F K H) as [S M R | to hi rest N M -> T N' R | I M R | it rest I M -> T R | I M R].
    + assert (G : match kind u with T_INTEGER | T_DECIMAL | T_NOT | T_IN | T_CONTAINS_ALL | T_CONTAINS_ANY => False | _ => True end) by (destruct (kind u); try discriminate S; exact I).
      destruct (kind u); try contradiction G;
      (cbn [good fst snd]; split; [assumption | split; [exact R |]]; apply run_types; [exact M |]; apply types_take; [now rewrite K |];
       apply acc_return; [reflexivity |]; apply loop_tail; [left; reflexivity | exact R]).
    + assert (Z : good (tr <- expect_tok T_TO (to :: hi :: rest);;
              match snd tr with [] => Err SyntaxError | hi :: rest => if is_numeric_type (kind hi) then Ok (PTo t u (fst tr) hi, rest) else Err SyntaxError end)
              (fun lr => nows (snd lr) /\ A 83 st (codes (snd lr)) /\ primary_run p st (t :: u :: to :: hi :: rest) (fst lr) (snd lr))).
      { rewrite (expect_hit _ _ _ T). cbn [bind snd fst]. rewrite N'. cbn [good fst snd]. split; [| split; [exact R |]].
        - inversion B2 as [| ? ? ? B3]; inversion B3; assumption.
        - apply run_to; auto.
          + destruct (kind u); try discriminate N; tauto.
          + destruct (kind hi); try discriminate N'; tauto. }
      destruct (kind u); try discriminate N; exact Z.
    + rewrite I. apply good_bind with (Q := fun wr => nows (snd wr) /\ A 54 st (codes (snd wr)) /\ wordlist_run p (54%N :: st) ts2 (fst wr) (snd wr));
      [apply W; auto; cbn; tauto |].
      intros (items & rest) (B1 & H1 & R1). cbn [good fst snd] in *. split; [assumption |]. split; [apply words_tail with 54%N; [cbn; tauto | exact H1] |].
      apply run_in; auto. left. rewrite I. vm_compute. tauto.
    + rewrite I. rewrite (expect_hit _ _ _ T). cbn [bind snd fst].
      assert (B3 : nows rest) by (inversion B2; assumption).
      apply good_bind with (Q := fun wr => nows (snd wr) /\ A 54 st (codes (snd wr)) /\ wordlist_run p (54%N :: st) rest (fst wr) (snd wr));
      [apply W; auto; cbn; tauto |].
      intros (items & rest') (B1 & H1 & R1). cbn [good fst snd] in *. split; [assumption |]. split; [apply words_tail with 54%N; [cbn; tauto | exact H1] |].
      apply run_not_in; auto. left. rewrite I. vm_compute. tauto.
    + assert (Z : good (wr <- pwordlist f ts2;; Ok (PArray t u (fst wr), snd wr))
              (fun lr => nows (snd lr) /\ A 83 st (codes (snd lr)) /\ primary_run p st (t :: u :: ts2) (fst lr) (snd lr))).
      { apply good_bind with (Q := fun wr => nows (snd wr) /\ A 52 st (codes (snd wr)) /\ wordlist_run p (52%N :: st) ts2 (fst wr) (snd wr));
        [apply W; auto; cbn; tauto |].
        intros (items & rest) (B1 & H1 & R1). cbn [good fst snd] in *. split; [assumption |]. split; [apply words_tail with 52%N; [cbn; tauto | exact H1] |].
        now apply run_array. }
      destruct I as [I | I]; rewrite I; exact Z.
Qed.

Lemma loop_step f : expr_good f -> loop_good f -> loop_good (S f).
Proof.
  intros X L p q l ts st Q B E F H. destruct ts as [| t ts']; [now apply expr_nonempty in H |]. cbn [ploop].
  assert (Y : in_sync q (t :: ts')).
  { destruct Q as [<- | [<- | []]].
    - eapply synced; eauto.
    - apply synced with 0%nat None st. go 0. exact H. }
  assert (stop : (forall q, infix_prec (kind t) = Some q -> (q < p)%nat) ->
    nows (t :: ts') /\ A 3 st (codes (t :: ts')) /\ loop_run p q st l (t :: ts') l (t :: ts')).
  { intros C. destruct (predict_exit p st (t :: ts') F H) as [M R].
    - intros t' ts'' [= <- <-]. exact C.
    - split; [exact B |]. split; [exact R |]. now apply run_exit. }
  destruct (infix_prec (kind t)) as [c |] eqn:I; [destruct (p <=? c)%nat eqn:P |].
  - apply Nat.leb_le in P. destruct (predict_more p st t ts' c E H I P) as (M & i & b & M2 & N & O & C & R).
    destruct (branch_facts _ _ _ N O) as (_ & RP & T & ND).
    apply good_bind with (Q := fun er => nows (snd er) /\ A 3 (return_state (calling_state b) :: st) (codes (snd er)) /\
      expression_run (right_precedence b) (return_state (calling_state b) :: st) ts' (fst er) (snd er)).
    + rewrite RP, C. apply X; auto; [inversion B; assumption | now apply es_tail | right; do 2 eexists; split; [reflexivity | exact T]].
    + intros (r & ts1) (B1 & H1 & R1). cbn [fst snd] in *. at_end H1. apply (tail_loop _ _ _ _ T) in H1.
      pose proof (L p 85%N (mk_infix l t r) ts1 st) as G. specialize (G (or_intror (or_introl eq_refl)) B1 E F H1).
      destruct (ploop f p (mk_infix l t r) ts1) as [[t' rest] | e]; cbn [good fst snd] in *; [| exact G]. destruct G as (G1 & G2 & G3). repeat split; auto.
      apply run_more with i b r ts1; auto.
      * apply synced with 0%nat None st. apply into_loop with i b; auto. discriminate.
      * lia.
      * now rewrite (ND _ _ _ eq_refl).
  - apply Nat.leb_gt in P. cbn [good fst snd]. apply stop. intros c' [= <-]. exact P.
  - cbn [good fst snd]. apply stop. discriminate.
Qed.

Lemma words_step f : items_good f -> words_good (S f).
Proof.
  intros I p ts w st B E W H. cbn [pwordlist]. at_state H. at_state H. destruct ts as [| a ts]; [contradiction |]. cbn [codes map] in H. destruct H as [K H].
  assert (Ka : kind a = T_LPAREN) by (destruct (kind a); try discriminate K; reflexivity).
  rewrite (expect_hit _ _ _ Ka). cbn [bind snd]. fold (codes ts) in H.
  assert (B' : nows ts) by (inversion B; assumption).
  destruct ts as [| t ts]; [now apply list_nonempty in H |]. assert (Kt : kind t <> T_WS) by (inversion B'; assumption).
  destruct (blanks_4 p _ _ _ Kt H) as [M R]. pose proof (I p First (t :: ts) w st B' E W R) as G.
  destruct (pitems f (t :: ts)) as [[items rest] | e]; cbn [good fst snd] in *; [| exact G].
  destruct G as (G1 & G2 & e & its & ts2 & -> & G3 & G4 & G5). repeat split; auto. eapply run_wordlist; eauto.
Qed.

Lemma items_step f : expr_good f -> items_good f -> items_good (S f).
Proof.
  intros X I p s ts w st B E W H. cbn [pitems]. apply slot_enter in H.
  apply good_bind with (Q := fun er => nows (snd er) /\ A 3 (slot_loop s :: w :: st) (codes (snd er)) /\ expression_run 0 (slot_loop s :: w :: st) ts (fst er) (snd er)).
  - apply X; auto; [apply es_words; auto; destruct s; cbn; auto | left; reflexivity].
  - intros (e & ts2) (B1 & H1 & R1). cbn [fst snd] in *. destruct ts2 as [| b rest].
    { exfalso. eapply acc_nonempty in H1; [now apply H1 |]. right. right. right. now apply estack_parse. }
    assert (Kb : kind b <> T_WS) by (inversion B1; assumption). assert (B2 : nows rest) by (inversion B1; assumption).
    destruct (slot_leave s _ _ _ Kb H1) as [H2 G2].
    assert (Y : in_sync (slot_rest s) (b :: rest)).
    { destruct s; cbn [slot_rest]; [eapply synced; eauto |]. apply synced with 0%nat None (w :: st). go 0. exact H2. }
    at_state H2.
    + at_state H2. at_state H2. cbn [codes map] in H2. destruct H2 as [K H2]. fold (codes rest) in H2.
      assert (Kc : kind b = T_COMMA) by (destruct (kind b); try discriminate K; reflexivity). rewrite Kc.
      destruct rest as [| t rest]; [now apply list_nonempty in H2 |]. assert (Kt : kind t <> T_WS) by (inversion B2; assumption).
      destruct (blanks_6 p _ _ _ Kt H2) as [M R]. pose proof (I p More (t :: rest) w st B2 E W R) as G.
      destruct (pitems f (t :: rest)) as [[items rest'] | x]; cbn [bind good fst snd] in *; [| exact G].
      destruct G as (G1 & G3 & e' & its & ts3 & -> & G4 & G5 & G6). repeat split; auto.
      exists e, (e' :: its), (b :: t :: rest). repeat split; auto. eapply run_item; eauto.
    + at_state H2. at_state H2. cbn [codes map] in H2. destruct H2 as [K H2]. at_state H2. at_end H2.
      assert (Kc : kind b = T_RPAREN) by (destruct (kind b); try discriminate K; reflexivity). rewrite Kc. cbn [good fst snd]. repeat split; auto.
      exists e, [], (b :: rest). repeat split; auto. apply run_close; auto. congruence.
Qed.

Lemma all_good f : expr_good f /\ loop_good f /\ words_good f /\ items_good f.
Proof.
  induction f as [| f (X & L & W & I)].
  - repeat split; repeat intro; exact Logic.I.
  - repeat split; [now apply expr_step | now apply loop_step | now apply words_step | now apply items_step].
Qed.

(** * Conversely, what the model parses the automaton accepts *)
Definition expr_back (f : nat) : Prop := forall p ts st t rest, pexpr f p ts = Ok (t, rest) -> A 3 st (codes rest) -> A 2 st (codes ts).
Definition loop_back (f : nat) : Prop := forall p l ts st t rest, ploop f p l ts = Ok (t, rest) -> A 3 st (codes rest) -> A 83 st (codes ts).
Definition words_back (f : nat) : Prop := forall ts w st items rest, pwordlist f ts = Ok (items, rest) -> A w st (codes rest) -> A 10 (w :: st) (codes ts).
Definition items_back (f : nat) : Prop := forall s ts w st items rest, pitems f ts = Ok (items, rest) -> A w st (codes rest) -> A (slot_call s) (w :: st) (codes ts).

Lemma into_primary i q st ks : nth_error (moves 53) i = Some (TEpsilon q) -> A q st ks -> A 2 st ks.
Proof.
  intros N H. go 0. apply acc_mk. apply Exists_exists. eexists. split; [eapply nth_error_In; exact N | exact H].
Qed.
Lemma operand_back st t ts rest : A 83 st (codes rest) -> (is_type (kind t) = true /\ rest = ts) \/ rest = t :: ts -> A 2 st (codes (t :: ts)).
Proof.
  intros H C. apply (into_primary 4 37); [reflexivity |]. apply free with 0%nat (Some 0). apply take_operand; [left; reflexivity |].
  destruct C as [[T ->] | ->]; [left; exists t, ts; auto | right; exact H].
Qed.
Lemma tail_back q st ks : In q [36; 52; 54]%N -> A 83 st ks -> A q st ks.
Proof.
  intros [<- | [<- | [<- | []]]] H.
  - go 0. apply loop_tail; [left; reflexivity | exact H].
  - go 0. apply loop_tail; [left; reflexivity | exact H].
  - apply loop_tail; [left; reflexivity | exact H].
Qed.
Ltac hit K := cbn [codes map]; rewrite K; (split; [reflexivity |]).

Lemma expr_step_back f : expr_back f -> loop_back f -> words_back f -> expr_back (S f).
Proof.
  intros X L W p ts st t' rest' H E. cbn [pexpr] in H. apply bind_ok in H. destruct H as ((l & rest) & H & H'). cbn [fst snd] in H'.
  apply (L p l rest st) in H'; [| exact E]. clear E L. destruct ts as [| t ts]; [discriminate |].
  destruct (kind t) eqn:K; cbn [is_function is_type] in H;
  try (injection H as <- <-; eapply operand_back; [exact H' | rewrite K; auto]; fail);
  try (apply bind_ok in H; destruct H as ((items & r) & H & [= <- <-]); cbn [fst snd] in H'; apply (into_primary 3 34); [reflexivity |];
       go 0; go 0; go 0; hit K; go 0; (apply acc_return; [reflexivity |]); go 0; eapply W; [exact H |]; apply tail_back; [cbn; tauto | exact H']; fail).
  - apply bind_ok in H. destruct H as ((e & r) & H & [= <- <-]). cbn [fst snd] in H'. apply (into_primary 1 30); [reflexivity |].
    go 0. hit K. go 0. eapply X; [exact H |]. apply acc_return; [reflexivity |]. apply loop_tail; [left; reflexivity | exact H'].
  - apply bind_ok in H. destruct H as ((e & r) & H & [= <- <-]). cbn [fst snd] in H'. apply (into_primary 2 32); [reflexivity |].
    go 0. hit K. go 0. eapply X; [exact H |]. apply acc_return; [reflexivity |]. apply loop_tail; [left; reflexivity | exact H'].
  - apply bind_ok in H. destruct H as ((e & r) & H & H2). cbn [fst snd] in *. apply bind_ok in H2. destruct H2 as ((c & r') & H2 & [= <- <-]).
    apply expect_ok in H2. destruct H2 as [-> Kc]. cbn [fst snd] in H'. apply (into_primary 0 25); [reflexivity |].
    go 0. go 0. hit K. go 0. eapply X; [exact H |]. apply acc_return; [reflexivity |]. go 0. hit Kc. go 0. apply loop_tail; [left; reflexivity | exact H'].
  - destruct ts as [| u ts2]; [injection H as <- <-; eapply operand_back; [exact H' | rewrite K; auto] |].
    assert (R : forall (G : (tr <- expect_tok T_TO ts2;; match snd tr with [] => Err SyntaxError | hi :: rest => if is_numeric_type (kind hi) then Ok (PTo t u (fst tr) hi, rest) else Err SyntaxError end) = Ok (l, rest)),
      is_numeric_type (kind u) = true -> A 2 st (codes (t :: u :: ts2))).
    { intros G N. apply bind_ok in G. destruct G as ((to & r) & G & G'). apply expect_ok in G. destruct G as [-> T]. cbn [fst snd] in G'.
      destruct r as [| hi r]; [discriminate |]. destruct (is_numeric_type (kind hi)) eqn:N'; [| discriminate]. injection G' as <- <-.
      apply (into_primary 5 38); [reflexivity |]. go 0. hit K. go 0. go 0. go 0.
      split; [destruct (kind u); try discriminate N; reflexivity |]. go 0. apply acc_return; [reflexivity |]. go 0. rewrite T. split; [reflexivity |].
      go 0. go 0. go 0. split; [destruct (kind hi); try discriminate N'; reflexivity |]. go 0. apply acc_return; [reflexivity |]. go 0. apply loop_tail; [left; reflexivity | exact H']. }
    assert (C : (wr <- pwordlist f ts2;; Ok (PArray t u (fst wr), snd wr)) = Ok (l, rest) -> kind u = T_CONTAINS_ALL \/ kind u = T_CONTAINS_ANY -> A 2 st (codes (t :: u :: ts2))).
    { intros G N. apply bind_ok in G. destruct G as ((items & r) & G & [= <- <-]). cbn [fst snd] in H'. apply (into_primary 7 49); [reflexivity |].
      go 0. hit K. go 0. go 0. go 0. split; [destruct N as [-> | ->]; reflexivity |]. go 0. apply acc_return; [reflexivity |]. go 0.
      eapply W; [exact G |]. apply tail_back; [cbn; tauto | exact H']. }
    destruct (kind u) eqn:U; try (injection H as <- <-; eapply operand_back; [exact H' | rewrite K; auto]; fail); try (apply R; auto; fail); try (apply C; auto; fail).
    + apply bind_ok in H. destruct H as ((items & r') & G & [= <- <-]). cbn [fst snd] in H'. apply (into_primary 6 43); [reflexivity |].
      go 0. hit K. go 1. go 0. go 0. rewrite U. split; [reflexivity |]. go 0.
      eapply W; [exact G |]. apply tail_back; [cbn; tauto | exact H'].
    + apply bind_ok in H. destruct H as ((it & r) & H & G). apply expect_ok in H. destruct H as [-> T]. cbn [fst snd] in G.
      apply bind_ok in G. destruct G as ((items & r') & G & [= <- <-]). cbn [fst snd] in H'. apply (into_primary 6 43); [reflexivity |].
      go 0. hit K. go 0. go 0. rewrite U. split; [reflexivity |]. go 0. go 0. rewrite T. split; [reflexivity |]. go 0.
      eapply W; [exact G |]. apply tail_back; [cbn; tauto | exact H'].
Qed.
Lemma loop_step_back f : expr_back f -> loop_back f -> loop_back (S f).
Proof.
  intros X L p l ts st t' rest' H E. cbn [ploop] in H.
  destruct ts as [| t ts]; [injection H as <- <-; now apply loop_leave |].
  destruct (infix_prec (kind t)) as [q |] eqn:I; [destruct (p <=? q)%nat |]; try (injection H as <- <-; now apply loop_leave).
  apply bind_ok in H. destruct H as ((r & ts1) & H & H'). cbn [fst snd] in H'. apply (L _ _ _ st) in H'; [| exact E].
  destruct (branch_of _ _ I) as (i & b & N & O). destruct (branch_facts _ _ _ N O) as (_ & _ & T & _).
  apply loop_more. apply into_loop with i b; auto; [discriminate |]. eapply X; [exact H |]. apply acc_return; [reflexivity |]. now apply loop_tail.
Qed.
Lemma words_step_back f : items_back f -> words_back (S f).
Proof.
  intros I ts w st items rest H E. cbn [pwordlist] in H. apply bind_ok in H. destruct H as ((a & r) & H & H'). apply expect_ok in H. destruct H as [-> K].
  cbn [snd] in H'. apply (I First _ w st) in H'; [| exact E]. go 0. go 0. hit K. go 1. go 0. exact H'.
Qed.
Lemma slot_back_leave s st ks : A 122 st ks -> A 3 (slot_loop s :: st) ks.
Proof. intros H. apply acc_return; [reflexivity |]. destruct s; cbn [slot_loop]; go 1; go 0; [exact H |]. go 0. go 0. exact H. Qed.
Lemma items_step_back f : expr_back f -> items_back f -> items_back (S f).
Proof.
  intros X I s ts w st items rest H E. cbn [pitems] in H. apply bind_ok in H. destruct H as ((e & r) & H & H'). cbn [fst snd] in H'.
  assert (G : A 122 (w :: st) (codes r)).
  { destruct r as [| b r]; [discriminate |]. destruct (kind b) eqn:K; try discriminate.
    - apply bind_ok in H'. destruct H' as ((its & r') & H' & [= <- <-]). cbn [fst snd] in *. apply (I More _ w st) in H'; [| exact E].
      go 0. go 0. go 0. hit K. go 1. go 0. exact H'.
    - injection H' as <- <-. go 1. go 0. go 0. hit K. go 0. apply acc_return; [reflexivity |]. exact E. }
  assert (B : A 2 (slot_loop s :: w :: st) (codes ts)) by (eapply X; [exact H | now apply slot_back_leave]).
  destruct s; go 0; exact B.
Qed.
Lemma all_back f : expr_back f /\ loop_back f /\ words_back f /\ items_back f.
Proof.
  induction f as [| f (X & L & W & I)].
  - repeat split; repeat intro; discriminate.
  - repeat split; [now apply expr_step_back | now apply loop_step_back | now apply words_step_back | now apply items_step_back].
Qed.
