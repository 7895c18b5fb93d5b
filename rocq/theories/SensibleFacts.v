(** The tree of any text is one the reference semantics speaks about. *)
From Coq Require Import QArith Lia.
From Verif Require Import Recover RecoverFacts ListenAny.
From Verif Require Import Base JNum BigDec Dates Values Ops Funcs Ast Eval Lexer Grammar Listener Api SpecNum SpecCompare SpecArith SpecDate SpecList SpecGrammar
  JNumFacts DateFacts ParseFacts TreeKinds ListenFacts RecordFacts SpecMeaning MeaningFacts.
Local Open Scope Z_scope.

(** ** Literals *)
Lemma convert_literal s t v : convert_value s t = Ok v -> literal t v.
Proof.
  destruct t; cbn [convert_value]; intros H.
  - destruct (quoted_by _ s); [|destruct (quoted_by _ s)]; unfold strip_ends in H; try destruct (_ <? _)%nat; try discriminate H; injection H as <-; apply literal_text.
  - unfold parse_int in H. destruct (parse_integer s) as [z|]; [|discriminate H]. destruct (in_int z) eqn:I; [|discriminate H]. injection H as <-. apply literal_int, in_int_iff, I.
  - unfold parse_long in H. destruct (parse_integer s) as [z|]; [|discriminate H]. destruct (in_long z) eqn:I; [|discriminate H]. injection H as <-. apply literal_long, in_long_iff, I.
  - destruct (parse_bigdec s); [|discriminate H]. injection H as <-. apply literal_decimal.
  - injection H as <-. apply literal_version.
  - injection H as <-. apply literal_bool.
  - injection H as <-. destruct (parse_date s) as [a|] eqn:D; [|apply literal_no_date]. apply parse_date_spec in D. pose proof (written_calendar _ _ D) as C.
    destruct D as (y & m & d & n & _ & Y & _ & _ & ->). apply literal_date; [exact C|cbn; lia].
  - injection H as <-. destruct (parse_datetime s) as [x|] eqn:D; [|apply literal_no_datetime]. apply parse_datetime_spec in D. apply literal_datetime, (written_datetime_wall _ _ D).
Qed.

(** ** Trees of tokens *)
Fixpoint numbers (t : ptree) : Prop :=
  let all := fix all (l : list ptree) : Prop := match l with [] => True | i :: l' => numbers i /\ all l' end in
  match t with
  | PParen t | PNot _ t | PNeg t => numbers t
  | PFunc _ items | PFuncErr _ items | PIn _ _ _ items | PArray _ _ items => all items
  | PTo _ lo _ hi => number_kind (kind lo) /\ number_kind (kind hi)
  | PToOdd _ _ _ _ => False
  | PCmp l _ r | PArith l _ r | PBin l _ r => numbers l /\ numbers r
  | PTypes _ | PEps _ | PBad _ | PToErr _ _ | PInErr _ _ | PArrayErr _ _ => True
  end.
Lemma all_numbers items : (fix all (l : list ptree) : Prop := match l with [] => True | i :: l' => numbers i /\ all l' end) items <-> Forall numbers items.
Proof. induction items as [|i l IH]; cbn; [split; constructor|]. rewrite IH. split; [intros [A B]; constructor; assumption|intros A; inversion A; auto]. Qed.
Definition fit (b : bool) (t : ptree) : Prop := kinds t /\ (b = true -> numbers t).
Definition fine (b : bool) (n : node) : Prop := sensible n /\ (b = true -> numeric_ranges n).
Lemma fit_items b items : all_kinds items -> (b = true -> Forall numbers items) -> Forall (fit b) items.
Proof. intros K. induction K as [|i l Hi K IH]; intros N; constructor; [split; [exact Hi|intros B; specialize (N B); inversion N; assumption]|apply IH; intros B; specialize (N B); inversion N; assumption]. Qed.
Lemma fine_items b items : Forall (fine b) items -> Forall sensible items /\ (b = true -> Forall numeric_ranges items).
Proof. induction 1 as [|i l [Hi Hj] _ [A B]]; split; try constructor; auto; intros ->; constructor; auto. Qed.
Lemma types_fine b dflt t m : as_types dflt t = Some m -> gives (fine b) m.
Proof.
  intros E. destruct t; try discriminate E; injection E as <-; [|split; intros; exact Logic.I]. unfold map_types_token.
  assert (B : gives (fine b) (if is_blank (text tok) then Ok (NField dflt) else v <- convert_value (text tok) (token_data_type tok);; Ok (NUnary (token_data_type tok) v))).
  { destruct (is_blank (text tok)); [split; intros; exact Logic.I|]. destruct (convert_value _ _) eqn:C; [split; [exact (convert_literal _ _ _ C)|intros; exact Logic.I]|exact Logic.I]. }
  destruct (kind tok) eqn:K; try exact B. split; intros; exact Logic.I.
Qed.
Definition both_fine (b : bool) (x : node * list node) : Prop := fine b (fst x) /\ Forall (fine b) (snd x).
Definition many_fine (b : bool) (x : list node * list node) : Prop := Forall (fine b) (fst x) /\ Forall (fine b) (snd x).
Lemma pop_fine b s : Forall (fine b) s -> gives (both_fine b) (pop s).
Proof. intros H. destruct H; [exact Logic.I|]. split; assumption. Qed.
Lemma elements_fine b dflt items : Forall (fun t => fit b t -> forall s, Forall (fine b) s -> gives (both_fine b) (map_context dflt t s)) items -> Forall (fit b) items ->
  forall s, Forall (fine b) s -> gives (many_fine b) (map_elements dflt items s).
Proof.
  induction 1 as [|i l H0 H IH]; intros Ft s Hs; cbn [map_elements]; [split; [constructor|exact Hs]|]. inversion Ft; subst.
  apply gives_bind with (Q := both_fine b); [apply H0; assumption|]. intros [n s'] [A B]. cbn [fst snd] in *.
  apply gives_bind with (Q := many_fine b); [apply IH; assumption|]. intros [ns s2] [C D]. split; [constructor; assumption|assumption].
Qed.
Lemma number_value b lo v : (b = true -> number_kind (kind lo)) -> convert_value (text lo) (token_data_type lo) = Ok v -> b = true -> number_bound v (token_data_type lo).
Proof.
  intros K H B. specialize (K B). assert (T : In (token_data_type lo) [INTEGER; LONG; DECIMAL]).
  { unfold token_data_type. destruct K as [K|[K|[]]]; rewrite <- K; cbn; auto. unfold numeric_data_type. destruct (parse_int _); cbn; auto. }
  pose proof (convert_literal _ _ _ H) as L. destruct L as [| | | | | | | | |]; cbn in T; try (exfalso; intuition discriminate).
  - exists (inject_Z z). split; [apply number_int; [assumption|reflexivity]|reflexivity].
  - exists (inject_Z z). split; [apply number_long; [assumption|reflexivity]|reflexivity].
  - eexists. split; [apply number_dec; reflexivity|reflexivity].
Qed.
Lemma comparator_accepts k : comparator k -> exists x, accepts (operator_of k) Eq = Some x.
Proof. unfold comparator. cbn [In]. intros H. repeat (destruct H as [<- |H]; [eexists; reflexivity|]). destruct H. Qed.
Lemma arithmetic_operator k : arithmetic_op k -> arithmetic (operator_of k).
Proof. unfold arithmetic_op, arithmetic. cbn [In]. intros H. repeat (destruct H as [<- |H]; [cbn; tauto|]). destruct H. Qed.
Ltac any := apply gives_bind with (Q := fun _ => True); [match goal with |- gives _ ?x => destruct x; exact Logic.I end|intros ? _].
Lemma fine_cmp b l r k dt : comparator k -> fine b l -> fine b r -> fine b (NCmp l r (operator_of k) dt).
Proof. intros K [A B] [C D]. split; [cbn [sensible]; split; [apply comparator_accepts, K|auto]|intros E; cbn [numeric_ranges]; auto]. Qed.
Lemma fine_arith b l r k : arithmetic_op k -> fine b l -> fine b r -> fine b (NArith l (Some r) (operator_of k)).
Proof. intros K [A B] [C D]. split; [cbn [sensible]; split; [auto|split; [apply arithmetic_operator, K|auto]]|intros E; cbn [numeric_ranges]; auto]. Qed.
Lemma fine_neg b l : fine b l -> fine b (NArith l None UNARY).
Proof. intros [A B]. split; [cbn [sensible]; auto|intros E; cbn [numeric_ranges]; auto]. Qed.
Lemma fine_not b l : fine b l -> fine b (NBool l None NOT).
Proof. intros [A B]. split; [cbn [sensible]; auto|intros E; cbn [numeric_ranges]; auto]. Qed.
Lemma fine_bool b l r op : fine b l -> fine b r -> fine b (NBool l (Some r) op).
Proof. intros [A B] [C D]. split; [cbn [sensible]; auto|intros E; cbn [numeric_ranges]; auto]. Qed.
Lemma context_fine b dflt t : fit b t -> forall s, Forall (fine b) s -> gives (both_fine b) (map_context dflt t s).
Proof.
  induction t using ptree_full_ind; intros [Hk Hn] s Hs; try exact Logic.I.
  - rewrite context_func. destruct (function_of (kind fn)); [|exact Logic.I]. cbn [kinds numbers] in Hk, Hn. rewrite all_kinds_eq in Hk. rewrite all_numbers in Hn.
    apply gives_bind with (Q := many_fine b); [apply elements_fine; auto; apply fit_items; tauto|]. intros [ns s2] [C D]. cbn [fst snd] in *. apply fine_items in C. destruct C as [C1 C2].
    split; [split; [cbn [sensible]; apply sensible_all, C1|intros B; cbn [numeric_ranges]; apply numeric_all, C2, B]|exact D].
  - cbn [map_context]. apply gives_bind with (Q := fine b); [exact (types_fine b dflt (PTypes tok) _ eq_refl)|]. intros n A. split; assumption.
  - split; [split; intros; exact Logic.I|exact Hs].
  - cbn [map_context]. cbn [numbers] in Hn. any. destruct (convert_value (text lo) _) as [v|] eqn:C1; [|exact Logic.I]. cbn [bind]. destruct (convert_value (text hi) _) as [w|] eqn:C2; [|exact Logic.I].
    split; [|exact Hs]. split; [exact Logic.I|]. intros B. cbn [numeric_ranges]. split; [apply (number_value b lo v)|apply (number_value b hi w)]; auto; apply Hn.
  - rewrite context_in. cbn [kinds numbers] in Hk, Hn. rewrite all_kinds_eq in Hk. rewrite all_numbers in Hn. any. apply gives_bind with (Q := many_fine b); [apply elements_fine; auto; apply fit_items; tauto|].
    intros [ns s2] [C D]. cbn [fst snd] in *. apply fine_items in C. destruct C as [C1 C2].
    assert (G : forall fld, fine b (NIn fld ns)) by (intros fld; split; [cbn [sensible]; apply sensible_all, C1|intros B; cbn [numeric_ranges]; apply numeric_all, C2, B]).
    destruct neg; (split; [|exact D]); [apply fine_not|]; apply G.
  - cbn [kinds numbers] in Hk, Hn. destruct Hk as (Kl & Ko & Kr). assert (F1 : fit b t1) by (split; tauto). assert (F2 : fit b t2) by (split; tauto). cbn [map_context]. cbv zeta.
    assert (Deep : gives (both_fine b) (bs <- map_context dflt t2 s ;; as_ <- map_context dflt t1 (snd bs) ;;
      Ok (NCmp (fst as_) (fst bs) (operator_of (kind op)) (token_data_type (start t2)), snd as_))).
    { apply gives_bind with (Q := both_fine b); [apply IHt2; assumption|]. intros [x s1] [B1 B3]. cbn [fst snd] in *.
      apply gives_bind with (Q := both_fine b); [apply IHt1; assumption|]. intros [a s2] [A1 A3]. cbn [fst snd] in *. split; [apply fine_cmp; assumption|exact A3]. }
    destruct (steals t1 t2 s); [|destruct (as_types dflt t1), (as_types dflt t2); exact Deep].
    destruct (as_types dflt t1) as [ml|] eqn:E1.
    + apply gives_bind with (1 := types_fine b _ _ _ E1). intros a Ha. apply gives_bind with (1 := pop_fine b s Hs). intros [x s1] [B1 B3]. split; [apply fine_cmp; assumption|exact B3].
    + destruct (as_types dflt t2) as [mr|] eqn:E2; [|exact Deep].
      apply gives_bind with (1 := types_fine b _ _ _ E2). intros x Hx. apply gives_bind with (1 := pop_fine b s Hs). intros [a s1] [A1 A3]. split; [apply fine_cmp; assumption|exact A3].
  - cbn [kinds numbers] in Hk, Hn. destruct Hk as (Kl & Ko & Kr). cbn [map_context]. destruct (as_types dflt t1) as [ml|] eqn:E1, (as_types dflt t2) as [mr|] eqn:E2.
    + apply gives_bind with (1 := types_fine b _ _ _ E1). intros a Ha. apply gives_bind with (1 := types_fine b _ _ _ E2). intros x Hx. split; [apply fine_arith; assumption|exact Hs].
    + apply gives_bind with (1 := types_fine b _ _ _ E1). intros a Ha. apply gives_bind with (1 := pop_fine b s Hs). intros [x s1] [B1 B3]. split; [apply fine_arith; assumption|exact B3].
    + apply gives_bind with (1 := types_fine b _ _ _ E2). intros x Hx. apply gives_bind with (1 := pop_fine b s Hs). intros [a s1] [A1 A3]. split; [apply fine_arith; assumption|exact A3].
    + destruct Hs as [|x s1 Hx [|a s2 Ha H2]]; [exact Logic.I|exact Logic.I|]. split; [apply fine_arith; assumption|exact H2].
  - cbn [map_context]. any. any. exact Logic.I.
  - cbn [map_context]. any. any. any. split; [|exact Hs]. split; [exact Logic.I|]. intros B. destruct (Hn B).
  - cbn [map_context]. any. exact Logic.I.
Qed.
Definition stacked_fine (b : bool) (st : lstate) : Prop := Forall (fine b) (stack st).
Lemma push_fine b dflt t st : fit b t -> stacked_fine b st -> gives (stacked_fine b) (push_context dflt t st).
Proof. intros F H. unfold push_context. apply gives_bind with (1 := context_fine b dflt t F _ H). intros [n s] [A C]. constructor; assumption. Qed.
Lemma walk_list_fine b dflt items : Forall (fun t => fit b t -> forall st, stacked_fine b st -> gives (stacked_fine b) (walk dflt t st)) items -> Forall (fit b) items ->
  forall st, stacked_fine b st -> gives (stacked_fine b) (walk_list dflt items st).
Proof.
  induction 1 as [|i l H0 H IH]; intros F st Hs; [exact Hs|]. inversion F; subst.
  change (walk_list dflt (i :: l) st) with (st' <- walk dflt i st ;; walk_list dflt l st'). apply gives_bind with (1 := H0 ltac:(assumption) st Hs). intros st' H'. apply IH; assumption.
Qed.
Lemma walk_fine b dflt t : fit b t -> forall st, stacked_fine b st -> gives (stacked_fine b) (walk dflt t st).
Proof.
  induction t using ptree_full_ind; intros Hf st Hs.
  - cbn [walk]. apply IHt; assumption.
  - cbn [walk]. apply gives_bind with (1 := IHt Hf st Hs). intros st' A. unfold exit_not, stacked_fine in *.
    destruct A as [|n s Hn A]; [|constructor; [apply fine_not, Hn|exact A]].
    destruct (last_token st') as [x|]; [|exact Logic.I]. destruct (convert_value _ _) eqn:C; [|exact Logic.I]. constructor; [|constructor]. apply fine_not. split; [exact (convert_literal _ _ _ C)|intros; exact Logic.I].
  - cbn [walk]. apply gives_bind with (1 := IHt Hf st Hs). intros st' A. unfold exit_unary, stacked_fine in *.
    assert (G : gives (fun st => Forall (fine b) (stack st)) (match as_types dflt t with Some m => n <- m;; Ok (LState (NArith n None UNARY :: stack st') (last_token st') (token_count st')) | None => Err ClassCast end)).
    { destruct (as_types dflt t) eqn:E; [|exact Logic.I]. apply gives_bind with (1 := types_fine b _ _ _ E). intros n Hn. constructor; [apply fine_neg, Hn|exact A]. }
    destruct (stack st') as [|[] s] eqn:S; try exact G. inversion A as [|? ? B C]; subst. constructor; [apply fine_neg, B|exact C].
  - rewrite walk_func. pose proof Hf as [Hk Hn]. cbn [kinds numbers] in Hk, Hn. rewrite all_kinds_eq in Hk. rewrite all_numbers in Hn.
    apply gives_bind with (1 := walk_list_fine b dflt items H (fit_items b items (proj2 Hk) Hn) st Hs). intros st' H'. apply push_fine; assumption.
  - exact Hs.
  - exact Hs.
  - apply push_fine; assumption.
  - rewrite walk_in. pose proof Hf as [Hk Hn]. cbn [kinds numbers] in Hk, Hn. rewrite all_kinds_eq in Hk. rewrite all_numbers in Hn.
    apply gives_bind with (1 := walk_list_fine b dflt items H (fit_items b items Hk Hn) st Hs). intros st' H'. apply push_fine; assumption.
  - rewrite walk_array. pose proof Hf as [Hk Hn]. cbn [kinds numbers] in Hk, Hn. rewrite all_kinds_eq in Hk. rewrite all_numbers in Hn. destruct Hk as [Ko Hk].
    apply gives_bind with (1 := walk_list_fine b dflt items H (fit_items b items Hk Hn) st Hs). intros st' H'. unfold exit_array. any.
    apply gives_bind with (Q := many_fine b); [apply elements_fine; [apply Forall_forall; intros t _; apply context_fine|apply fit_items; assumption|exact H']|].
    intros [ns s] [C D]. cbn [fst snd] in *. apply fine_items in C. destruct C as [C1 C2]. constructor; [|exact D].
    split; [cbn [sensible]; split; [destruct Ko as [-> | ->]; cbn; auto|apply sensible_all, C1]|intros B; cbn [numeric_ranges]; apply numeric_all, C2, B].
  - pose proof Hf as [Hk Hn]. cbn [kinds numbers] in Hk, Hn. assert (F1 : fit b t1) by (split; tauto). assert (F2 : fit b t2) by (split; tauto).
    cbn [walk]. apply gives_bind with (1 := IHt1 F1 st Hs). intros st1 H1. apply gives_bind with (1 := IHt2 F2 st1 H1). intros st2 H2. apply push_fine; assumption.
  - pose proof Hf as [Hk Hn]. cbn [kinds numbers] in Hk, Hn. assert (F1 : fit b t1) by (split; tauto). assert (F2 : fit b t2) by (split; tauto).
    cbn [walk]. apply gives_bind with (1 := IHt1 F1 st Hs). intros st1 H1. apply gives_bind with (1 := IHt2 F2 st1 H1). intros st2 H2. apply push_fine; assumption.
  - pose proof Hf as [Hk Hn]. cbn [kinds numbers] in Hk, Hn. assert (F1 : fit b t1) by (split; tauto). assert (F2 : fit b t2) by (split; tauto).
    cbn [walk]. apply gives_bind with (1 := IHt1 F1 st Hs). intros st1 H1. apply gives_bind with (1 := IHt2 F2 st1 H1). intros st2 H2. unfold exit_binary, stacked_fine in *.
    destruct H2 as [|x s1 Hx [|a s2 Ha H2]]; [exact Logic.I|exact Logic.I|]. constructor; [apply fine_bool; assumption|exact H2].
  - exact Hs.
  - change (walk dflt (PFuncErr fn items) st) with (st' <- walk_list dflt items st ;; push_context dflt (PFuncErr fn items) st').
    pose proof Hf as [Hk Hn]. cbn [kinds numbers] in Hk, Hn. rewrite all_kinds_eq in Hk. rewrite all_numbers in Hn.
    apply gives_bind with (1 := walk_list_fine b dflt items H (fit_items b items (proj2 Hk) Hn) st Hs). intros st' H'. apply push_fine; assumption.
  - apply push_fine; assumption.
  - apply push_fine; assumption.
  - apply push_fine; assumption.
  - cbn [walk]. any. exact Logic.I.
Qed.
Lemma listen_fine b dflt t n : fit b t -> listen dflt t = Ok n -> fine b n.
Proof.
  intros F. unfold listen. pose proof (walk_fine b dflt t F (LState [] None 0) (Forall_nil _)) as W. destruct (walk dflt t _) as [st|]; [|discriminate]. cbn in W |- *. unfold exit_parse, stacked_fine in *.
  destruct W as [|m l Hm W]; intros E; [|injection E as <-; exact Hm].
  destruct (token_count st) as [|[|k]]; [discriminate| |discriminate]. destruct (last_token st) as [x|]; [|discriminate].
  destruct (kind x); try (injection E as <-; split; intros; exact Logic.I); destruct (convert_value _ _) as [v|]; try discriminate E; cbn [bind] in E; destruct (to_string v); try discriminate E; injection E as <-;
    (split; [apply literal_text|intros; exact Logic.I]).
Qed.
Lemma text_sensible s dflt n : parse_expression s dflt = Ok n -> sensible n.
Proof.
  unfold parse_expression. destruct (lex s) as [ts|]; [|discriminate]. cbn [bind]. destruct (parse_any ts) as [t|] eqn:P; [|discriminate]. cbn [bind]. intros H.
  apply (listen_fine false dflt t n); [split; [exact (parse_any_kinds _ _ P)|discriminate]|exact H].
Qed.
Lemma reads_numbers : (forall m t next, reads m t next -> numbers t) /\ (forall items, reads_items items -> Forall numbers items).
Proof. apply (reads_mut (fun m t next => numbers t) (fun items => Forall numbers items)); intros; cbn [numbers]; rewrite ?all_numbers; auto. Qed.
Lemma sentence_numeric s t dflt n : lex s = Ok (yield t) -> reads 0 t eof -> parse_expression s dflt = Ok n -> numeric_ranges n.
Proof.
  intros L R. unfold parse_expression. rewrite L. cbn [bind]. pose proof (parse_any_complete t R) as P. rewrite P. cbn [bind]. intros H.
  refine (proj2 (listen_fine true dflt t n _ H) eq_refl). split; [exact (parse_any_kinds _ _ P)|]. intros _. exact (proj1 reads_numbers 0%nat t eof R).
Qed.
