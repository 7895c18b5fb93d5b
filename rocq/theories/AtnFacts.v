(** The automaton of the generated lexer splits every text as the lexical rules of the grammar demand. *)
From Verif Require Import Base Lexer SpecLex LexSplit LexerTable LexerAtn AtnRegex AtnTable.

(** ** The rules after some characters *)
Definition derivs (w : jstr) (r : rx) : rx := fold_left (fun r c => deriv c r) w r.
Definition live (w : jstr) : list (tkind * rx) := filter kept (map (fun p => (fst p, derivs w (snd p))) rule_rx).
Lemma derivs_recog w : forall r v, recog (derivs w r) v <-> recog r (w ++ v).
Proof.
  unfold derivs. induction w as [|c w IH]; intros r v; [reflexivity|]. cbn [fold_left app]. rewrite IH. apply deriv_recog.
Qed.
Lemma derivs_snoc w c r : derivs (w ++ [c]) r = deriv c (derivs w r).
Proof. unfold derivs. rewrite fold_left_app. reflexivity. Qed.
Lemma dead_stays c r : alive r = false -> alive (deriv c r) = false.
Proof.
  intros D. destruct (alive (deriv c r)) eqn:A; [|reflexivity]. apply alive_recog in A. destruct A as [w A]. apply deriv_recog in A.
  assert (alive r = true) as E by (apply alive_recog; eexists; exact A). rewrite E in D. discriminate D.
Qed.
Lemma kept_pair k r : kept (k, r) = alive r.
Proof. reflexivity. Qed.
Lemma live_snoc w c : live (w ++ [c]) = step_rx c (live w).
Proof.
  unfold live, step_rx. induction rule_rx as [|[k r] rs IH]; [reflexivity|]. cbn [map filter fst snd]. rewrite derivs_snoc, !kept_pair.
  destruct (alive (derivs w r)) eqn:A.
  - cbn [map filter fst snd]. rewrite kept_pair. destruct (alive (deriv c (derivs w r))); [f_equal|]; exact IH.
  - rewrite (dead_stays c _ A). exact IH.
Qed.
Lemma live_nil : live [] = rule_rx.
Proof. vm_compute. reflexivity. Qed.

(** ** What the derivatives say about the rules *)
Lemma live_viable w : live w <> [] <-> viable w.
Proof.
  unfold live, viable. pose proof rules_same as R. induction R as [|[k r] [k' x] rs xs [E S] R IH].
  - cbn. split; [intros H; contradiction H; reflexivity|intros [k [r [u [[] _]]]]].
  - cbn [fst snd] in E, S. subst k'. cbn [map filter fst snd]. rewrite kept_pair. destruct (alive (derivs w x)) eqn:A.
    + split; [intros _|intros _; discriminate]. apply alive_recog in A. destruct A as [u A]. apply derivs_recog in A.
      exists k, r, u. split; [left; reflexivity|]. apply (same_recog _ _ S), A.
    + rewrite IH. split.
      * intros [k0 [r0 [u [I M]]]]. exists k0, r0, u. split; [right; exact I|exact M].
      * intros [k0 [r0 [u [[I|I] M]]]]; [|exists k0, r0, u; split; assumption]. injection I as <- <-.
        assert (alive (derivs w x) = true) as T; [|rewrite T in A; discriminate A]. apply alive_recog. exists u. apply derivs_recog, (same_recog _ _ S), M.
Qed.
Definition first_rule (w : jstr) (k : tkind) : Prop :=
  exists before r after, lexicon = before ++ (k, r) :: after /\ matches r w /\ forall k' r', In (k', r') before -> ~ matches r' w.
Definition no_rule (w : jstr) : Prop := forall k r, In (k, r) lexicon -> ~ matches r w.
Lemma null_derivs r x w : same r x -> (null (derivs w x) = true <-> matches r w).
Proof. intros S. rewrite null_recog, derivs_recog, app_nil_r, (same_recog _ _ S). reflexivity. Qed.
Lemma live_first w : match first_null (live w) with Some k => first_rule w k | None => no_rule w end.
Proof.
  unfold live, first_rule, no_rule. pose proof rules_same as R. induction R as [|[k r] [k' x] rs xs [E S] R IH].
  - cbn. intros k r [].
  - cbn [fst snd] in E, S. subst k'. cbn [map filter fst snd]. rewrite kept_pair.
    assert (N : null (derivs w x) = false -> ~ matches r w).
    { intros H M. apply (null_derivs r x w S) in M. rewrite M in H. discriminate H. }
    assert (T : ~ matches r w -> match first_null (filter kept (map (fun p => (fst p, derivs w (snd p))) xs)) with
      | Some k0 => exists before r0 after, (k, r) :: rs = before ++ (k0, r0) :: after /\ matches r0 w /\ (forall k' r', In (k', r') before -> ~ matches r' w)
      | None => forall k0 r0, In (k0, r0) ((k, r) :: rs) -> ~ matches r0 w end).
    { intros NM. destruct (first_null _) as [k0|].
      - destruct IH as [b [r0 [a [E [M F]]]]]. exists ((k, r) :: b), r0, a. rewrite E. split; [reflexivity|]. split; [exact M|].
        intros k' r' [I|I]; [injection I as <- <-; exact NM|apply (F k' r' I)].
      - intros k0 r0 [I|I]; [injection I as <- <-; exact NM|apply (IH k0 r0 I)]. }
    destruct (alive (derivs w x)) eqn:A.
    + cbn [first_null]. destruct (null (derivs w x)) eqn:Z; [|apply T, N; reflexivity].
      exists [], r, rs. split; [reflexivity|]. split; [apply (null_derivs r x w S), Z|intros k' r' []].
    + apply T. intros M. apply (null_derivs r x w S) in M. apply null_recog in M.
      assert (alive (derivs w x) = true) as L by (apply alive_recog; eexists; exact M). rewrite L in A. discriminate A.
Qed.
Lemma viable_prefix w v : viable (w ++ v) -> viable w.
Proof. intros [k [r [u [I M]]]]. exists k, r, (v ++ u). split; [exact I|]. rewrite app_assoc. exact M. Qed.
Lemma rule_viable w k r : In (k, r) lexicon -> matches r w -> viable w.
Proof. intros I M. exists k, r, []. rewrite app_nil_r. split; assumption. Qed.

(** ** The table *)
Opaque live table the_net step_rx.
Record fine (e : entry) : Prop := Fine {
  fine_step : forall c, exists q, step the_net (fst e) c = Some q /\ In (q, step_rx c (snd e)) table;
  fine_accept : match accepting the_net (fst e) with
                | Some (k, sk) => first_null (snd e) = Some k /\ (sk = true <-> k = T_WS)
                | None => first_null (snd e) = None end;
  fine_empty : fst e = [] <-> snd e = [];
  fine_top : step_rx top (step_rx top (snd e)) = step_rx top (snd e) /\ first_null (step_rx top (snd e)) = None;
  fine_bounded : forallb (fun p => rx_bounded (snd p)) (snd e) = true }.
Lemma listed_in e : listed e = true -> In e table.
Proof.
  unfold listed. intros H. apply existsb_exists in H. destruct H as [x [I E]]. unfold same_entry in E. destruct (entry_eq_dec e x) as [->|]; [exact I|discriminate].
Qed.
Lemma table_fine e : In e table -> fine e.
Proof.
  intros I. pose proof table_well as W. rewrite forallb_forall in W. specialize (W e I). unfold well in W.
  apply andb_true_iff in W. destruct W as [W B]. apply andb_true_iff in W. destruct W as [W P]. apply andb_true_iff in W. destruct W as [W M].
  apply andb_true_iff in W. destruct W as [W A]. constructor.
  - intros c. rewrite forallb_forall in W. specialize (W (rep c) (rep_in c)). unfold steps_well in W. rewrite (step_rep (fst e) c), (step_rx_rep c _ B).
    destruct (step the_net (fst e) (rep c)) as [q|]; [|discriminate W]. exists q. split; [reflexivity|apply listed_in, W].
  - unfold accepts_well in A. destruct (accepting the_net (fst e)) as [[k sk]|], (first_null (snd e)) as [k'|]; try discriminate A; try reflexivity.
    apply andb_true_iff in A. destruct A as [K S]. destruct (tkind_eq_dec k k') as [<-|]; [|discriminate K]. split; [reflexivity|].
    apply eqb_prop in S. destruct (tkind_eq_dec k T_WS); subst sk; split; intros H; try reflexivity; try assumption; [discriminate H|contradiction].
  - unfold empty_together in M. destruct (fst e), (snd e); try discriminate M; split; intros H; try reflexivity; discriminate H.
  - unfold pairs_well in P. apply andb_true_iff in P. destruct P as [P Q]. unfold same_entry in P.
    destruct (entry_eq_dec _ _) as [E|]; [|discriminate P]. split; [congruence|]. destruct (first_null _); [discriminate Q|reflexivity].
  - exact B.
Qed.

(** ** Characters *)
Definition proper (us : list jstr) : Prop := characters (concat us) = us.
Definition character (u : jstr) : Prop :=
  (exists c, u = [c]) \/ exists c d, u = [c; d] /\ is_high c = true /\ is_low d = true.
Lemma characters_strong s : concat (characters s) = s /\ Forall character (characters s).
Proof.
  assert (G : forall n s, (length s <= n)%nat -> concat (characters s) = s /\ Forall character (characters s)).
  { induction n as [|n IH]; intros t L; [destruct t; [split; [reflexivity|constructor]|cbn in L; lia]|].
    destruct t as [|c [|d t]]; [split; [reflexivity|constructor]|split; [reflexivity|constructor; [left; eexists; reflexivity|constructor]]|].
    cbn [length] in L. cbn [characters]. destruct (is_high c && is_low d) eqn:P.
    - destruct (IH t ltac:(lia)) as [E F]. cbn [concat app]. rewrite E. split; [reflexivity|]. constructor; [|exact F].
      apply andb_true_iff in P. right. exists c, d. split; [reflexivity|exact P].
    - destruct (IH (d :: t) ltac:(cbn; lia)) as [E F]. change (concat ([c] :: characters (d :: t)) = c :: d :: t /\ Forall character ([c] :: characters (d :: t))).
      cbn [concat app]. rewrite E. split; [reflexivity|]. constructor; [left; exists c; reflexivity|exact F]. }
  apply (G (length s)). apply Nat.le_refl.
Qed.
Lemma characters_proper s : proper (characters s).
Proof. unfold proper. rewrite (proj1 (characters_strong s)). reflexivity. Qed.
Lemma low_not_high' d : is_low d = true -> is_high d = false.
Proof.
  unfold is_low, is_high. intros H. apply andb_true_iff in H. destruct H as [A B]. apply N.leb_le in A. apply andb_false_iff. right. apply N.leb_gt. lia.
Qed.
Lemma proper_tail u us : proper (u :: us) -> character u /\ proper us /\ first_character (concat (u :: us)) = u.
Proof.
  unfold proper. intros P. pose proof (characters_strong (concat (u :: us))) as [_ F]. rewrite P in F. inversion F as [|? ? C _]. subst. split; [exact C|].
  destruct C as [[c ->]|[c [d [-> [H L]]]]]; cbn [concat app] in *.
  - destruct (concat us) as [|d t] eqn:E.
    + cbn [characters] in P. injection P as P. subst us. split; reflexivity.
    + cbn [characters] in P. cbn [first_character]. change (high_surrogate c && low_surrogate d) with (is_high c && is_low d).
      destruct (is_high c && is_low d); [discriminate P|]. injection P as P. split; [exact P|reflexivity].
  - cbn [characters first_character] in *. change (high_surrogate c && low_surrogate d) with (is_high c && is_low d). rewrite H, L in P |- *. cbn [andb] in P |- *.
    injection P as P. split; [exact P|reflexivity].
Qed.
Lemma proper_skip n : forall us, proper us -> proper (skipn n us).
Proof. induction n as [|n IH]; intros [|u us] P; try exact P. cbn [skipn]. apply IH, (proper_tail _ _ P). Qed.
Lemma character_some u : character u -> (0 < length u)%nat.
Proof. intros [[c ->]|[c [d [-> _]]]]; cbn; lia. Qed.

(** ** One character *)
Lemma high_top c : is_high c = true -> (top <= c)%N.
Proof. unfold is_high. intros H. apply andb_true_iff in H. destruct H as [H _]. apply N.leb_le in H. unfold top. lia. Qed.
Lemma low_top c : is_low c = true -> (top <= c)%N.
Proof. unfold is_low. intros H. apply andb_true_iff in H. destruct H as [H _]. apply N.leb_le in H. unfold top. lia. Qed.
Lemma step_char cs w u : In (cs, live w) table -> character u ->
  exists q, step the_net cs (code_point u) = Some q /\ In (q, live (w ++ u)) table /\
    (forall v v', u = v ++ v' -> v <> [] -> v' <> [] -> live (w ++ v) = live (w ++ u) /\ first_null (live (w ++ v)) = None).
Proof.
  intros I C. pose proof (table_fine _ I) as F. destruct C as [[c ->]|[c [d [-> [H L]]]]].
  - destruct (fine_step _ F c) as [q [S J]]. exists q. cbn [code_point fst snd] in *. rewrite live_snoc. split; [exact S|]. split; [exact J|].
    intros [|? [|]] v' E N N'; [contradiction| |discriminate E]. cbn in E. injection E as <- E. subst. contradiction.
  - destruct (fine_step _ F (code_point [c; d])) as [q [S J]]. exists q. split; [exact S|]. pose proof (fine_bounded _ F) as B. cbn [fst snd] in *.
    assert (T : (top <= code_point [c; d])%N) by (unfold code_point, top; lia).
    rewrite (step_rx_rep _ _ B), (rep_top _ T) in J.
    assert (E1 : live (w ++ [c]) = step_rx top (live w)) by (rewrite live_snoc, (step_rx_rep c _ B), (rep_top c (high_top c H)); reflexivity).
    pose proof (fine_bounded _ (table_fine _ J)) as B1. cbn [snd] in B1.
    destruct (fine_top _ F) as [T1 T2]. cbn [snd] in T1, T2.
    assert (E2 : live (w ++ [c; d]) = step_rx top (live w)).
    { change [c; d] with ([c] ++ [d]). rewrite app_assoc, live_snoc, E1, (step_rx_rep d _ B1), (rep_top d (low_top d L)). exact T1. }
    rewrite E2. split; [exact J|]. intros [|x [|y [|? ?]]] v' E N N'; try contradiction.
    + cbn in E. injection E as <- <-. rewrite E1. split; [reflexivity|exact T2].
    + cbn in E. injection E as <- <- E. subst. contradiction.
    + discriminate E.
Qed.

(** ** One token *)
Definition best_so_far (pre : list jstr) (best : option (tkind * bool * nat)) : Prop :=
  match best with
  | Some (k, sk, n) =>
      (0 < n <= length pre)%nat /\ first_rule (concat (firstn n pre)) k /\ (sk = true <-> k = T_WS) /\
      forall w' rest, concat pre = w' ++ rest -> (length (concat (firstn n pre)) < length w')%nat -> no_rule w'
  | None => forall w' rest, concat pre = w' ++ rest -> w' <> [] -> no_rule w'
  end.
Lemma concat_snoc (pre : list jstr) u : concat (pre ++ [u]) = concat pre ++ u.
Proof. rewrite concat_app. cbn. rewrite app_nil_r. reflexivity. Qed.
Lemma prefix_cases (a u w rest : jstr) : a ++ u = w ++ rest -> (exists v, a = w ++ v) \/ (exists v, v <> [] /\ w = a ++ v /\ u = v ++ rest).
Proof.
  revert w. induction a as [|c a IH]; intros w E.
  - destruct w as [|x w]; [left; exists []; reflexivity|]. right. exists (x :: w). split; [discriminate|]. split; [reflexivity|exact E].
  - destruct w as [|x w]; [left; exists (c :: a); reflexivity|]. cbn in E. injection E as <- E. destruct (IH w E) as [[v ->]|[v [N [-> U]]]].
    + left. exists v. reflexivity.
    + right. exists v. split; [exact N|]. split; [reflexivity|exact U].
Qed.
Lemma firstn_snoc {A} n (l : list A) x : (n <= length l)%nat -> firstn n (l ++ [x]) = firstn n l.
Proof. intros L. rewrite firstn_app. replace (n - length l)%nat with 0%nat by lia. cbn. apply app_nil_r. Qed.
Lemma best_step pre u best cs q :
  In (q, live (concat pre ++ u)) table -> character u ->
  (forall v v', u = v ++ v' -> v <> [] -> v' <> [] -> live (concat pre ++ v) = live (concat pre ++ u) /\ first_null (live (concat pre ++ v)) = None) ->
  cs = q -> best_so_far pre best ->
  best_so_far (pre ++ [u]) (match accepting the_net cs with Some (k, sk) => Some (k, sk, S (length pre)) | None => best end).
Proof.
  intros I C V -> B. pose proof (fine_accept _ (table_fine _ I)) as A. cbn [fst snd] in A.
  assert (P : forall v v', u = v ++ v' -> v <> [] -> v' <> [] -> no_rule (concat pre ++ v)).
  { intros v v' E N N'. destruct (V v v' E N N') as [_ Z]. pose proof (live_first (concat pre ++ v)) as L. rewrite Z in L. exact L. }
  pose proof (live_first (concat pre ++ u)) as L. destruct (accepting the_net q) as [[k sk]|].
  - destruct A as [A W]. rewrite A in L. cbn [best_so_far]. split; [rewrite app_length; cbn; lia|].
    assert (S (length pre) = length (pre ++ [u])) as -> by (rewrite app_length; cbn; lia). rewrite firstn_all, concat_snoc. split; [exact L|]. split; [exact W|].
    intros w' rest E N. exfalso. apply (f_equal (@length _)) in E. rewrite !app_length in E. rewrite !app_length in N. lia.
  - rewrite A in L. destruct best as [[[k sk] n]|]; cbn [best_so_far] in *.
    + destruct B as [R [F [W M]]]. unfold jstr in *. rewrite (firstn_snoc n pre u) by lia. split; [rewrite app_length; cbn; lia|]. split; [exact F|]. split; [exact W|].
      intros w' rest E N. rewrite concat_snoc in E. destruct (prefix_cases _ _ _ _ E) as [[v E']|[v [NV [-> EU]]]].
      * apply (M w' v E' N).
      * destruct rest as [|x rest]; [rewrite app_nil_r in EU; subst v; exact L|]. apply (P v (x :: rest) EU NV). discriminate.
    + intros w' rest E N. rewrite concat_snoc in E. destruct (prefix_cases _ _ _ _ E) as [[v E']|[v [NV [-> EU]]]].
      * apply (B w' v E' N).
      * destruct rest as [|x rest]; [rewrite app_nil_r in EU; subst v; exact L|]. apply (P v (x :: rest) EU NV). discriminate.
Qed.
(** What the result of the automaton means. *)
Definition right_outcome (all : list jstr) (o : outcome) : Prop :=
  match o with
  | Accept k sk n => (0 < n <= length all)%nat /\ picks (concat all) k (concat (firstn n all)) /\ (sk = true <-> k = T_WS)
  | NoViable n => (forall k w, ~ picks (concat all) k w) /\ drops (concat all) (concat (firstn (S n) all))
  end.
Lemma concat_cut (n : nat) (us : list jstr) : concat us = concat (firstn n us) ++ concat (skipn n us).
Proof. rewrite <- concat_app, firstn_skipn. reflexivity. Qed.
Lemma picks_first s w k : picks s k w -> first_rule w k.
Proof. intros [_ [_ [H _]]]. exact H. Qed.
Lemma first_in w k : first_rule w k -> exists r, In (k, r) lexicon /\ matches r w.
Proof. intros [b [r [a [E [M _]]]]]. exists r. split; [rewrite E; apply in_or_app; right; left; reflexivity|exact M]. Qed.
Lemma finished pre rest best :
  best_so_far pre best -> proper rest -> Forall character pre -> viable (concat pre) ->
  (forall v rest', concat rest = v ++ rest' -> v <> [] -> ~ viable (concat pre ++ v)) ->
  right_outcome (pre ++ rest) (fail_or_accept best (length pre)).
Proof.
  intros B PR C V D. destruct best as [[[k sk] n]|]; cbn [fail_or_accept right_outcome best_so_far] in *.
  - destruct B as [R [F [W M]]]. split; [rewrite app_length; lia|]. split; [|exact W].
    assert (E0 : firstn n (pre ++ rest) = firstn n pre) by (rewrite firstn_app; replace (n - length pre)%nat with 0%nat by lia; cbn; apply app_nil_r).
    rewrite E0. split.
    { intros Z. destruct pre as [|u pre]; [cbn in R; lia|]. destruct n as [|n]; [lia|]. cbn [firstn concat] in Z. apply app_eq_nil in Z. destruct Z as [Z _].
      inversion C as [|? ? CU _]. subst. apply character_some in CU. cbn in CU. lia. }
    split; [exists (concat (skipn n (pre ++ rest))); rewrite (concat_cut n (pre ++ rest)) at 1; rewrite E0; reflexivity|]. split; [exact F|].
    intros k' r' w' rest' I E MM. destruct (Nat.le_gt_cases (length w') (length (concat (firstn n pre)))) as [L|L]; [exact L|]. exfalso.
    rewrite concat_app in E. destruct (prefix_cases _ _ _ _ E) as [[v E']|[v [NV [-> EU]]]].
    + exact (M w' v E' L k' r' I MM).
    + apply (D v rest' EU NV), (rule_viable _ _ _ I MM).
  - split.
    + intros k w Q. destruct (first_in _ _ (picks_first _ _ _ Q)) as [r [I MM]]. destruct Q as [N [[rest' E] _]].
      rewrite concat_app in E. destruct (prefix_cases _ _ _ _ E) as [[v E']|[v [NV [-> EU]]]].
      * exact (B w v E' N k r I MM).
      * apply (D v rest' EU NV), (rule_viable _ _ _ I MM).
    + exists (concat pre), (concat rest). split; [apply concat_app|]. split; [exact V|]. split.
      * intros p' rest' E VP. rewrite concat_app in E. destruct (prefix_cases _ _ _ _ E) as [[v E']|[v [NV [-> EU]]]].
        -- apply (f_equal (@length _)) in E'. rewrite app_length in E'. lia.
        -- exfalso. exact (D v rest' EU NV VP).
      * destruct rest as [|u rest].
        -- rewrite app_nil_r. rewrite firstn_all2 by lia. cbn. rewrite app_nil_r. reflexivity.
        -- destruct (proper_tail _ _ PR) as [_ [_ ->]]. replace (S (length pre)) with (length (pre ++ [u])) by (rewrite app_length; cbn; lia).
           change (u :: rest) with ([u] ++ rest). rewrite app_assoc, firstn_app, Nat.sub_diag, firstn_all. cbn [firstn]. rewrite app_nil_r, concat_snoc. reflexivity.
Qed.
Lemma exec_right : forall rest pre cs best,
  In (cs, live (concat pre)) table -> cs <> [] -> proper rest -> Forall character pre -> best_so_far pre best ->
  exists o, exec the_net cs rest (length pre) best = Some o /\ right_outcome (pre ++ rest) o.
Proof.
  induction rest as [|u rest IH]; intros pre cs best I N P C B.
  - eexists. split; [reflexivity|]. apply finished; try assumption.
    + apply live_viable. intros E. apply N, (fine_empty _ (table_fine _ I)), E.
    + intros v r' E NV. cbn in E. symmetry in E. apply app_eq_nil in E. destruct E; contradiction.
  - destruct (proper_tail _ _ P) as [CU [PR _]]. destruct (step_char cs (concat pre) u I CU) as [q [S [J V]]]. cbn [exec]. rewrite S.
    destruct q as [|q0 q].
    + eexists. split; [reflexivity|]. apply finished; try assumption.
      * apply live_viable. intros E. apply N, (fine_empty _ (table_fine _ I)), E.
      * assert (Z : live (concat pre ++ u) = []) by (apply (fine_empty _ (table_fine _ J)); reflexivity).
        intros v r' E NV VV. cbn [concat] in E. destruct (prefix_cases _ _ _ _ E) as [[x E']|[x [_ [-> _]]]].
        -- apply live_viable in VV. apply VV. destruct x as [|x0 x]; [rewrite app_nil_r in E'; subst v; exact Z|].
           rewrite (proj1 (V v (x0 :: x) E' NV ltac:(discriminate))). exact Z.
        -- rewrite app_assoc in VV. apply viable_prefix in VV. apply live_viable in VV. contradiction.
    + rewrite <- concat_snoc in J, V.
      assert (C' : Forall character (pre ++ [u])) by (apply Forall_app; split; [exact C|constructor; [exact CU|constructor]]).
      assert (B' : best_so_far (pre ++ [u]) (match accepting the_net (q0 :: q) with Some (k, sk) => Some (k, sk, Datatypes.S (length pre)) | None => best end)).
      { rewrite concat_snoc in J, V. apply (best_step pre u best (q0 :: q) (q0 :: q)); auto. }
      destruct (IH (pre ++ [u]) (q0 :: q) _ J ltac:(discriminate) PR C' B') as [o [E R]]. exists o.
      rewrite <- app_assoc in R. split; [|exact R]. rewrite app_length in E. cbn [length] in E. rewrite Nat.add_1_r in E. exact E.
Qed.

(** ** All tokens *)
Lemma tokens_split : forall fuel us, (length us <= fuel)%nat -> proper us ->
  exists ps, splits (concat us) ps /\ tokens_from the_net fuel the_start us = Some (tokens_of ps).
Proof.
  induction fuel as [|fuel IH]; intros us L P.
  - destruct us; [|cbn in L; lia]. exists []. split; [constructor|reflexivity].
  - destruct us as [|u us]; [exists []; split; [constructor|reflexivity]|].
    assert (I0 : In (the_start, live (concat [])) table) by (cbn [concat]; rewrite live_nil; exact first_listed).
    destruct (exec_right (u :: us) [] the_start None I0 ltac:(discriminate) P ltac:(constructor)) as [o [E R]].
    { cbn. intros w' rest W N. symmetry in W. apply app_eq_nil in W. destruct W. contradiction. }
    cbn [length app] in E, R. cbn [tokens_from]. rewrite E. destruct o as [k sk n|n]; cbn [right_outcome] in R.
    + destruct R as [LN [Q W]]. destruct (IH (skipn n (u :: us))) as [ps [S T]].
      { rewrite skipn_length. cbn [length] in *. lia. } { apply proper_skip, P. }
      rewrite T, (concat_cut n (u :: us)). rewrite (concat_cut n (u :: us)) in Q. destruct sk.
      * exists (Blank (concat (firstn n (u :: us))) :: ps). rewrite (proj1 W eq_refl) in Q. split; [|reflexivity]. constructor; assumption.
      * exists (Token (Tok k (concat (firstn n (u :: us)))) :: ps). split; [|reflexivity]. constructor; try assumption.
        intros K. apply (proj2 W) in K. discriminate K.
    + destruct R as [NP D]. destruct (IH (skipn (S n) (u :: us))) as [ps [S' T]].
      { rewrite skipn_length. cbn [length] in *. lia. } { apply proper_skip, P. }
      rewrite T. exists (Dropped (concat (firstn (S n) (u :: us))) :: ps). split; [|reflexivity].
      rewrite (concat_cut (S n) (u :: us)) in NP, D |- *. constructor; try assumption.
      destruct (proper_tail _ _ P) as [CU _]. apply character_some in CU. intros Z. cbn [firstn concat] in Z. apply app_eq_nil in Z. destruct Z as [Z _]. apply app_eq_nil in Z.
      destruct Z as [Z _]. subst u. cbn in CU. lia.
Qed.
Lemma characters_length s : (length (characters s) <= length s)%nat.
Proof.
  destruct (characters_strong s) as [E F]. rewrite <- E at 2. clear E. induction F as [|u us C F IH]; [apply Nat.le_refl|]. cbn [length concat]. rewrite app_length.
  apply character_some in C. lia.
Qed.
Theorem generated_split s : exists ps, splits s ps /\ generated_lex s = Some (tokens_of ps).
Proof.
  destruct (tokens_split (length s) (characters s) (characters_length s) (characters_proper s)) as [ps [S T]].
  rewrite (proj1 (characters_strong s)) in S. exists ps. split; [exact S|]. unfold generated_lex. rewrite lexer_net_is, start_is. exact T.
Qed.
Theorem generated_same s : exists ts, generated_lex s = Some ts /\ lex s = Ok ts.
Proof. destruct (generated_split s) as [ps [S T]]. exists (tokens_of ps). split; [exact T|]. apply lex_splits, S. Qed.
