(** Proofs about threads sharing a caching parser. *)
From Verif Require Import Base Ast Api Cache SpecCache CacheFacts CacheThreads SpecThreads.

Lemma nth_set_same : forall ws t w w', nth_error ws t = Some w -> nth_error (set_worker t w' ws) t = Some w'.
Proof. induction ws as [|x ws IH]; intros [|t] w w' H; cbn in *; try discriminate; eauto. Qed.
Lemma nth_set_other : forall ws t u w', t <> u -> nth_error (set_worker t w' ws) u = nth_error ws u.
Proof. induction ws as [|x ws IH]; intros [|t] [|u] w' H; cbn; auto; try congruence. Qed.
Lemma nth_set : forall ws t u w w' x, nth_error ws t = Some w -> nth_error (set_worker t w' ws) u = Some x ->
  (u = t /\ x = w') \/ (u <> t /\ nth_error ws u = Some x).
Proof.
  intros ws t u w w' x H H'. destruct (Nat.eq_dec u t) as [-> | N].
  - rewrite (nth_set_same _ _ _ _ H) in H'. left. split; congruence.
  - rewrite nth_set_other in H' by congruence. right; auto.
Qed.
Lemma length_set : forall ws t w, length (set_worker t w ws) = length ws.
Proof. induction ws as [|x ws IH]; intros [|t] w; cbn; auto. Qed.

Lemma forall2_set : forall (P : list request -> cthread -> Prop) scripts ws t w w',
  Forall2 P scripts ws -> nth_error ws t = Some w -> (forall l, P l w -> P l w') -> Forall2 P scripts (set_worker t w' ws).
Proof.
  intros P scripts ws t w w' F. revert t. induction F; intros [|t] E I; cbn in *; try discriminate; constructor; eauto.
  injection E as ->. auto.
Qed.
Lemma forall2_nth : forall (P : list request -> cthread -> Prop) scripts ws t w,
  Forall2 P scripts ws -> nth_error ws t = Some w -> exists l, In l scripts /\ P l w.
Proof.
  intros P scripts ws t w F. revert t. induction F; intros [|t] E; cbn in *; try discriminate.
  - injection E as ->. eauto.
  - destruct (IHF _ E) as (l0 & I & Q). eauto.
Qed.

Definition current (w : cthread) : list request := match parsing w with Some r => [r] | None => [] end.
Definition in_order (l : list request) (w : cthread) : Prop := map fst (answers w) ++ current w ++ waiting w = l.
Definition like_plain (w : cthread) : Prop := forall r o, In (r, o) (answers w) -> result o = parse_expression (fst r) (snd r).

Record good (bin : jstr -> nat) (scripts : list (list request)) (s : cshared) : Prop := Good {
  g_order : Forall2 in_order scripts (workers s);
  g_held : sound (map ask (concat scripts)) (held s);
  g_plain : forall t w, nth_error (workers s) t = Some w -> like_plain w;
  g_alone : forall i j wi wj ri rj, nth_error (workers s) i = Some wi -> nth_error (workers s) j = Some wj ->
    parsing wi = Some ri -> parsing wj = Some rj -> bin (request_key ri) = bin (request_key rj) -> i = j }.

Lemma good_start : forall bin scripts, good bin scripts (start scripts).
Proof.
  intros bin scripts.
  assert (A : forall t w, nth_error (workers (start scripts)) t = Some w -> parsing w = None /\ answers w = []).
  { intros t w H. apply nth_error_In in H. apply in_map_iff in H as (l & <- & _). auto. }
  split.
  - cbn. induction scripts; cbn; constructor; auto. reflexivity. apply IHscripts. intros t w H. apply (A (S t)); auto.
  - intros k n H. discriminate H.
  - intros t w H r o I. rewrite (proj2 (A _ _ H)) in I. destruct I.
  - intros i j wi wj ri rj Hi Hj Pi Pj. rewrite (proj1 (A _ _ Hi)) in Pi. discriminate Pi.
Qed.

Lemma busy_false : forall bin k ws t w r, busy bin k ws = false -> nth_error ws t = Some w -> parsing w = Some r ->
  bin (request_key r) <> bin k.
Proof.
  intros bin k ws t w r B H P E. unfold busy in B. apply nth_error_In in H.
  assert (existsb (fun w => match parsing w with Some r => Nat.eqb (bin (request_key r)) (bin k) | None => false end) ws = true); [|congruence].
  apply existsb_exists. exists w. split; auto. rewrite P. apply Nat.eqb_eq; auto.
Qed.

Lemma in_script : forall scripts ws t w r, Forall2 in_order scripts ws -> nth_error ws t = Some w -> In r (current w ++ waiting w) ->
  In (ask r) (map ask (concat scripts)).
Proof.
  intros scripts ws t w r F H I. destruct (forall2_nth _ _ _ _ _ F H) as (l & Il & O). apply in_map, in_concat.
  exists l. split; auto. rewrite <- O. apply in_or_app; auto.
Qed.

Lemma good_step : forall bin scripts s e, scripts_collision_free scripts -> good bin scripts s -> good bin scripts (tstep bin s e).
Proof.
  intros bin scripts s [t|k] CF [O Hs P A]; cbn [tstep].
  2:{ split; auto. cbn. intros k' n H. apply find_filter in H. auto. }
  unfold tick. destruct (nth_error (workers s) t) as [w|] eqn:W; [|split; auto].
  destruct (parsing w) as [r|] eqn:Pr.
  - assert (Ir : In (ask r) (map ask (concat scripts))).
    { eapply in_script; eauto. unfold current. rewrite Pr. left; auto. }
    split; cbn.
    + eapply forall2_set; eauto. intros l. unfold in_order, current. rewrite Pr. cbn. rewrite map_app, <- app_assoc. auto.
    + destruct (parse_expression (fst r) (snd r)) as [n|] eqn:E; auto.
      intros k' n'. cbn. destruct (jstr_eqb (request_key r) k') eqn:Ek; [|auto]. intros [= <-].
      apply jstr_eqb_eq in Ek. exists (fst r), (snd r). repeat split; auto.
    + intros u x H. destruct (nth_set _ _ _ _ _ _ W H) as [[-> ->] | [N H']]; [|eauto].
      intros r' o I. cbn in I. apply in_app_or in I as [I|[I|[]]]; [exact (P _ _ W _ _ I)|]. injection I as <- <-. auto.
    + intros i j wi wj ri rj Hi Hj Pi Pj E.
      destruct (nth_set _ _ _ _ _ _ W Hi) as [[-> ->] | [Ni Hi']]; [discriminate|].
      destruct (nth_set _ _ _ _ _ _ W Hj) as [[-> ->] | [Nj Hj']]; [discriminate|]. eauto.
  - destruct (waiting w) as [|r rest] eqn:Wt; [split; auto|].
    assert (Ir : In (ask r) (map ask (concat scripts))).
    { eapply in_script; eauto. unfold current. rewrite Pr, Wt. left; auto. }
    destruct (cache_find (request_key r) (held s)) as [n|] eqn:Fd.
    + split; cbn; auto.
      * eapply forall2_set; eauto. intros l. unfold in_order, current. rewrite Pr, Wt. cbn. rewrite map_app, <- app_assoc. auto.
      * intros u x H. destruct (nth_set _ _ _ _ _ _ W H) as [[-> ->] | [N H']]; [|eauto].
        intros r' o I. cbn in I. apply in_app_or in I as [I|[I|[]]]; [exact (P _ _ W _ _ I)|]. injection I as <- <-. cbn.
        destruct (Hs _ _ Fd) as (x' & d' & Hi & Hk & Hp). unfold request_key in Hk. rewrite !cache_key_text in Hk.
        destruct (CF x' d' (fst r) (snd r) Hi Ir Hk) as [-> ->]. congruence.
      * intros i j wi wj ri rj Hi Hj Pi Pj E.
        destruct (nth_set _ _ _ _ _ _ W Hi) as [[-> ->] | [Ni Hi']]; [discriminate|].
        destruct (nth_set _ _ _ _ _ _ W Hj) as [[-> ->] | [Nj Hj']]; [discriminate|]. eauto.
    + destruct (busy bin (request_key r) (workers s)) eqn:B; [split; auto|]. split; cbn; auto.
      * eapply forall2_set; eauto. intros l. unfold in_order, current. rewrite Pr, Wt. cbn. auto.
      * intros u x H. destruct (nth_set _ _ _ _ _ _ W H) as [[-> ->] | [N H']]; [|eauto]. exact (P _ _ W).
      * intros i j wi wj ri rj Hi Hj Pi Pj E.
        destruct (nth_set _ _ _ _ _ _ W Hi) as [[-> ->] | [Ni Hi']]; destruct (nth_set _ _ _ _ _ _ W Hj) as [[-> ->] | [Nj Hj']]; auto.
        -- cbn in Pi. injection Pi as <-. destruct (busy_false _ _ _ _ _ _ B Hj' Pj). auto.
        -- cbn in Pj. injection Pj as <-. destruct (busy_false _ _ _ _ _ _ B Hi' Pi). auto.
        -- eauto.
Qed.

Lemma good_run : forall bin scripts es s, scripts_collision_free scripts -> good bin scripts s -> good bin scripts (trun bin s es).
Proof. induction es as [|e es IH]; intros s CF G; auto. cbn. apply IH; auto. apply good_step; auto. Qed.

Lemma forall2_both : forall (P Q : list request -> cthread -> Prop) scripts ws, Forall2 P scripts ws ->
  (forall t w l, nth_error ws t = Some w -> P l w -> Q l w) -> Forall2 Q scripts ws.
Proof.
  intros P Q scripts ws F. induction F; intros H'; constructor.
  - apply (H' 0); auto.
  - apply IHF. intros t. apply (H' (S t)).
Qed.

Lemma threads_answers : forall bin scripts es, scripts_collision_free scripts ->
  Forall2 answered_like_plain scripts (workers (trun bin (start scripts) es)).
Proof.
  intros bin scripts es CF. destruct (good_run bin scripts es _ CF (good_start bin scripts)) as [O _ P _].
  eapply forall2_both; eauto. intros t w l H I. exists (length (answers w)). split; [|eapply P; eauto].
  unfold in_order in I. rewrite <- I, <- (map_length fst (answers w)), firstn_app, Nat.sub_diag, firstn_O, app_nil_r, firstn_all. auto.
Qed.

(** Exclusion does not depend on the keys of the scripts. *)
Definition alone (bin : jstr -> nat) (s : cshared) : Prop :=
  forall i j wi wj ri rj, nth_error (workers s) i = Some wi -> nth_error (workers s) j = Some wj ->
    parsing wi = Some ri -> parsing wj = Some rj -> bin (request_key ri) = bin (request_key rj) -> i = j.
Lemma alone_step : forall bin s e, alone bin s -> alone bin (tstep bin s e).
Proof.
  intros bin s [t|k] A; cbn [tstep]; [|exact A].
  unfold tick. destruct (nth_error (workers s) t) as [w|] eqn:W; auto.
  destruct (parsing w) as [r|] eqn:Pr.
  - intros i j wi wj ri rj Hi Hj Pi Pj E. cbn in Hi, Hj.
    destruct (nth_set _ _ _ _ _ _ W Hi) as [[-> ->] | [Ni Hi']]; [discriminate|].
    destruct (nth_set _ _ _ _ _ _ W Hj) as [[-> ->] | [Nj Hj']]; [discriminate|]. eauto.
  - destruct (waiting w) as [|r rest] eqn:Wt; auto.
    destruct (cache_find (request_key r) (held s)) as [n|] eqn:Fd.
    + intros i j wi wj ri rj Hi Hj Pi Pj E. cbn in Hi, Hj.
      destruct (nth_set _ _ _ _ _ _ W Hi) as [[-> ->] | [Ni Hi']]; [discriminate|].
      destruct (nth_set _ _ _ _ _ _ W Hj) as [[-> ->] | [Nj Hj']]; [discriminate|]. eauto.
    + destruct (busy bin (request_key r) (workers s)) eqn:B; auto.
      intros i j wi wj ri rj Hi Hj Pi Pj E. cbn in Hi, Hj.
      destruct (nth_set _ _ _ _ _ _ W Hi) as [[-> ->] | [Ni Hi']]; destruct (nth_set _ _ _ _ _ _ W Hj) as [[-> ->] | [Nj Hj']]; auto.
      * cbn in Pi. injection Pi as <-. destruct (busy_false _ _ _ _ _ _ B Hj' Pj). auto.
      * cbn in Pj. injection Pj as <-. destruct (busy_false _ _ _ _ _ _ B Hi' Pi). auto.
      * eauto.
Qed.
Lemma alone_start : forall bin scripts, alone bin (start scripts).
Proof. intros. exact (g_alone _ _ _ (good_start bin scripts)). Qed.
Lemma alone_run : forall bin es s, alone bin s -> alone bin (trun bin s es).
Proof. induction es as [|e es IH]; intros s G; auto. cbn. apply IH. apply alone_step; auto. Qed.

Lemma threads_exclusive : forall bin scripts es i j wi wj ri rj,
  nth_error (workers (trun bin (start scripts) es)) i = Some wi -> nth_error (workers (trun bin (start scripts) es)) j = Some wj ->
  parsing wi = Some ri -> parsing wj = Some rj -> request_key ri = request_key rj -> i = j.
Proof.
  intros. eapply (alone_run bin es _ (alone_start bin scripts)); eauto. congruence.
Qed.

(** A key that is never dropped is parsed at most once. *)
Lemma runs_set : forall k ws t w w', nth_error ws t = Some w ->
  length (filter (ran_for k) (concat (map answers (set_worker t w' ws)))) + length (filter (ran_for k) (answers w)) =
  length (filter (ran_for k) (concat (map answers ws))) + length (filter (ran_for k) (answers w')).
Proof.
  induction ws as [|x ws IH]; intros [|t] w w' H; cbn in *; try discriminate.
  - injection H as ->. rewrite !filter_app, !app_length. lia.
  - rewrite !filter_app, !app_length. specialize (IH _ _ w' H). lia.
Qed.
Definition once (k : jstr) (s : cshared) : Prop :=
  (cache_find k (held s) = None /\ runs_for k s = 0) \/
  (cache_find k (held s) <> None /\ runs_for k s = 1 /\ forall t w r, nth_error (workers s) t = Some w -> parsing w = Some r -> request_key r <> k).

Lemma ran_key : forall k r o p, ran_for k (r, Outcome o p) = jstr_eqb (request_key r) k && p && match o with Ok _ => true | Err _ => false end.
Proof. intros. reflexivity. Qed.

Lemma once_step : forall bin k s e, e <> Drop k -> alone bin s -> once k s -> once k (tstep bin s e).
Proof.
  intros bin k s [t|k'] N A On; cbn [tstep].
  2:{ unfold once in *. cbn [held workers]. rewrite find_filter_other by congruence. exact On. }
  unfold tick. destruct (nth_error (workers s) t) as [w|] eqn:W; auto.
  destruct (parsing w) as [r|] eqn:Pr.
  - set (w' := CThread _ _ _). assert (R := runs_set k _ _ _ w' W). unfold w' in R at 2. cbn [answers] in R.
    rewrite filter_app, app_length in R. cbn [filter] in R. rewrite ran_key in R. unfold once, runs_for in *. cbn [held workers].
    assert (P' : forall u w0 r0, nth_error (set_worker t w' (workers s)) u = Some w0 -> parsing w0 = Some r0 ->
      u <> t /\ nth_error (workers s) u = Some w0).
    { intros u w0 r0 H0 H1. destruct (nth_set _ _ _ _ _ _ W H0) as [[-> ->] | Q]; [discriminate | auto]. }
    destruct (jstr_eqb (request_key r) k) eqn:K.
    + apply jstr_eqb_eq in K. destruct On as [[F Z] | (F & Z & Q)].
      2:{ destruct (Q _ _ _ W Pr K). }
      destruct (parse_expression (fst r) (snd r)) as [n|]; cbn in R |- *.
      * rewrite K, jstr_eqb_refl. right. split; [discriminate|]. split; [lia|].
        intros u w0 r0 H0 H1 E. destruct (P' _ _ _ H0 H1) as [Nu Hu]. apply Nu.
        apply (A u t w0 w r0 r Hu W H1 Pr). congruence.
      * left. split; auto. lia.
    + cbn in R. assert (F' : cache_find k (match parse_expression (fst r) (snd r) with Ok n => (request_key r, n) :: held s | Err _ => held s end)
        = cache_find k (held s)).
      { destruct (parse_expression (fst r) (snd r)); auto. cbn. rewrite K. auto. }
      rewrite F'. destruct On as [[F Z] | (F & Z & Q)]; [left; split; auto; lia | right; split; auto; split; [lia|]].
      intros u w0 r0 H0 H1. destruct (P' _ _ _ H0 H1) as [Nu Hu]. eauto.
  - destruct (waiting w) as [|r rest] eqn:Wt; auto.
    destruct (cache_find (request_key r) (held s)) as [n|] eqn:Fd.
    + set (w' := CThread _ _ _). assert (R := runs_set k _ _ _ w' W). unfold w' in R at 2. cbn [answers] in R.
      rewrite filter_app, app_length in R. cbn [filter] in R. rewrite ran_key in R. rewrite andb_false_r in R. cbn in R.
      unfold once, runs_for in *. cbn [held workers].
      destruct On as [[F Z] | (F & Z & Q)]; [left; split; auto; lia | right; split; auto; split; [lia|]].
      intros u w0 r0 H0 H1. destruct (nth_set _ _ _ _ _ _ W H0) as [[-> ->] | [Nu Hu]]; [discriminate | eauto].
    + destruct (busy bin (request_key r) (workers s)) eqn:B; auto.
      set (w' := CThread _ _ _). assert (R := runs_set k _ _ _ w' W). unfold w' in R at 2. cbn [answers] in R.
      unfold once, runs_for in *. cbn [held workers].
      destruct On as [[F Z] | (F & Z & Q)]; [left; split; auto; lia | right; split; auto; split; [lia|]].
      intros u w0 r0 H0 H1. destruct (nth_set _ _ _ _ _ _ W H0) as [[-> ->] | [Nu Hu]]; [|eauto].
      cbn in H1. injection H1 as <-. congruence.
Qed.

Lemma once_run : forall bin k es s, ~ In (Drop k) es -> alone bin s -> once k s -> once k (trun bin s es).
Proof.
  induction es as [|e es IH]; intros s N A On; auto. cbn. apply IH.
  - intros I. apply N. right; auto.
  - apply alone_step; auto.
  - apply (once_step bin); auto. intros ->. apply N. left; auto.
Qed.
Lemma once_start : forall k scripts, once k (start scripts).
Proof.
  intros. left. split; auto. unfold runs_for. cbn. induction scripts; cbn; auto.
Qed.
Lemma threads_parse_once : forall bin scripts es k, ~ In (Drop k) es -> runs_for k (trun bin (start scripts) es) <= 1.
Proof.
  intros bin scripts es k N. destruct (once_run bin k es _ N (alone_start bin scripts) (once_start k scripts)) as [[_ E] | (_ & E & _)]; lia.
Qed.

(** Progress. *)
Definition work (w : cthread) : nat := 2 * length (waiting w) + length (current w).
Definition total (ws : list cthread) : nat := list_sum (map work ws).
Lemma total_cons : forall w ws, total (w :: ws) = work w + total ws.
Proof. reflexivity. Qed.
Lemma total_set : forall ws t w w', nth_error ws t = Some w -> total (set_worker t w' ws) + work w = total ws + work w'.
Proof.
  induction ws as [|x ws IH]; intros [|t] w w' H; cbn [nth_error set_worker] in *; try discriminate; rewrite !total_cons.
  - injection H as ->. lia.
  - specialize (IH _ _ w' H). lia.
Qed.
Lemma step_work : forall bin s e, total (workers (tstep bin s e)) < total (workers s) \/ workers (tstep bin s e) = workers s.
Proof.
  intros bin s [t|k]; cbn [tstep]; auto. unfold tick.
  destruct (nth_error (workers s) t) as [w|] eqn:W; auto.
  destruct (parsing w) as [r|] eqn:Pr.
  - left. cbn [workers]. set (w' := CThread _ _ _). assert (T := total_set _ _ _ w' W).
    assert (work w' < work w) by (unfold work, current, w'; cbn; rewrite Pr; cbn; lia). lia.
  - destruct (waiting w) as [|r rest] eqn:Wt; auto.
    destruct (cache_find (request_key r) (held s)) as [n|] eqn:Fd; [|destruct (busy bin (request_key r) (workers s)) eqn:B; auto];
      left; cbn [workers]; set (w' := CThread _ _ _); assert (T := total_set _ _ _ w' W);
      assert (work w' < work w) by (unfold work, current, w'; cbn; rewrite Pr, Wt; cbn; lia); lia.
Qed.
(** Some thread can move, whatever the cache holds. *)
Lemma someone_moves : forall ws, total ws > 0 -> exists t, t < length ws /\
  forall bin h, total (workers (tick bin t (CShared h ws))) < total ws.
Proof.
  intros ws T.
  destruct (existsb (fun w => match parsing w with Some _ => true | None => false end) ws) eqn:E.
  - apply existsb_exists in E as (w & I & P). destruct (parsing w) as [r|] eqn:Pr; [|discriminate].
    apply In_nth_error in I as (t & W). exists t. split; [apply nth_error_Some; congruence|]. intros bin h.
    unfold tick. cbn [workers]. rewrite W, Pr. cbn [workers]. set (w' := CThread _ _ _). assert (T' := total_set _ _ _ w' W).
    assert (work w' < work w) by (unfold work, current, w'; cbn; rewrite Pr; cbn; lia). lia.
  - assert (NP : forall t w, nth_error ws t = Some w -> parsing w = None).
    { intros t w H. destruct (parsing w) eqn:Pr; auto. exfalso. apply not_true_iff_false in E. apply E. apply existsb_exists. exists w. rewrite Pr.
      split; eauto using nth_error_In. }
    assert (X : exists t w, nth_error ws t = Some w /\ waiting w <> []).
    { clear E. revert T NP. induction ws as [|w ws IH]; [cbn; lia|]. rewrite total_cons. intros T NP.
      destruct (waiting w) eqn:Wt.
      - destruct IH as (t & w' & H & N).
        + unfold work, current in T. rewrite Wt, (NP 0 w eq_refl) in T. cbn in T. lia.
        + intros t. apply (NP (S t)).
        + exists (S t), w'. auto.
      - exists 0, w. split; auto. rewrite Wt. discriminate. }
    destruct X as (t & w & W & N). exists t. split; [apply nth_error_Some; congruence|]. intros bin h.
    unfold tick. cbn [workers]. rewrite W, (NP _ _ W). destruct (waiting w) as [|r rest] eqn:Wt; [congruence|].
    assert (B : busy bin (request_key r) ws = false).
    { unfold busy. clear -NP. induction ws as [|x ws IH]; auto. cbn. rewrite (NP 0 x eq_refl). cbn. apply IH. intros t. apply (NP (S t)). }
    cbn [held]. rewrite B. assert (Pr := NP _ _ W).
    destruct (cache_find (request_key r) h); cbn [workers]; set (w' := CThread _ _ _); assert (T' := total_set _ _ _ w' W);
      assert (work w' < work w) by (unfold work, current, w'; cbn; rewrite Pr, Wt; cbn; lia); lia.
Qed.
Lemma run_work : forall bin es s, total (workers (trun bin s es)) <= total (workers s).
Proof.
  induction es as [|e es IH]; intros s; auto. cbn. specialize (IH (tstep bin s e)).
  unfold trun in *. destruct (step_work bin s e) as [L | E]; [lia|]. rewrite E in IH. auto.
Qed.
Lemma block_work : forall bin block s, (forall t, t < length (workers s) -> In (Tick t) block) -> total (workers s) > 0 ->
  total (workers (trun bin s block)) < total (workers s).
Proof.
  intros bin block s B T. destruct (someone_moves _ T) as (t & L & M). specialize (B t L). clear L.
  remember (workers s) as ws eqn:E. revert s E. induction block as [|e block IH]; [destruct B|].
  intros s ->. change (trun bin s (e :: block)) with (trun bin (tstep bin s e) block). destruct B as [-> | B].
  - assert (W := run_work bin block (tick bin t s)). destruct s as [h ws]. specialize (M bin h). cbn [tstep workers] in *. lia.
  - assert (W := run_work bin block (tstep bin s e)). destruct (step_work bin s e) as [Lt | Eq]; [lia|].
    apply (IH B (tstep bin s e)). auto.
Qed.
Lemma step_length : forall bin s e, length (workers (tstep bin s e)) = length (workers s).
Proof.
  intros bin s [t|k]; auto. cbn [tstep]. unfold tick. destruct (nth_error (workers s) t) as [w|]; auto.
  destruct (parsing w); cbn [workers]; [apply length_set|]. destruct (waiting w); auto.
  destruct (cache_find (request_key r) (held s)); cbn [workers]; [apply length_set|].
  destruct (busy bin (request_key r) (workers s)); auto. cbn [workers]. apply length_set.
Qed.
Lemma run_length : forall bin es s, length (workers (trun bin s es)) = length (workers s).
Proof. induction es as [|e es IH]; intros s; auto. cbn. change (fold_left (tstep bin) es (tstep bin s e)) with (trun bin (tstep bin s e) es). rewrite IH. apply step_length. Qed.
Lemma rounds_work : forall bin k n es, rounds k n es -> forall s, length (workers s) = k ->
  total (workers s) <= n -> total (workers (trun bin s es)) = 0.
Proof.
  intros bin k n es R. induction R as [|n block es B R IH]; intros s L T.
  - cbn. lia.
  - unfold trun. rewrite fold_left_app. apply IH.
    + assert (Q := run_length bin block s). unfold trun in Q. congruence.
    + destruct (total (workers s)) eqn:Z.
      * assert (Q := run_work bin block s). unfold trun in Q. lia.
      * assert (Q := block_work bin block s). rewrite L in Q. specialize (Q B). unfold trun in Q. lia.
Qed.
Lemma total_finished : forall ws, total ws = 0 -> Forall finished ws.
Proof.
  induction ws as [|w ws IH]; intros T; constructor; rewrite total_cons in T.
  - unfold work, current in T. split; [destruct (waiting w); auto; cbn in T; lia | destruct (parsing w); auto; cbn in T; lia].
  - apply IH. lia.
Qed.
Lemma total_start : forall scripts, total (workers (start scripts)) = 2 * length (concat scripts).
Proof.
  induction scripts as [|l scripts IH]; auto. cbn [start workers map concat] in *. rewrite total_cons, app_length, IH.
  unfold work, current. cbn [waiting parsing length]. lia.
Qed.
Lemma threads_finish : forall bin scripts es, rounds (length scripts) (2 * length (concat scripts)) es ->
  Forall finished (workers (trun bin (start scripts) es)).
Proof.
  intros bin scripts es R. apply total_finished. eapply rounds_work; eauto.
  - cbn. apply map_length.
  - rewrite total_start. auto.
Qed.
