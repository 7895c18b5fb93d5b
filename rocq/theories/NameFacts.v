(** C12: field names of any form. *)
From Verif Require Import Base Values Ops Funcs Ast Eval SpecBool SpecPath SpecName CompareFacts ValuesFacts BoolFacts FieldFacts.

Lemma word_dots : forall n k, k ++ dots n = path_text (k :: repeat [] n).
Proof.
  induction n as [|n IH]; intros k; [apply app_nil_r|].
  change (path_text (k :: repeat [] (S n))) with (k ++ ch "." :: path_text ([] :: repeat [] n)). rewrite <- IH. reflexivity.
Qed.
Lemma path_text_dots : forall ks n, ks <> [] -> path_text ks ++ dots n = path_text (ks ++ repeat [] n).
Proof.
  induction ks as [|k [|k' ks] IH]; intros n H; [congruence| |].
  - exact (word_dots n k).
  - change (path_text ((k :: k' :: ks) ++ repeat [] n)) with (k ++ ch "." :: path_text ((k' :: ks) ++ repeat [] n)).
    rewrite <- IH by discriminate. change (path_text (k :: k' :: ks)) with (k ++ ch "." :: path_text (k' :: ks)).
    rewrite <- app_assoc. reflexivity.
Qed.
Lemma drop_empty : forall n, drop_trailing_empty (repeat [] n) = [].
Proof. induction n as [|n IH]; auto. cbn. rewrite IH. reflexivity. Qed.
Lemma drop_trailing_app : forall ks n, last ks [] <> [] -> drop_trailing_empty (ks ++ repeat [] n) = ks.
Proof.
  induction ks as [|k [|k' ks] IH]; intros n H; [cbn in H; congruence| |].
  - cbn in *. rewrite drop_empty. destruct k; auto. congruence.
  - cbn [drop_trailing_empty app] in *. rewrite IH by (cbn in *; auto). reflexivity.
Qed.
Lemma names_split : forall s ks, leads_to s ks -> split_path s = ks.
Proof.
  intros s ks H. destruct H as [|ks n Hn Hd Hl]; [reflexivity|].
  rewrite path_text_dots by auto. unfold split_path. rewrite split_dots_join.
  - destruct ks as [|k [|k' ks]]; [congruence| |].
    + destruct n as [|n]; [reflexivity|]. exact (drop_trailing_app [k] (S n) Hl).
    + exact (drop_trailing_app (k :: k' :: ks) n Hl).
  - destruct ks; [congruence|discriminate].
  - intros k I. apply in_app_or in I as [I|I]; auto. apply repeat_spec in I. subst. intros [].
Qed.
Lemma names_nonempty : forall s ks, leads_to s ks -> ks <> [].
Proof. intros s ks H. inversion H; subst; auto. discriminate. Qed.

(** Every name is of one of the forms. *)
Lemma dots_or_rest : forall s, (exists n, s = dots n) \/ exists p c n, s = p ++ c :: dots n /\ c <> ch ".".
Proof.
  induction s as [|c s IH].
  - left. exists 0. reflexivity.
  - destruct IH as [[n ->] | (p & c' & n & -> & H)].
    + destruct (N.eq_dec c (ch ".")) as [->|Hc]; [left; exists (S n); reflexivity|]. right. exists [], c, n. auto.
    + right. exists (c :: p), c', n. auto.
Qed.
Lemma split_word : forall s, exists ks, ks <> [] /\ (forall k, In k ks -> ~ In (ch ".") k) /\ s = path_text ks.
Proof.
  induction s as [|c s IH].
  - exists [[]]. split; [discriminate|]. split; [|reflexivity]. intros k [<-|[]] [].
  - destruct IH as (ks & Hn & Hd & ->). destruct (N.eq_dec c (ch ".")) as [->|Hc].
    + exists ([] :: ks). split; [discriminate|]. split; [|destruct ks; [congruence|reflexivity]]. intros k [<-|I]; [intros []|auto].
    + destruct ks as [|k ks]; [congruence|]. exists ((c :: k) :: ks). split; [discriminate|]. split.
      * intros x [<-|I]; [|apply Hd; right; auto]. intros [X|X]; [congruence|]. exact (Hd k (or_introl eq_refl) X).
      * destruct ks; reflexivity.
Qed.
Lemma last_char : forall ks p c, path_text ks = p ++ [c] -> c <> ch "." -> last ks [] <> [].
Proof.
  induction ks as [|k [|k' ks] IH]; intros p c H Hc.
  - cbn in H. destruct p; discriminate H.
  - cbn in *. intros ->. destruct p; discriminate H.
  - change (path_text (k :: k' :: ks)) with (k ++ ch "." :: path_text (k' :: ks)) in H. change (last (k' :: ks) [] <> []).
    destruct (exists_last (l := path_text (k' :: ks))) as (q & c' & E).
    + intros E. rewrite E in H. apply app_inj_tail in H as [_ X]. congruence.
    + apply (IH q c' E). rewrite E, app_comm_cons, app_assoc in H. apply app_inj_tail in H as [_ X]. congruence.
Qed.
Lemma every_name : forall s, (exists n, s = dots (S n)) \/ exists ks, leads_to s ks.
Proof.
  intros s. destruct (dots_or_rest s) as [[[|n] ->] | (p & c & n & -> & H)]; [right; exists [[]]; constructor|left; eauto|].
  right. destruct (split_word (p ++ [c])) as (ks & Hn & Hd & E). exists ks.
  replace (p ++ c :: dots n) with ((p ++ [c]) ++ dots n) by (rewrite <- app_assoc; reflexivity). rewrite E. constructor; auto.
  eapply last_char; eauto.
Qed.

Lemma dots_split : forall n, split_path (dots (S n)) = [].
Proof.
  intros n. change (dots (S n)) with (path_text [[]] ++ dots (S n)). rewrite path_text_dots by discriminate. unfold split_path.
  rewrite split_dots_join.
  - exact (drop_empty (S (S n))).
  - discriminate.
  - intros k I. change ([[]] ++ repeat [] (S n)) with (repeat ([] : jstr) (S (S n))) in I. apply repeat_spec in I. subst. intros [].
Qed.

Lemma name_found : forall E d s ks v, proper_data d -> leads_to s ks -> (arith_eval E d (NField (Some s)) = Ok v <-> found d ks v).
Proof.
  intros E d s ks v P H. cbn [arith_eval]. unfold field_value_or_fail, field_value, get_value_from_map. rewrite (names_split _ _ H).
  pose proof (names_nonempty _ _ H) as Hn.
  rewrite <- get_path_found by auto. destruct (get_path_total ks d Hn) as [[w|] ->]; cbn; split; intros X; congruence.
Qed.
Lemma name_absent : forall E d s ks, proper_data d -> leads_to s ks ->
  (arith_eval E d (NField (Some s)) = Err DataNotFound <-> forall v, ~ found d ks v).
Proof.
  intros E d s ks P H. split.
  - intros X v F. apply (name_found E d s ks v P H) in F. congruence.
  - intros X. destruct (arith_eval E d (NField (Some s))) as [v|e] eqn:A.
    + exfalso. apply (X v). apply (name_found E d s ks v P H); auto.
    + cbn [arith_eval] in A. unfold field_value_or_fail, field_value, get_value_from_map in A. rewrite (names_split _ _ H) in A.
      destruct (get_path_total ks d (names_nonempty _ _ H)) as [[w|] R]; rewrite R in A; cbn in A; congruence.
Qed.
Lemma only_dots : forall E d n, arith_eval E d (NField (Some (dots (S n)))) = Err ArrayIndexOutOfBounds.
Proof. intros. cbn [arith_eval]. unfold field_value_or_fail, field_value, get_value_from_map. rewrite dots_split. reflexivity. Qed.

(** C13 and C14 for names of any form. *)
Lemma name_present : forall E d s, proper_data d -> present E d s -> exists ks v, leads_to s ks /\ found d ks v.
Proof.
  intros E d s P [v H]. destruct (every_name s) as [[n ->] | [ks L]]; [rewrite only_dots in H; discriminate|].
  exists ks, v. split; auto. apply (name_found E d s ks v P L), H.
Qed.
Lemma missing_arith_any : forall E d n s, proper_data d -> In s (arith_fields n) ->
  (forall ks v, leads_to s ks -> ~ found d ks v) -> exists e, arith_eval E d n = Err e.
Proof.
  intros E d n s P I F. destruct (arith_eval E d n) as [v|e] eqn:A; eauto. exfalso.
  destruct (name_present E d s P (arith_present _ _ _ _ A _ I)) as (ks & w & L & W). eapply F; eauto.
Qed.
Lemma missing_fails_any : forall E d phi r consulted n fs s, proper_data d -> (forall ks v, leads_to s ks -> ~ found d ks v) ->
  means (bool_eval E d) phi r consulted -> In n consulted -> condition n fs -> In s fs ->
  exists e, bool_eval E d (tree_of phi) = Err e.
Proof.
  intros E d phi r consulted n fs s P F M I Hc If. rewrite (proj1 (means_iff_eval E d phi r) (ex_intro _ _ M)).
  destruct r as [b|e]; eauto. exfalso. destruct (means_consulted_ok _ _ _ _ M b eq_refl n I) as [c Hcn].
  destruct (name_present E d s P (condition_present _ _ _ _ _ Hc Hcn _ If)) as (ks & w & L & W). eapply F; eauto.
Qed.
Lemma name_same_field : forall d1 d2 s, proper_data d1 -> proper_data d2 ->
  (forall ks v, leads_to s ks -> (found d1 ks v <-> found d2 ks v)) -> same_field d1 d2 s.
Proof.
  intros d1 d2 s P1 P2 H E. destruct (every_name s) as [[n ->] | [ks L]]; [rewrite !only_dots; reflexivity|].
  destruct (arith_eval E d1 _) as [v|e] eqn:A.
  - symmetry. apply (name_found E d2 s ks v P2 L), (H ks v L), (name_found E d1 s ks v P1 L), A.
  - assert (e = DataNotFound) as ->.
    { cbn [arith_eval] in A. unfold field_value_or_fail, field_value, get_value_from_map in A. rewrite (names_split _ _ L) in A.
      destruct (get_path_total ks d1 (names_nonempty _ _ L)) as [[w|] R]; rewrite R in A; cbn in A; congruence. }
    symmetry. apply (name_absent E d2 s ks P2 L). intros v F. apply (proj1 (name_absent E d1 s ks P1 L) A v), (H ks v L), F.
Qed.
