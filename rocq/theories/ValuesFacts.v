(** Lookup of dotted field names. *)
From Verif Require Import Base Values Ops Funcs Ast Eval SpecPath CompareFacts.

Lemma split_dots_word : forall w cur, ~ In (ch ".") w -> split_dots w cur = [rev cur ++ w].
Proof.
  induction w as [|c w IH]; intros cur H; cbn; [rewrite app_nil_r; auto|].
  destruct (c =? 46)%N eqn:E; [exfalso; apply H; left; apply N.eqb_eq in E; auto|].
  rewrite IH by (intros I; apply H; right; auto). cbn. rewrite <- app_assoc. reflexivity.
Qed.
Lemma split_dots_app : forall w cur s, ~ In (ch ".") w -> split_dots (w ++ ch "." :: s) cur = (rev cur ++ w) :: split_dots s [].
Proof.
  induction w as [|c w IH]; intros cur s H; cbn; [rewrite app_nil_r; auto|].
  destruct (c =? 46)%N eqn:E; [exfalso; apply H; left; apply N.eqb_eq in E; auto|].
  change 46%N with (ch "."). rewrite IH by (intros I; apply H; right; auto). cbn. rewrite <- app_assoc. reflexivity.
Qed.
Lemma split_dots_join : forall ks, ks <> [] -> (forall k, In k ks -> ~ In (ch ".") k) -> split_dots (path_text ks) [] = ks.
Proof.
  induction ks as [|k [|k' ks] IH]; intros Hn H; [congruence| |].
  - cbn. apply split_dots_word. apply H. left; auto.
  - change (path_text (k :: k' :: ks)) with (k ++ ch "." :: path_text (k' :: ks)).
    rewrite split_dots_app by (apply H; left; auto). cbn [rev app]. f_equal. apply IH; [discriminate|]. intros x I. apply H. right. auto.
Qed.
Lemma drop_trailing_id : forall ks, last ks [] <> [] -> drop_trailing_empty ks = ks.
Proof.
  induction ks as [|k [|k' ks] IH]; intros H; auto.
  - cbn in *. destruct k; auto. congruence.
  - cbn [drop_trailing_empty] in *. rewrite IH by (cbn in *; auto). reflexivity.
Qed.

(** Pieces without dots of which the last is not empty are recovered: the recursive call of getValueFromMap, which joins
    the remaining pieces and splits them again, sees the same pieces. *)
Lemma split_path_join : forall ks, ks <> [] -> (forall k, In k ks -> ~ In (ch ".") k) -> last ks [] <> [] -> split_path (path_text ks) = ks.
Proof.
  intros ks Hn H L. unfold split_path. rewrite split_dots_join by auto.
  destruct ks as [|k [|k' ks]]; auto. apply drop_trailing_id; auto.
Qed.

(** The pieces of any split text have that form, so the above applies to every recursive call. *)
Lemma split_dots_nodot : forall s cur k, ~ In (ch ".") cur -> In k (split_dots s cur) -> ~ In (ch ".") k.
Proof.
  induction s as [|c s IH]; intros cur k Hc I; cbn in I.
  - destruct I as [<-|[]]. rewrite <- in_rev. auto.
  - destruct (c =? 46)%N eqn:E.
    + destruct I as [<-|I]; [rewrite <- in_rev; auto|]. apply (IH [] k); auto.
    + apply (IH (c :: cur) k); auto. intros [X|X]; auto. subst. discriminate E.
Qed.
Lemma drop_trailing_in : forall l k, In k (drop_trailing_empty l) -> In k l.
Proof.
  induction l as [|x l IH]; cbn; auto. intros k. destruct (drop_trailing_empty l) eqn:D.
  - destruct x; cbn; [tauto|intuition].
  - intros [->|I]; auto.
Qed.
Lemma drop_trailing_last : forall l, drop_trailing_empty l = [] \/ last (drop_trailing_empty l) [] <> [].
Proof.
  induction l as [|x l IH]; cbn; auto. destruct (drop_trailing_empty l) eqn:D.
  - destruct x; cbn; auto. right. discriminate.
  - right. destruct IH as [|IH]; [discriminate|]. exact IH.
Qed.
Lemma split_path_shape : forall s, (forall k, In k (split_path s) -> ~ In (ch ".") k) /\
  (length (split_path s) <= 1 \/ last (split_path s) [] <> []).
Proof.
  intros s. assert (A : forall k, In k (split_dots s []) -> ~ In (ch ".") k) by (intros k I; apply (split_dots_nodot s [] k); auto).
  unfold split_path. destruct (split_dots s []) as [|x [|y l]] eqn:D; [cbn; auto|cbn; auto|].
  split; [intros k I; apply A, drop_trailing_in; auto|]. destruct (drop_trailing_last (x :: y :: l)) as [E|E]; auto. rewrite E. auto.
Qed.

Lemma get_path_step : forall k k' ks d, get_path (k :: k' :: ks) d =
  match map_get k d with Some (VMap es) => get_path (k' :: ks) es | _ => Ok None end.
Proof. reflexivity. Qed.

(** getValueFromMap exactly as written: the remaining pieces are joined and split again at every level. *)
Fixpoint get_joined (fuel : nat) (key : jstr) (d : data) : res (option jval) :=
  match fuel with
  | O => Err OutOfFuel
  | S f =>
      match split_path key with
      | [] => Err ArrayIndexOutOfBounds
      | [k] => Ok (map_get k d)
      | k :: ks => match map_get k d with Some (VMap es) => get_joined f (path_text ks) es | _ => Ok None end
      end
  end.
Lemma get_path_joined : forall fuel ks d, ks <> [] -> (forall k, In k ks -> ~ In (ch ".") k) -> length ks <= 1 \/ last ks [] <> [] ->
  length ks <= fuel -> forall key, split_path key = ks -> get_joined fuel key d = get_path ks d.
Proof.
  induction fuel as [|f IH]; intros ks d Hn Hd Hl Hf key Hk; [destruct ks; cbn in *; [congruence|lia]|].
  cbn [get_joined]. rewrite Hk. destruct ks as [|k [|k' ks]]; [congruence|reflexivity|].
  rewrite get_path_step. destruct (map_get k d) as [[]|]; auto.
  assert (L : last (k' :: ks) [] <> []) by (destruct Hl as [Hl|Hl]; [cbn in Hl; lia|exact Hl]).
  apply IH; auto; try discriminate.
  - intros x I. apply Hd. right; auto.
  - cbn in *. lia.
  - apply split_path_join; auto; try discriminate. intros x I. apply Hd. right; auto.
Qed.
Lemma get_value_joined : forall key d, get_value_from_map key d = get_joined (S (length (split_path key))) key d.
Proof.
  intros key d. unfold get_value_from_map. destruct (split_path key) as [|k ks] eqn:S.
  - cbn. rewrite S. reflexivity.
  - symmetry. destruct (split_path_shape key) as [A B]. rewrite S in A, B. apply get_path_joined; auto; try discriminate. 
Qed.

(** Walking *)
Lemma map_get_in : forall d k v, NoDup (map fst d) -> (map_get k d = Some v <-> In (k, v) d /\ v <> VNull).
Proof.
  induction d as [|[k' w] d IH]; intros k v N; cbn; [split; [discriminate|tauto]|].
  inversion N as [|? ? N1 N2]; subst. destruct (jstr_eqb k' k) eqn:E.
  - apply jstr_eqb_iff in E. subst k'. split.
    + destruct w; intros H; try discriminate; injection H as <-; split; auto; discriminate.
    + intros [[H|H] Hv].
      * injection H as ->. destruct v; auto. congruence.
      * exfalso. apply N1. apply in_map_iff. exists (k, v). auto.
  - rewrite IH by auto. split; [intros [H Hv]; auto|]. intros [[H|H] Hv]; auto.
    injection H as -> ->. rewrite (proj2 (jstr_eqb_iff k k) eq_refl) in E. discriminate.
Qed.
Lemma get_path_found : forall ks d v, proper_data d -> ks <> [] -> (get_path ks d = Ok (Some v) <-> found d ks v).
Proof.
  induction ks as [|k [|k' ks] IH]; intros d v P Hn; [congruence| |].
  - inversion P as [es N H|? H]; subst; [|exfalso; eapply H; reflexivity]. cbn [get_path]. split.
    + intros E. injection E as E. apply map_get_in in E as [I Hv]; auto. constructor; auto.
    + intros F. inversion F; subst; [|match goal with X : found _ [] _ |- _ => inversion X end].
      f_equal. apply map_get_in; auto.
  - inversion P as [es N H|? H]; subst; [|exfalso; eapply H; reflexivity]. split.
    + intros E. rewrite get_path_step in E. destruct (map_get k d) as [[]|] eqn:G; try discriminate.
      apply map_get_in in G as [I _]; auto. eapply found_step; eauto. apply IH; try discriminate; auto. exact (H _ _ I).
    + intros F. inversion F; subst. rewrite get_path_step. match goal with X : In (k, VMap ?es) d |- _ => rename es into es0; rename X into I end.
      assert (G : map_get k d = Some (VMap es0)) by (apply map_get_in; auto; split; auto; discriminate). rewrite G.
      apply IH; try discriminate; auto. exact (H _ _ I).
Qed.
Lemma get_path_total : forall ks d, ks <> [] -> exists o, get_path ks d = Ok o.
Proof.
  induction ks as [|k [|k' ks] IH]; intros d Hn; [congruence|cbn; eauto|].
  rewrite get_path_step. destruct (map_get k d) as [[]|]; eauto. apply IH. discriminate.
Qed.
Lemma component_split : forall ks, ks <> [] -> Forall component ks -> split_path (path_text ks) = ks.
Proof.
  intros ks Hn H. rewrite Forall_forall in H. apply split_path_join; auto.
  - intros k I. apply H; auto.
  - destruct (exists_last Hn) as (a & b & E). rewrite E, last_last. apply H. rewrite E. apply in_or_app. right. left. auto.
Qed.

Lemma field_found : forall E d ks v, proper_data d -> ks <> [] -> Forall component ks ->
  (arith_eval E d (NField (Some (path_text ks))) = Ok v <-> found d ks v).
Proof.
  intros E d ks v P Hn H. cbn [arith_eval]. unfold field_value_or_fail, field_value, get_value_from_map. rewrite component_split by auto.
  rewrite <- get_path_found by auto. destruct (get_path_total ks d Hn) as [[w|] ->]; cbn; split; intros X; congruence.
Qed.
Lemma field_absent : forall E d ks, proper_data d -> ks <> [] -> Forall component ks ->
  (arith_eval E d (NField (Some (path_text ks))) = Err DataNotFound <-> forall v, ~ found d ks v).
Proof.
  intros E d ks P Hn H. split.
  - intros X v F. apply (field_found E d ks v P Hn H) in F. congruence.
  - intros X. destruct (arith_eval E d (NField (Some (path_text ks)))) as [v|e] eqn:A.
    + exfalso. apply (X v). apply (field_found E d ks v P Hn H); auto.
    + cbn [arith_eval] in A. unfold field_value_or_fail, field_value, get_value_from_map in A. rewrite component_split in A by auto.
      destruct (get_path_total ks d Hn) as [[w|] R]; rewrite R in A; cbn in A; congruence.
Qed.

(** Keys that contain a dot are never found. *)
Lemma flat_key : forall E d ks, (forall k v, In (k, v) d -> In (ch ".") k) -> ks <> [] -> Forall component ks ->
  arith_eval E d (NField (Some (path_text ks))) = Err DataNotFound.
Proof.
  intros E d ks H Hn C. cbn [arith_eval]. unfold field_value_or_fail, field_value, get_value_from_map. rewrite component_split by auto.
  destruct ks as [|k ks]; [congruence|]. inversion C as [|? ? [_ Ck] C2]; subst.
  assert (G : map_get k d = None).
  { clear -H Ck. induction d as [|[k' v] d IH]; auto. cbn. destruct (jstr_eqb k' k) eqn:E.
    - apply jstr_eqb_iff in E. subst. exfalso. apply Ck. eapply H. left. reflexivity.
    - apply IH. intros k0 v0 I. eapply H. right. eauto. }
  destruct ks; cbn [get_path]; rewrite G; reflexivity.
Qed.
