(** Conditions that can only turn true, or only false, when dates move later or versions become newer. *)
From Coq Require Import QArith.
From Verif Require Import RecoverFacts.
From Verif Require Import Base JNum BigDec Dates Version Values Ops Funcs Ast Eval Api SpecNum SpecBool SpecCompare SpecArith SpecDate SpecLex SpecPath SpecSyntax SpecText SpecChain SpecTrend SpecCourse
  NumFacts BoolFacts CompareFacts DateFacts VersionFacts VersionTextFacts PositionFacts ChainFacts ChainText TrendFacts.
Local Open Scope Z_scope.

Definition orderings := [GREATER_THAN; GREATER_THAN_EQUAL; LESS_THAN; LESS_THAN_EQUAL].
Definition decided E d l r c := forall op t, In op orderings -> exists b, accepts op c = Some b /\ bool_eval E d (NCmp l r op t) = Ok b.
Definition climbs (c c' : comparison) := (c = Gt -> c' = Gt) /\ (c' = Lt -> c = Lt).

Lemma accepted op c : In op orderings -> exists b, accepts op c = Some b.
Proof. intros H. cbn [In orderings] in H. decompose [or] H; subst; try contradiction; destruct c; cbn; eauto. Qed.
Lemma decide E d l r c : (forall op t b, In op orderings -> accepts op c = Some b -> bool_eval E d (NCmp l r op t) = Ok b) -> decided E d l r c.
Proof. intros H op t O. destruct (accepted op c O) as [b B]. exists b. split; [exact B|]. apply H; assumption. Qed.
Lemma yields_fun E d m v w : yields E d m v -> yields E d m w -> v = w.
Proof. intros [H _] [K _]. congruence. Qed.

Lemma days_decided E d l r a b : at_point E d l (PDay a) -> at_point E d r (PDay b) -> decided E d l r (to_epoch_day a ?= to_epoch_day b).
Proof.
  intros [v [Yv A]] [w [Yw B]]. apply decide. intros op t x _ X. destruct (date_order E d l r op t v w a b Yv Yw A B) as [k [K H]]. apply H.
  apply days_later_epoch in K. subst k. rewrite <- compare_shift. exact X.
Qed.
Definition nanos (x : datetime) := to_epoch_day (dt_date x) * 86400000000000 + clock x.
Lemma nanos_later_nanos k x y : nanos_later k x y -> k = nanos y - nanos x.
Proof. intros [n [D K]]. apply days_later_epoch in D. unfold nanos. lia. Qed.
Lemma moments_decided E d l r x y : at_point E d l (PMoment x) -> at_point E d r (PMoment y) -> decided E d l r (nanos x ?= nanos y).
Proof.
  intros [v [Yv A]] [w [Yw B]]. apply decide. intros op t b _ X. destruct (datetime_order E d l r op t v w x y Yv Yw A B) as [k [K H]]. apply H.
  apply nanos_later_nanos in K. subst k. rewrite <- compare_shift. exact X.
Qed.
Lemma same_condition E d l r op t : bool_eval E d (NCmp l r op t) = bool_eval E d (cond l op r).
Proof. reflexivity. Qed.
Lemma object_like E d m cs : is_version E d m -> at_point E d m (PRelease cs) -> yields E d m (VVer (dotted cs)) /\ cs <> [].
Proof.
  intros [u U] [v [Yv [N [-> | ->]]]].
  - pose proof (yields_fun E d m _ _ U Yv). discriminate.
  - auto.
Qed.
Lemma releases_decided E d l r a b : at_point E d l (PRelease a) -> at_point E d r (PRelease b) -> is_version E d l \/ is_version E d r -> decided E d l r (components_compare a b).
Proof.
  intros A B [V|V]; apply decide; intros op t x O X; rewrite same_condition;
    assert (N1 : op <> EQUALS) by (intros ->; cbn [In orderings] in O; intuition discriminate);
    assert (N2 : op <> NOT_EQUAL) by (intros ->; cbn [In orderings] in O; intuition discriminate).
  - destruct (object_like E d l a V A) as [Yl Na]. destruct B as [w [Yw B]]. destruct (accepted op (components_compare b a) O) as [y Y].
    apply (versions_order E d r l w b a op y Yw B Yl Na Y N1 N2). exact X.
  - destruct (object_like E d r b V B) as [Yr Nb]. destruct A as [w [Yw A]].
    apply (versions_order E d l r w a b op x Yw A Yr Nb X N1 N2).
Qed.

Lemma climbs_Z x y x' y' : x <= x' -> y' <= y -> climbs (x ?= y) (x' ?= y').
Proof. intros H K. split; intros C; destruct (Z.compare_spec x y), (Z.compare_spec x' y'); try reflexivity; try discriminate; lia. Qed.
Lemma components_flip a b : components_compare a b = Gt <-> components_compare b a = Lt.
Proof. rewrite (components_antisym a b). destruct (components_compare a b); cbn; split; congruence. Qed.
Lemma climbs_components a b a' b' : components_compare a a' <> Gt -> components_compare b' b <> Gt -> climbs (components_compare a b) (components_compare a' b').
Proof.
  intros H K. split; intros C.
  - apply components_flip. apply components_flip in C. eapply components_lt_trans; [exact K|]. eapply components_trans_lt; eassumption.
  - eapply components_lt_trans; [exact H|]. eapply components_trans_lt; eassumption.
Qed.
Lemma placed k E d d' l r : advances k E d d' l -> advances k E d' d r -> comparable k E d l r -> comparable k E d' l r ->
  exists c c', decided E d l r c /\ decided E d' l r c' /\ climbs c c'.
Proof.
  intros (p & p' & P & P' & L) (q' & q & R' & R & K) V V'.
  destruct k, p, p', q, q'; cbn [no_earlier] in L, K; try contradiction.
  - destruct L as [i [I1 I2]]. destruct K as [j [J1 J2]]. apply days_later_epoch in I1, J1. eexists. eexists.
    split; [apply days_decided; eassumption|]. split; [apply days_decided; eassumption|]. apply climbs_Z; lia.
  - destruct L as [i [I1 I2]]. destruct K as [j [J1 J2]]. apply nanos_later_nanos in I1, J1. eexists. eexists.
    split; [apply moments_decided; eassumption|]. split; [apply moments_decided; eassumption|]. apply climbs_Z; lia.
  - specialize (V eq_refl). specialize (V' eq_refl). eexists. eexists. split; [apply releases_decided; eassumption|]. split; [apply releases_decided; eassumption|].
    apply climbs_components; assumption.
Qed.
Lemma climbing_more E d d' l r c c' op t b b' : decided E d l r c -> decided E d' l r c' -> climbs c c' -> op = GREATER_THAN \/ op = GREATER_THAN_EQUAL ->
  bool_eval E d (NCmp l r op t) = Ok b -> bool_eval E d' (NCmp l r op t) = Ok b' -> b = true -> b' = true.
Proof.
  intros D D' [U W] O B B'. assert (O' : In op orderings) by (destruct O as [-> | ->]; cbn; tauto).
  destruct (D op t O') as [x [X Hx]]. destruct (D' op t O') as [y [Y Hy]]. rewrite Hx in B. rewrite Hy in B'. injection B as <-. injection B' as <-. intros ->.
  destruct O as [-> | ->], c, c'; cbn [accepts] in X, Y; try discriminate; try congruence; try (injection Y as <-; reflexivity);
    try (specialize (U eq_refl); discriminate); try (specialize (W eq_refl); discriminate).
Qed.
Lemma climbing_less E d d' l r c c' op t b b' : decided E d l r c -> decided E d' l r c' -> climbs c c' -> op = LESS_THAN \/ op = LESS_THAN_EQUAL ->
  bool_eval E d (NCmp l r op t) = Ok b -> bool_eval E d' (NCmp l r op t) = Ok b' -> b' = true -> b = true.
Proof.
  intros D D' [U W] O B B'. assert (O' : In op orderings) by (destruct O as [-> | ->]; cbn; tauto).
  destruct (D op t O') as [x [X Hx]]. destruct (D' op t O') as [y [Y Hy]]. rewrite Hx in B. rewrite Hy in B'. injection B as <-. injection B' as <-. intros ->.
  destruct O as [-> | ->], c, c'; cbn [accepts] in X, Y; try discriminate; try congruence; try (injection X as <-; reflexivity);
    try (specialize (U eq_refl); discriminate); try (specialize (W eq_refl); discriminate).
Qed.

Lemma course_follows : forall E d d' up n, course E d d' up n -> forall b b', bool_eval E d n = Ok b -> bool_eval E d' n = Ok b' ->
  if up then b = true -> b' = true else b' = true -> b = true.
Proof.
  intros E d d' up n H. induction H as [up n T|k l r op t O A B V V'|k l r op t O A B V V'|k l r op t O A B V V'|k l r op t O A B V V'|up n _ IH|up l r op O _ IH1 _ IH2]; intros b b' R R'.
  - exact (trend_follows E d d' up n T b b' R R').
  - destruct (placed k E d d' l r A B V V') as (c & c' & D & D' & C). exact (climbing_more E d d' l r c c' op t b b' D D' C O R R').
  - destruct (placed k E d' d l r A B V' V) as (c & c' & D & D' & C). exact (climbing_more E d' d l r c c' op t b' b D D' C O R' R).
  - destruct (placed k E d' d l r A B V' V) as (c & c' & D & D' & C). exact (climbing_less E d' d l r c c' op t b' b D D' C O R' R).
  - destruct (placed k E d d' l r A B V V') as (c & c' & D & D' & C). exact (climbing_less E d d' l r c c' op t b b' D D' C O R R').
  - cbn [bool_eval] in R, R'. destruct (bool_eval E d n) as [c|]; [|discriminate]. destruct (bool_eval E d' n) as [c'|]; [|discriminate]. cbn [bind] in R, R'.
    injection R as <-. injection R' as <-. specialize (IH c c' eq_refl eq_refl). destruct up; cbn [negb] in IH; destruct c, c'; cbn [negb]; auto.
  - destruct O as [-> | ->]; cbn [bool_eval] in R, R'; destruct (bool_eval E d l) as [c|]; try discriminate; destruct (bool_eval E d' l) as [c'|]; try discriminate; cbn [bind] in R, R';
      specialize (IH1 c c' eq_refl eq_refl); destruct (bool_eval E d r) as [e|]; destruct (bool_eval E d' r) as [e'|]; try specialize (IH2 _ _ eq_refl eq_refl);
      destruct up, c, c'; try discriminate; try (injection R as <-); try (injection R' as <-); intuition congruence.
Qed.
Lemma stays_put k E d l r : advances k E d d l -> advances k E d d r -> comparable k E d l r -> exists c, decided E d l r c.
Proof.
  intros (p & p' & P & P' & L) (q & q' & R & R' & K) V. destruct k, p, p', q, q'; cbn [no_earlier] in L, K; try contradiction.
  - eexists. eapply days_decided; eassumption.
  - eexists. eapply moments_decided; eassumption.
  - eexists. eapply releases_decided; [eassumption|eassumption|exact (V eq_refl)].
Qed.
Lemma certain_answers E d n : certain E d n -> exists b, bool_eval E d n = Ok b.
Proof.
  induction 1 as [n N|k l r op t O A B V|n _ [b IH]|l r op O _ [b IH1] _ [c IH2]].
  - exact (numeric_answers E d n N).
  - destruct (stays_put k E d l r A B V) as [c D]. destruct (D op t O) as [b [_ H]]. eauto.
  - cbn [bool_eval]. rewrite IH. cbn [bind]. eauto.
  - destruct O as [-> | ->]; cbn [bool_eval]; rewrite IH1; cbn [bind]; destruct b; eauto.
Qed.
Lemma course_text_both E d d' dflt s ws n up b b' : passage Nothing s ws n -> course E d d' up n ->
  evaluate_boolean E (unwords ws) d dflt = Ok b -> evaluate_boolean E (unwords ws) d' dflt = Ok b' -> if up then b = true -> b' = true else b' = true -> b = true.
Proof. intros P T. rewrite (proj1 (passage_value E d dflt _ _ _ P)), (proj1 (passage_value E d' dflt _ _ _ P)). apply course_follows, T. Qed.
Lemma course_text E d d' dflt s ws n : passage Nothing s ws n -> course E d d' true n -> certain E d' n ->
  evaluate_boolean E (unwords ws) d dflt = Ok true -> evaluate_boolean E (unwords ws) d' dflt = Ok true.
Proof.
  intros P T N. rewrite (proj1 (passage_value E d dflt _ _ _ P)), (proj1 (passage_value E d' dflt _ _ _ P)). intros B.
  destruct (certain_answers E d' n N) as [b' B']. rewrite B'. f_equal. exact (course_follows E d d' true n T true b' B B' eq_refl).
Qed.

(** ** What advances *)
Lemma field_at E d f p v : to_lower f <> J "null" -> arith_eval E d (NField (Some f)) = Ok v ->
  match p with PDay a => denotes_date v a | PMoment x => denotes_datetime v x | PRelease cs => version_like v cs end -> at_point E d (NField (Some f)) p.
Proof.
  intros F H D. exists v. split; [|exact D]. split; [exact H|]. split.
  - intros ->. destruct p; [apply denotes_primitive in D; apply (proj1 D); reflexivity|apply denotes_dt_primitive in D; apply (proj1 D); reflexivity|destruct D as [_ [D|D]]; discriminate].
  - intros [g [G W]]. injection G as <-. contradiction.
Qed.
Lemma no_earlier_self k E d m p : at_point E d m p -> match k, p with Days, PDay _ | Moments, PMoment _ | Releases, PRelease _ => True | _, _ => False end -> no_earlier k p p.
Proof.
  intros [v [Y D]] K. destruct k, p; try contradiction; cbn [no_earlier].
  - exists 0. split; [|lia]. left. split; [lia|]. constructor.
  - exists 0. split; [|lia]. exists 0. split; [|lia]. left. split; [lia|]. constructor.
  - rewrite components_refl. discriminate.
Qed.
Lemma literal_at E d t v p : match p with PDay a => denotes_date v a | PMoment x => denotes_datetime v x | PRelease cs => version_like v cs end -> at_point E d (NUnary t v) p.
Proof.
  intros D. exists v. split; [|exact D]. split; [reflexivity|]. split; [|intros [g [G _]]; discriminate].
  intros ->. destruct p; [apply denotes_primitive in D; apply (proj1 D); reflexivity|apply denotes_dt_primitive in D; apply (proj1 D); reflexivity|destruct D as [_ [D|D]]; discriminate].
Qed.
