(** Dates and date-times answer the same as objects and as text. *)
From Coq Require Import QArith.
From Verif Require Import RecoverFacts.
From Verif Require Import Base JNum BigDec Dates Version Values Ops Funcs Ast Eval Api SpecNum SpecBool SpecCompare SpecArith SpecFunc SpecDate SpecLex SpecPath SpecSyntax SpecText SpecChain SpecTrend SpecRepr SpecMixed SpecForm SpecCourse SpecStamp
  NumFacts BoolFacts CompareFacts FieldFacts MemberFacts MixedFacts DateFacts ChainFacts ChainText ReprFacts FormFacts CourseFacts.
Local Open Scope Z_scope.

Definition stamps (v : jval) (p : date + datetime) := match p with inl a => denotes_date v a | inr x => denotes_datetime v x end.
Definition verdict (op : operator) (p q : date + datetime) : res bool :=
  match p, q with
  | inl a, inl b => match accepts op (to_epoch_day a ?= to_epoch_day b) with Some x => Ok x | None => Err NullPointer end
  | inr x, inr y => match accepts op (nanos x ?= nanos y) with Some x => Ok x | None => Err NullPointer end
  | _, _ => Err InvalidDataType
  end.
Definition asking := [EQUALS; NOT_EQUAL; GREATER_THAN; GREATER_THAN_EQUAL; LESS_THAN; LESS_THAN_EQUAL].
Lemma asking_accepts op c : In op asking -> exists b, accepts op c = Some b.
Proof. intros H. cbn [In asking] in H. decompose [or] H; subst; try contradiction; destruct c; cbn; eauto. Qed.
Lemma same_stamps v w : same_stamp v w <-> exists p, stamps v p /\ stamps w p.
Proof.
  split.
  - intros [[a H]|[x H]]; [exists (inl a)|exists (inr x)]; exact H.
  - intros [[a|x] H]; [left; exists a|right; exists x]; exact H.
Qed.
Lemma stamp_verdict E d l r op t v w p q : In op asking -> yields E d l v -> yields E d r w -> stamps v p -> stamps w q -> bool_eval E d (NCmp l r op t) = verdict op p q.
Proof.
  intros O Yl Yr P R. destruct p as [a|x], q as [b|y]; cbn [stamps verdict] in *.
  - destruct (date_order E d l r op t v w a b Yl Yr P R) as [k [K H]]. apply days_later_epoch in K. subst k. rewrite <- compare_shift in H.
    destruct (asking_accepts op (to_epoch_day a ?= to_epoch_day b) O) as [z Z]. rewrite Z. apply H, Z.
  - assert (A0 : accepts op Eq <> None) by (destruct (asking_accepts op Eq O) as [z Z]; rewrite Z; discriminate).
    apply (unrelated_fail E d l r op Eq v w DATE DATETIME A0 Yl Yr); [econstructor; exact P|econstructor; exact R|]. unfold unrelated. tauto.
  - assert (A0 : accepts op Eq <> None) by (destruct (asking_accepts op Eq O) as [z Z]; rewrite Z; discriminate).
    apply (unrelated_fail E d r l op Eq w v DATE DATETIME A0 Yr Yl); [econstructor; exact R|econstructor; exact P|]. unfold unrelated. tauto.
  - destruct (datetime_order E d l r op t v w x y Yl Yr P R) as [k [K H]]. apply nanos_later_nanos in K. subst k. rewrite <- compare_shift in H.
    destruct (asking_accepts op (nanos x ?= nanos y) O) as [z Z]. rewrite Z. apply H, Z.
Qed.
Lemma stamp_type v p : stamps v p -> v <> VNull /\ is_valid (get_data_type v) v = Ok true.
Proof. destruct p as [a|x]; intros H; [destruct (denotes_primitive v a H) as (N & T & V & _)|destruct (denotes_dt_primitive v x H) as (N & T & V & _)]; rewrite T; auto. Qed.
Definition lists (p : date + datetime) (ps : list (date + datetime)) : res bool :=
  fold_right (fun q rest => b <- verdict EQUALS p q ;; if b then Ok true else rest) (Ok false) ps.
Lemma in_stamps E d f v p items ms ps : yields E d (NField (Some f)) v -> stamps v p -> list_members E d items ms -> Forall2 stamps ms ps ->
  bool_eval E d (NIn (Some f) items) = lists p ps.
Proof.
  intros Y P L F. destruct ms as [|m ms].
  - inversion F; subst. destruct L as [vs [H [Em Hn]]]. rewrite in_unfold. assert (Y0 := Y). destruct Y0 as [Y0 _]. cbn [arith_eval] in Y0. rewrite Y0. cbn [bind].
    rewrite (item_values _ _ _ _ H). cbn [bind]. rewrite in_logical, (proj2 (stamp_type v p P)). cbn [bind]. unfold map_to_evaluated. rewrite flatten_members, <- Em. reflexivity.
  - rewrite (in_disjunction E d f _ items m ms Y L). clear L items.
    assert (T : forall m q, stamps m q -> bool_eval E d (test_of f m) = verdict EQUALS p q).
    { intros m' q W. unfold test_of, cond. eapply stamp_verdict; [cbn; tauto|exact Y|apply yields_lit, (stamp_type m' q W)|exact P|exact W]. }
    revert m ps F. induction ms as [|m' ms IH]; intros m ps F; inversion F as [|? q ? ps' Wq F']; subst.
    + inversion F'; subst. cbn [map or_chain]. rewrite (T m q Wq). cbn [lists fold_right]. destruct (verdict EQUALS p q) as [[]|]; reflexivity.
    + cbn [map or_chain]. rewrite eval_or. rewrite (T m q Wq). cbn [lists fold_right]. destruct (verdict EQUALS p q) as [[]|]; try reflexivity. cbn [bind]. exact (IH m' ps' F').
Qed.
Lemma stamps_both ms ms' : Forall2 same_stamp ms ms' -> exists ps, Forall2 stamps ms ps /\ Forall2 stamps ms' ps.
Proof.
  induction 1 as [|m m' ms ms' H _ [ps [F F']]]; [exists []; split; constructor|]. apply same_stamps in H. destruct H as [p [P P']]. exists (p :: ps). split; constructor; assumption.
Qed.

Lemma stamped_answer E d d' n : stamped E d d' n -> bool_eval E d n = bool_eval E d' n.
Proof.
  induction 1 as [l r op t O [v [v' [Yl [Yl' Sl]]]] [w [w' [Yr [Yr' Sr]]]]|f items ms ms' [v [v' [Y [Y' Sv]]]] L L' F|n R|n _ IH|l r op O _ IH1 _ IH2].
  - apply same_stamps in Sl, Sr. destruct Sl as [p [P P']]. destruct Sr as [q [R R']].
    rewrite (stamp_verdict E d l r op t v w p q O Yl Yr P R). symmetry. exact (stamp_verdict E d' l r op t v' w' p q O Yl' Yr' P' R').
  - apply same_stamps in Sv. destruct Sv as [p [P P']]. destruct (stamps_both ms ms' F) as [ps [M M']].
    rewrite (in_stamps E d f v p items ms ps Y P L M). symmetry. exact (in_stamps E d' f v' p items ms' ps Y' P' L' M').
  - apply received_answer, R.
  - cbn [bool_eval]. rewrite IH. reflexivity.
  - destruct O as [-> | ->]; cbn [bool_eval]; rewrite IH1, IH2; reflexivity.
Qed.
Lemma stamped_text E d d' dflt s ws n : passage Nothing s ws n -> stamped E d d' n -> evaluate_boolean E (unwords ws) d dflt = evaluate_boolean E (unwords ws) d' dflt.
Proof. intros P M. rewrite (proj1 (passage_value E d dflt _ _ _ P)), (proj1 (passage_value E d' dflt _ _ _ P)). apply stamped_answer, M. Qed.

(** ** Operands *)
Lemma field_time E d d' f v w : to_lower f <> J "null" -> arith_eval E d (NField (Some f)) = Ok v -> arith_eval E d' (NField (Some f)) = Ok w -> same_stamp v w ->
  same_time E d d' (NField (Some f)).
Proof.
  intros F H H' S0. apply same_stamps in S0. destruct S0 as [p [P P']]. exists v, w.
  assert (W : ~ null_word (NField (Some f))) by (intros [g [G X]]; injection G as <-; contradiction).
  split; [split; [exact H|split; [apply (stamp_type v p P)|exact W]]|]. split; [split; [exact H'|split; [apply (stamp_type w p P')|exact W]]|]. apply same_stamps. exists p. auto.
Qed.
Lemma literal_time E d d' t v : same_stamp v v -> same_time E d d' (NUnary t v).
Proof.
  intros S0. assert (S1 := S0). apply same_stamps in S1. destruct S1 as [p [P _]].
  assert (Y : forall e, yields E e (NUnary t v) v) by (intros e; split; [reflexivity|split; [apply (stamp_type v p P)|intros [g [G _]]; discriminate]]).
  exists v, v. auto.
Qed.
Lemma elapsed_same E d d' n y m dd s : arith_eval E d n = Ok (VDate (Date y m dd)) -> arith_eval E d' n = Ok (VStr s) -> plain_text y m dd s -> 1 <= y -> calendar (Date y m dd) ->
  arith_eval E d (NFunc F_DAYS_ELAPSED [n]) = arith_eval E d' (NFunc F_DAYS_ELAPSED [n]).
Proof.
  intros H H' P Y C. rewrite (elapsed_text E d' n y m dd s H' P Y C). cbn [arith_eval]. rewrite H. reflexivity.
Qed.
