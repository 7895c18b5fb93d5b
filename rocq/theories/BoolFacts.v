(** Proofs about boolean combinations. *)
From Verif Require Import Base Values Ops Ast Eval SpecBool.

Lemma eval_and : forall E d l r, bool_eval E d (NBool l (Some r) AND) =
  match bool_eval E d l with Ok true => bool_eval E d r | Ok false => Ok false | Err e => Err e end.
Proof. intros. cbn [bool_eval]. destruct (bool_eval E d l) as [[]|]; reflexivity. Qed.
Lemma eval_or : forall E d l r, bool_eval E d (NBool l (Some r) OR) =
  match bool_eval E d l with Ok true => Ok true | Ok false => bool_eval E d r | Err e => Err e end.
Proof. intros. cbn [bool_eval]. destruct (bool_eval E d l) as [[]|]; reflexivity. Qed.
Lemma eval_not : forall E d l r, bool_eval E d (NBool l r NOT) =
  match bool_eval E d l with Ok b => Ok (negb b) | Err e => Err e end.
Proof. intros. cbn [bool_eval]. destruct (bool_eval E d l) as [[]|]; reflexivity. Qed.

Lemma means_functional : forall out f r1 l1, means out f r1 l1 -> forall r2 l2, means out f r2 l2 -> r1 = r2 /\ l1 = l2.
Proof.
  induction 1; intros r2 l2 H2; inversion H2; subst; auto;
    repeat match goal with
    | IH : forall _ _, means _ ?f _ _ -> _, H : means _ ?f _ _ |- _ => apply IH in H; destruct H; subst
    end; try congruence; auto;
    split; try congruence.
Qed.

Lemma means_eval : forall E d f, exists ls, means (bool_eval E d) f (bool_eval E d (tree_of f)) ls.
Proof.
  induction f as [n|f [lf IHf] g [lg IHg]|f [lf IHf] g [lg IHg]|f [lf IHf]].
  - eexists; constructor.
  - cbn [tree_of]. rewrite eval_and. destruct (bool_eval E d (tree_of f)) as [[]|e] eqn:?;
      eexists; eauto using means.
  - cbn [tree_of]. rewrite eval_or. destruct (bool_eval E d (tree_of f)) as [[]|e] eqn:?;
      eexists; eauto using means.
  - cbn [tree_of]. rewrite eval_not. destruct (bool_eval E d (tree_of f)) as [b|e] eqn:?;
      eexists; eauto using means.
Qed.

Lemma means_iff_eval : forall E d f r,
  (exists ls, means (bool_eval E d) f r ls) <-> bool_eval E d (tree_of f) = r.
Proof.
  intros. destruct (means_eval E d f) as [ls H]. split.
  - intros [ms H2]. exact (proj1 (means_functional _ _ _ _ H _ _ H2)).
  - intros <-. eauto.
Qed.

Lemma eval_truth : forall E d v f, (forall n, In n (leaves f) -> bool_eval E d n = Ok (v n)) ->
  bool_eval E d (tree_of f) = Ok (truth v f).
Proof.
  induction f; intros H; cbn [tree_of truth leaves] in *.
  - apply H; left; reflexivity.
  - rewrite eval_and, IHf1, IHf2 by (intros; apply H, in_or_app; auto). destruct (truth v f1); reflexivity.
  - rewrite eval_or, IHf1, IHf2 by (intros; apply H, in_or_app; auto). destruct (truth v f1); reflexivity.
  - rewrite eval_not, IHf by auto. reflexivity.
Qed.

Lemma means_fail_leaf : forall out f r ls, means out f r ls -> forall e, r = Err e -> exists n pre, ls = pre ++ [n] /\ out n = Err e /\
   forall m, In m pre -> exists b, out m = Ok b.
Proof.
  assert (ok : forall out f r ls, means out f r ls -> forall b, r = Ok b -> forall m, In m ls -> exists b, out m = Ok b).
  { induction 1; intros bb Hb m Hm; try discriminate; try (eapply IHmeans; eauto; fail).
    - destruct Hm as [<-|[]]; eauto.
    - apply in_app_or in Hm. destruct Hm; eauto.
    - apply in_app_or in Hm. destruct Hm; eauto. }
  induction 1; intros ee He; try discriminate; try (eapply IHmeans; eauto; fail).
  - exists n, []. repeat split; auto. intros m [].
  - destruct (IHmeans2 _ He) as (n & pre & -> & Hn & Hpre). exists n, (ls ++ pre).
    rewrite app_assoc. repeat split; auto. intros m Hm. apply in_app_or in Hm. destruct Hm; eauto.
  - destruct (IHmeans2 _ He) as (n & pre & -> & Hn & Hpre). exists n, (ls ++ pre).
    rewrite app_assoc. repeat split; auto. intros m Hm. apply in_app_or in Hm. destruct Hm; eauto.
Qed.

Lemma means_leaves : forall out f r ls, means out f r ls -> forall n, In n ls -> In n (leaves f).
Proof.
  intros until 1. induction H; intros n' Hn; cbn [leaves]; auto; try (apply in_app_or in Hn as [|]); apply in_or_app; auto.
Qed.

Lemma eval_fail_leaf : forall E d f e, bool_eval E d (tree_of f) = Err e ->
  exists n ls, means (bool_eval E d) f (Err e) (ls ++ [n]) /\ In n (leaves f) /\ bool_eval E d n = Err e /\
  forall m, In m ls -> exists b, bool_eval E d m = Ok b.
Proof.
  intros E d f e H. destruct (means_eval E d f) as [ls Hm]. rewrite H in Hm.
  destruct (means_fail_leaf _ _ _ _ Hm e eq_refl) as (n & pre & -> & Hn & Hpre).
  exists n, pre. repeat split; auto.
  apply (means_leaves _ _ _ _ Hm). apply in_or_app; right; left; auto.
Qed.

Lemma bool_laws : forall E d, let ev f := bool_eval E d (tree_of f) in forall f g h,
  ev (Not (Not f)) = ev f /\
  ev (Not (And f g)) = ev (Or (Not f) (Not g)) /\
  ev (Not (Or f g)) = ev (And (Not f) (Not g)) /\
  ev (And (And f g) h) = ev (And f (And g h)) /\
  ev (Or (Or f g) h) = ev (Or f (Or g h)) /\
  ev (And f f) = ev f /\
  ev (Or f f) = ev f /\
  ev (And f (Or g h)) = ev (Or (And f g) (And f h)) /\
  ev (Or f (And g h)) = ev (And (Or f g) (Or f h)).
Proof.
  intros E d ev f g h; unfold ev; cbn [tree_of]; repeat (rewrite ?eval_not; rewrite ?eval_and; rewrite ?eval_or).
  destruct (bool_eval E d (tree_of f)) as [[]|], (bool_eval E d (tree_of g)) as [[]|], (bool_eval E d (tree_of h)) as [[]|];
    repeat split; reflexivity.
Qed.

Lemma bool_commutative : forall E d, let ev f := bool_eval E d (tree_of f) in forall f g a b,
  ev f = Ok a -> ev g = Ok b -> ev (And f g) = ev (And g f) /\ ev (Or f g) = ev (Or g f).
Proof.
  intros E d ev f g a b Hf Hg. unfold ev in *. cbn [tree_of]. rewrite !eval_and, !eval_or, Hf, Hg.
  destruct a, b; auto.
Qed.

Lemma bool_not_commutative : exists E d f g, bool_eval E d (tree_of (And f g)) <> bool_eval E d (tree_of (And g f)).
Proof.
  exists (Env (Dates.Date 2024 1 1) (fun _ _ => DNaN) (fun _ _ => DNaN)), [],
    (Leaf (NUnary BOOLEAN (VBool false))), (Leaf (NCmp (NField (Some (J "a"))) (NUnary INTEGER (VInt 1)) EQUALS INTEGER)).
  vm_compute. discriminate.
Qed.
