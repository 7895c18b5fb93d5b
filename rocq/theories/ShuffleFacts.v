(** The order of the members of a collection. *)
From Coq Require Import QArith Permutation.
From Verif Require Import RecoverFacts.
From Verif Require Import Base JNum BigDec Dates Values Ops Funcs Ast Eval Api SpecNum SpecBool SpecCompare SpecArith SpecFunc SpecDate SpecLex SpecPath SpecSyntax SpecText SpecChain SpecTrend SpecRepr SpecMixed SpecForm SpecCourse SpecStamp SpecOrder SpecShuffle SpecList
  NumFacts BoolFacts CompareFacts FieldFacts MemberFacts FuncFacts MixedFacts ListTests ArgOrder ChainFacts ChainText ReprFacts FormFacts StampFacts.
Local Open Scope Z_scope.

Definition unopposed (x y : res bool) : Prop := forall a b, x = Ok a -> y = Ok b -> a = b.
Lemma any_true {A} (f : A -> res bool) l : anyM f l = Ok true -> exists a, In a l /\ f a = Ok true.
Proof.
  induction l as [|a l IH]; cbn [anyM]; [discriminate|]. destruct (f a) as [[]|] eqn:Fa; cbn [bind]; [intros _; exists a; split; [left; reflexivity|exact Fa]| |discriminate].
  intros H. destruct (IH H) as [x [Hx Fx]]. exists x. split; [right; exact Hx|exact Fx].
Qed.
Lemma any_false {A} (f : A -> res bool) l : anyM f l = Ok false -> forall a, In a l -> f a = Ok false.
Proof.
  induction l as [|a l IH]; cbn [anyM]; [intros _ x []|]. destruct (f a) as [[]|] eqn:Fa; cbn [bind]; try discriminate. intros H x [<- | X]; [exact Fa|exact (IH H x X)].
Qed.
Lemma all_true {A} (f : A -> res bool) l : allM f l = Ok true -> forall a, In a l -> f a = Ok true.
Proof.
  induction l as [|a l IH]; cbn [allM]; [intros _ x []|]. destruct (f a) as [[]|] eqn:Fa; cbn [bind]; try discriminate. intros H x [<- | X]; [exact Fa|exact (IH H x X)].
Qed.
Lemma all_false {A} (f : A -> res bool) l : allM f l = Ok false -> exists a, In a l /\ f a = Ok false.
Proof.
  induction l as [|a l IH]; cbn [allM]; [discriminate|]. destruct (f a) as [[]|] eqn:Fa; cbn [bind]; [|intros _; exists a; split; [left; reflexivity|exact Fa]|discriminate].
  intros H. destruct (IH H) as [x [Hx Fx]]. exists x. split; [right; exact Hx|exact Fx].
Qed.
Lemma any_members {A} (f g : A -> res bool) l l' : (forall a, unopposed (f a) (g a)) -> (forall a, In a l <-> In a l') -> unopposed (anyM f l) (anyM g l').
Proof.
  intros U M [] [] H H'; try reflexivity.
  - destruct (any_true f l H) as [x [X Fx]]. apply (U x true false Fx). apply (any_false g l' H' x), M, X.
  - destruct (any_true g l' H') as [x [X Gx]]. apply (U x false true); [|exact Gx]. apply (any_false f l H x), M, X.
Qed.
Lemma all_members {A} (f g : A -> res bool) l l' : (forall a, unopposed (f a) (g a)) -> (forall a, In a l <-> In a l') -> unopposed (allM f l) (allM g l').
Proof.
  intros U M [] [] H H'; try reflexivity.
  - destruct (all_false g l' H') as [x [X Gx]]. apply (U x true false); [|exact Gx]. apply (all_true f l H x), M, X.
  - destruct (all_false f l H) as [x [X Fx]]. apply (U x false true Fx). apply (all_true g l' H' x), M, X.
Qed.
Lemma any_answers {A} (f : A -> res bool) l : (forall a, In a l -> exists b, f a = Ok b) -> exists b, anyM f l = Ok b.
Proof.
  induction l as [|a l IH]; intros H; [exists false; reflexivity|]. cbn [anyM]. destruct (H a (or_introl eq_refl)) as [b ->]. cbn [bind].
  destruct b; [exists true; reflexivity|]. apply IH. intros x X. apply H. right. exact X.
Qed.
Lemma all_answers {A} (f : A -> res bool) l : (forall a, In a l -> exists b, f a = Ok b) -> exists b, allM f l = Ok b.
Proof.
  induction l as [|a l IH]; intros H; [exists true; reflexivity|]. cbn [allM]. destruct (H a (or_introl eq_refl)) as [b ->]. cbn [bind].
  destruct b; [|exists false; reflexivity]. apply IH. intros x X. apply H. right. exact X.
Qed.
Lemma unopposed_same x : unopposed x x. Proof. intros a b H H'. congruence. Qed.

(** ** Membership tests *)
Lemma in_elements E d f items v ms : arith_eval E d (NField (Some f)) = Ok v -> elements E d items ms ->
  bool_eval E d (NIn (Some f) items) = (x <- is_valid (get_data_type v) v ;; if x then anyM (equals v) ms else Err InvalidDataType).
Proof.
  intros F H. destruct (elements_eval _ _ _ _ H) as (vs & Hi & ->). rewrite in_unfold. cbn [arith_eval] in F. rewrite F. cbn [bind]. rewrite Hi. cbn [bind].
  rewrite in_logical. unfold map_to_evaluated, eval_in. rewrite anyM_map. reflexivity.
Qed.
Lemma all_ext {A} (f g : A -> res bool) l : (forall a, f a = g a) -> allM f l = allM g l.
Proof. intros H. induction l as [|a l IH]; [reflexivity|]. cbn [allM]. rewrite H, IH. reflexivity. Qed.
Lemma any_ext {A} (f g : A -> res bool) l : (forall a, f a = g a) -> anyM f l = anyM g l.
Proof. intros H. induction l as [|a l IH]; [reflexivity|]. cbn [anyM]. rewrite H, IH. reflexivity. Qed.
Definition shows (have : list jval) (m : jval) : res bool := anyM (fun h => eval_equals m (get_data_type m) (h, STRING)) have.
Lemma contains_elements E d f (q : bool) items have ms : arith_eval E d (NField (Some f)) = Ok (VColl true have) -> elements E d items ms ->
  bool_eval E d (NArray (Some f) (if q then CONTAINS_ALL else CONTAINS_ANY) items) =
    if heterogeneous (map (fun v => (v, get_data_type v)) ms) then Err HeterogeneousArray else if q then allM (shows have) ms else anyM (shows have) ms.
Proof.
  intros F H. rewrite (array_elements _ _ _ _ _ _ _ F H), contains_logical. unfold eval_contains. cbn [container_is_valid]. rewrite allM_true by reflexivity. cbn [bind].
  assert (A : forall m, eval_in m (get_data_type m) (map (fun a => (a, STRING)) have) = shows have m) by (intros m; unfold eval_in, shows; rewrite anyM_map; reflexivity).
  destruct (heterogeneous _); [reflexivity|]. destruct q; [rewrite allM_map|rewrite anyM_map]; [apply all_ext|apply any_ext]; exact A.
Qed.
Lemma contains_by op : In op [CONTAINS_ALL; CONTAINS_ANY] -> exists q : bool, op = if q then CONTAINS_ALL else CONTAINS_ANY.
Proof. intros [<- | [<- | []]]; [exists true|exists false]; reflexivity. Qed.

Lemma shuffled_unopposed E d d' n : shuffled E d d' n -> unopposed (bool_eval E d n) (bool_eval E d' n).
Proof.
  induction 1 as [f items v ms ms' F F' L L' M|f op items have have' ms ms' O F F' Mh L L' M|n S0|n _ IH|l r op O _ IH1 _ IH2].
  - rewrite (in_elements E d f items v ms F L), (in_elements E d' f items v ms' F' L'). destruct (is_valid (get_data_type v) v) as [[]|]; cbn [bind]; try apply unopposed_same.
    apply any_members; [intros a; apply unopposed_same|exact M].
  - destruct (contains_by op O) as [q ->]. rewrite (contains_elements E d f q items have ms F L), (contains_elements E d' f q items have' ms' F' L').
    assert (U : forall m, unopposed (shows have m) (shows have' m)) by (intros m; apply any_members; [intros a; apply unopposed_same|exact Mh]).
    destruct (heterogeneous _); [intros a b Ha; discriminate|]. destruct (heterogeneous _); [intros a b _ Hb; discriminate|].
    destruct q; [apply all_members|apply any_members]; assumption.
  - rewrite (stamped_answer E d d' n S0). apply unopposed_same.
  - cbn [bool_eval]. intros a b H H'. destruct (bool_eval E d n) as [x|]; [|discriminate]. destruct (bool_eval E d' n) as [y|]; [|discriminate].
    cbn [bind] in H, H'. specialize (IH x y eq_refl eq_refl). congruence.
  - cbn [bool_eval]. intros a b H H'. destruct (bool_eval E d l) as [x|]; [|destruct O; subst; discriminate]. destruct (bool_eval E d' l) as [y|]; [|destruct O; subst; discriminate].
    assert (x = y) as -> by (apply IH1; reflexivity).
    destruct O as [-> | ->]; cbn [bind] in H, H'; destruct y; try (apply IH2; assumption); congruence.
Qed.
Lemma shuffled_text E d d' dflt s ws n a b : passage Nothing s ws n -> shuffled E d d' n -> evaluate_boolean E (unwords ws) d dflt = Ok a -> evaluate_boolean E (unwords ws) d' dflt = Ok b -> a = b.
Proof. intros P M. rewrite (proj1 (passage_value E d dflt _ _ _ P)), (proj1 (passage_value E d' dflt _ _ _ P)). apply shuffled_unopposed, M. Qed.

(** ** Exactly the same outcome *)
Lemma in_exact E d d' f items v ms ms' : arith_eval E d (NField (Some f)) = Ok v -> arith_eval E d' (NField (Some f)) = Ok v ->
  elements E d items ms -> elements E d' items ms' -> same_members ms ms' -> (forall m, In m ms -> exists b, equal_to v m (Ok b)) -> (exists a, stands v a) -> (forall m, In m ms -> exists t, member_type m t) ->
  bool_eval E d (NIn (Some f) items) = bool_eval E d' (NIn (Some f) items).
Proof.
  intros F F' L L' M T [a Sv] Mt. rewrite (in_elements E d f items v ms F L), (in_elements E d' f items v ms' F' L'). destruct (is_valid (get_data_type v) v) as [[]|]; cbn [bind]; try reflexivity.
  assert (G : forall m, In m ms -> exists b, equals v m = Ok b) by (intros m I0; destruct (T m I0) as [b B]; exists b; apply (equal_eval v a m Sv (Mt m I0)), B).
  destruct (any_answers (equals v) ms G) as [x X]. destruct (any_answers (equals v) ms' (fun m I0 => G m (proj2 (M m) I0))) as [y Y]. rewrite X, Y. f_equal.
  exact (any_members (equals v) (equals v) ms ms' (fun m => unopposed_same _) M x y X Y).
Qed.
Lemma one_type ms : heterogeneous (map (fun v => (v, get_data_type v)) ms) = false <-> forall m m', In m ms -> In m' ms -> get_data_type m = get_data_type m'.
Proof.
  destruct ms as [|m ms]; [split; [intros _ x y []|reflexivity]|]. cbn [map heterogeneous]. rewrite negb_false_iff, forallb_forall. split.
  - intros H. assert (G : forall x, In x (m :: ms) -> get_data_type x = get_data_type m).
    { intros x [<- | X]; [reflexivity|]. specialize (H (x, get_data_type x) (in_map (fun v => (v, get_data_type v)) ms x X)). cbn [snd] in H. destruct (get_data_type x), (get_data_type m); try discriminate H; reflexivity. }
    intros x y X Y. rewrite (G x X), (G y Y). reflexivity.
  - intros H e I0. apply in_map_iff in I0. destruct I0 as [x [<- X]]. cbn [snd]. rewrite (H x m); [destruct (get_data_type m); reflexivity|right; exact X|left; reflexivity].
Qed.
Lemma contains_exact E d d' f op items have have' ms ms' : In op [CONTAINS_ALL; CONTAINS_ANY] ->
  arith_eval E d (NField (Some f)) = Ok (VColl true have) -> arith_eval E d' (NField (Some f)) = Ok (VColl true have') -> same_members have have' ->
  elements E d items ms -> elements E d' items ms' -> same_members ms ms' -> ~ In VNull have -> ~ In VNull ms ->
  bool_eval E d (NArray (Some f) op items) = bool_eval E d' (NArray (Some f) op items).
Proof.
  intros O F F' Mh L L' M Nh N. destruct (contains_by op O) as [q ->]. rewrite (contains_elements E d f q items have ms F L), (contains_elements E d' f q items have' ms' F' L').
  assert (Het : heterogeneous (map (fun v => (v, get_data_type v)) ms) = heterogeneous (map (fun v => (v, get_data_type v)) ms')).
  { destruct (heterogeneous (map (fun v => (v, get_data_type v)) ms')) eqn:H'.
    - destruct (heterogeneous (map (fun v => (v, get_data_type v)) ms)) eqn:H; [reflexivity|]. rewrite one_type in H. assert (X : heterogeneous (map (fun v => (v, get_data_type v)) ms') = false) by (apply one_type; intros x y X Y; apply H; apply M; assumption).
      congruence.
    - apply one_type. rewrite one_type in H'. intros x y X Y. apply H'; apply M; assumption. }
  rewrite Het; clear Het. destruct (heterogeneous _); [reflexivity|].
  assert (G : forall hs, ~ In VNull hs -> forall m, m <> VNull -> exists b, shows hs m = Ok b).
  { intros hs Nhs m Nm. apply any_answers. intros h I0. exists (same_text m h). apply prints_eval. constructor; [exact Nm|]. intros ->. contradiction. }
  assert (Nh' : ~ In VNull have') by (intros X; apply Nh, Mh, X). assert (N' : ~ In VNull ms') by (intros X; apply N, M, X).
  assert (G1 : forall m, In m ms -> exists b, shows have m = Ok b) by (intros m I0; apply G; [exact Nh|intros ->; contradiction]).
  assert (G2 : forall m, In m ms' -> exists b, shows have' m = Ok b) by (intros m I0; apply G; [exact Nh'|intros ->; contradiction]).
  assert (U : forall m, unopposed (shows have m) (shows have' m)) by (intros m; apply any_members; [intros a; apply unopposed_same|exact Mh]).
  destruct q.
  - destruct (all_answers _ ms G1) as [x X]. destruct (all_answers _ ms' G2) as [y Y]. rewrite X, Y. f_equal. exact (all_members _ _ ms ms' U M x y X Y).
  - destruct (any_answers _ ms G1) as [x X]. destruct (any_answers _ ms' G2) as [y Y]. rewrite X, Y. f_equal. exact (any_members _ _ ms ms' U M x y X Y).
Qed.

(** ** From the fields to the members *)
Lemma reordered_members v w : reordered v w -> Permutation (members v) (members w).
Proof. intros [-> | [b [l [l' [-> [-> P]]]]]]; [apply Permutation_refl|exact P]. Qed.
Lemma reordered_elements E d d' items ms : elements E d items ms -> (forall i v, In i items -> element E d i (Ok v) -> exists w, element E d' i (Ok w) /\ reordered v w) ->
  exists ms', elements E d' items ms' /\ Permutation ms ms'.
Proof.
  intros (vs & F & ->) R. assert (G : exists ws, Forall2 (fun i v => element E d' i (Ok v)) items ws /\ Permutation (flat_map members vs) (flat_map members ws)).
  { induction F as [|i v is vs Hi _ IH]; [exists []; split; [constructor|constructor]|]. destruct (R i v (or_introl eq_refl) Hi) as [w [Hw P]].
    destruct IH as [ws [Fw Pw]]; [intros j x J; apply R; right; exact J|]. exists (w :: ws). split; [constructor; assumption|]. cbn [flat_map]. apply Permutation_app; [apply reordered_members, P|exact Pw]. }
  destruct G as [ws [Fw Pw]]. exists (flat_map members ws). split; [exists ws; auto|exact Pw].
Qed.
Lemma permuted_members l l' : Permutation l l' -> same_members l l'.
Proof. intros P m. split; apply Permutation_in; [exact P|apply Permutation_sym, P]. Qed.
Lemma call_reordered E d d' f items ms ms' : f <> F_MODE -> arguments E d items ms -> arguments E d' items ms' -> Permutation ms ms' -> ~ In VNull ms ->
  same_outcome (arith_eval E d (NFunc f items)) (arith_eval E d' (NFunc f items)).
Proof. intros Hf A A' P N. rewrite (function_arguments E d f items ms A), (function_arguments E d' f items ms' A'). apply function_order; auto. Qed.
Lemma call_measure E d d' f items ms ms' v q : f <> F_MODE -> arguments E d items ms -> arguments E d' items ms' -> Permutation ms ms' -> ~ In VNull ms ->
  arith_eval E d (NFunc f items) = Ok v -> number v q -> same_measure E d d' (NFunc f items).
Proof.
  intros Hf A A' P N H Hq. assert (W : ~ null_word (NFunc f items)) by (intros [g [G _]]; discriminate).
  assert (X : exists w, arith_eval E d' (NFunc f items) = Ok w /\ number w q).
  { destruct (call_reordered E d d' f items ms ms' Hf A A' P N) as [X|[a [b [X [Y Z]]]]].
    - exists v. rewrite <- X. auto.
    - exists (VDec b). split; [exact Y|]. assert (v = VDec a) as -> by congruence. inversion Hq; subst. constructor. rewrite <- Z. assumption. }
  destruct X as [w [Hw Nw]]. exists v, w. split; [split; [exact H|split; [intros ->; inversion Hq|exact W]]|]. split; [split; [exact Hw|split; [intros ->; inversion Nw|exact W]]|]. exists q. auto.
Qed.
