(** Equal values that may take each other's place. *)
From Coq Require Import QArith.
From Verif Require Import RecoverFacts.
From Verif Require Import Base JNum BigDec Dates Version Values Ops Funcs Ast Eval Api SpecNum SpecBool SpecCompare SpecArith SpecFunc SpecDate SpecMixed SpecStamp SpecPlace
  NumFacts BoolFacts CompareFacts OrderFacts VersionFacts MixedFacts DateFacts FormFacts CourseFacts StampFacts.
Local Open Scope Z_scope.

Lemma meeting_comm op a b : meeting op a b = meeting (mirrored op) b a.
Proof. destruct op, a, b; reflexivity. Qed.
Lemma mirrored_answer op c : answer (mirrored op) (CompOpp c) = answer op c.
Proof. destruct op, c; reflexivity. Qed.
Lemma asking_some op : In op asking -> accepts op Eq <> None.
Proof. intros O. destruct (asking_accepts op Eq O) as [z H]. rewrite H. discriminate. Qed.
Lemma asking_mirrored op : In op asking -> In (mirrored op) asking.
Proof. cbn [In asking]. intros O. decompose [or] O; subst; cbn; tauto. Qed.
Lemma incomparable_comm op v w a b : incomparable op v w a b -> incomparable (mirrored op) w v b a.
Proof. intros H t m m' M [R R']. rewrite <- meeting_comm in M. exact (H t m' m M (conj R' R)). Qed.

Lemma mirror E d l r op v w a b : In op asking -> yields E d l v -> yields E d r w -> stands v a -> stands w b ->
  bool_eval E d (cond l op r) = bool_eval E d (cond r (mirrored op) l).
Proof.
  intros O Yl Yr Sv Sw. assert (A := asking_some op O). assert (A' := asking_some _ (asking_mirrored op O)).
  destruct (mixed_comparison E d l r op Eq v w a b A Yl Yr Sv Sw) as (_ & Bad & [H|(t & m & m' & c & x & M & R & R' & C & X)]).
  - rewrite (Bad H). symmetry. eapply mixed_comparison; eauto. apply incomparable_comm, H.
  - assert (G : bool_eval E d (cond l op r) = Ok x) by (eapply mixed_comparison; eauto). rewrite G. symmetry.
    rewrite (cond_yields _ _ _ _ _ _ _ Yr Yl). rewrite (cond_yields _ _ _ _ _ _ _ Yl Yr) in G.
    destruct (stands_type v a Sv) as (Tv & _ & _), (stands_type w b Sw) as (Tw & _ & _). rewrite Tv, Tw in *.
    rewrite (logical_mixed op Eq) in G by assumption. rewrite (logical_mixed _ Eq) by assumption. rewrite <- meeting_comm. rewrite M in *.
    destruct (compare_as t v w) as [c'|e] eqn:Cm; [|discriminate G]. rewrite (compare_as_swap _ _ _ _ Cm). cbn [bind] in *. rewrite mirrored_answer. exact G.
Qed.

Lemma reads_itself v a : stands v a -> exists m, read_as v a m.
Proof.
  intros S. destruct (stands_type v a S) as (_ & Nv & V). destruct (dtype_eqb a STRING) eqn:T.
  - destruct a; try discriminate T. eexists. apply read_text.
  - assert (Na : a <> STRING) by (intros ->; discriminate T). rewrite (is_valid_primitive a v Na Nv) in V.
    destruct (primitive_value a v) as [x|] eqn:P; [|discriminate V]. apply (converts_read v a a x S); [|exact P]. destruct a; cbn; repeat split; discriminate || auto.
Qed.
Lemma itself E d l r v a : yields E d l v -> yields E d r v -> stands v a ->
  bool_eval E d (cond l EQUALS r) = Ok true /\ (a <> BOOLEAN -> bool_eval E d (cond l LESS_THAN_EQUAL r) = Ok true /\ bool_eval E d (cond l GREATER_THAN_EQUAL r) = Ok true).
Proof.
  intros Yl Yr S. destruct (reads_itself v a S) as [m0 R0].
  assert (G : forall op, In op asking -> meeting op a a = Some a -> bool_eval E d (cond l op r) = answer op Eq).
  { intros op O M. assert (A := asking_some op O).
    destruct (mixed_comparison E d l r op Eq v v a a A Yl Yr S S) as (Good & _ & [H|(t & m & m' & c & x & Mt & R & R' & C & X)]).
    - exfalso. exact (H a m0 m0 M (conj R0 R0)).
    - assert (K : bool_eval E d (cond l op r) = Ok x) by exact (Good t m m' c x Mt R R' C X). rewrite K. rewrite (cond_yields _ _ _ _ _ _ _ Yl Yr) in K.
      destruct (stands_type v a S) as (Tv & _ & _). rewrite Tv, (logical_mixed op Eq), M in K by assumption.
      destruct (compare_as a v v) as [c'|e] eqn:Cm; [|discriminate K]. assert (Cs := compare_as_swap _ _ _ _ Cm). rewrite Cm in Cs.
      cbn [bind] in K. rewrite <- K. destruct c'; [reflexivity|discriminate Cs|discriminate Cs]. }
  split; [apply (G EQUALS); [cbn; tauto|destruct a; reflexivity]|]. intros Nb. split; [apply (G LESS_THAN_EQUAL)|apply (G GREATER_THAN_EQUAL)]; try (cbn; tauto); destruct a; try reflexivity; congruence.
Qed.

(** What an ordinary value is. *)
Inductive essence := EN (q : Q) | EB (b : bool) | ES (p : date + datetime).
Definition has_essence (v : jval) (e : essence) : Prop :=
  match e with EN q => number v q | EB b => v = VBool b | ES p => stamps v p end.
Lemma ordinary_essence v : ordinary v -> exists e, has_essence v e.
Proof. intros [w q H|b|w a H|w x H]; [exists (EN q)|exists (EB b)|exists (ES (inl a))|exists (ES (inr x))]; cbn; auto. Qed.
Definition essence_type (v : jval) (e : essence) : dtype :=
  match e with EN _ => get_data_type v | EB _ => BOOLEAN | ES (inl _) => DATE | ES (inr _) => DATETIME end.
Lemma essence_stands v e : has_essence v e -> stands v (essence_type v e).
Proof.
  destruct e as [q|b|[a|x]]; cbn; intros H.
  - inversion H; subst; cbn; try (constructor; assumption). econstructor; eassumption.
  - subst. constructor.
  - econstructor; exact H.
  - econstructor; exact H.
Qed.
Definition out (op : operator) (e f : essence) : res bool :=
  match e, f with
  | EN p, EN q => answer op (p ?= q)%Q
  | EB b, EB c => evaluate_logical op PRIMITIVE (VBool b) BOOLEAN [(VBool c, BOOLEAN)]
  | ES p, ES q => verdict op p q
  | _, _ => Err InvalidDataType
  end.
Lemma question_asked op p q : In op asking -> question op p q = accepts op (p ?= q)%Q.
Proof.
  intros O. assert (Eb : Qeq_bool p q = match (p ?= q)%Q with Eq => true | _ => false end).
  { destruct (p ?= q)%Q eqn:C; [apply Qeq_bool_iff, Qeq_alt, C| |]; (destruct (Qeq_bool p q) eqn:B; [|reflexivity]; apply Qeq_bool_iff, Qeq_alt in B; congruence). }
  cbn [In asking] in O. decompose [or] O; subst; try contradiction; cbn [question]; rewrite ?Eb, ?Qle_bool_compare; try rewrite <- (Qcompare_antisym p q); destruct (p ?= q)%Q; reflexivity.
Qed.
Lemma number_types v q : number v q -> get_data_type v = INTEGER \/ get_data_type v = LONG \/ get_data_type v = DECIMAL.
Proof. intros H. inversion H; subst; cbn; auto. Qed.
Lemma essence_out E d l r op v w e f : In op asking -> yields E d l v -> yields E d r w -> has_essence v e -> has_essence w f ->
  bool_eval E d (cond l op r) = out op e f.
Proof.
  intros O Yl Yr He Hf. assert (A := asking_some op O). assert (Se := essence_stands v e He). assert (Sf := essence_stands w f Hf).
  destruct e as [p|b|p], f as [q|c|q]; cbn [out].
  - cbn [has_essence] in *. unfold answer. destruct (asking_accepts op (p ?= q)%Q O) as [x X]. rewrite X.
    eapply compare_number_operands; eauto. rewrite question_asked by exact O. exact X.
  - refine (proj1 (unrelated_fail E d l r op Eq v w _ _ A Yl Yr Se Sf _)). left. split; [exact (number_types v p He)|cbn; auto].
  - refine (proj1 (unrelated_fail E d l r op Eq v w _ _ A Yl Yr Se Sf _)). left. split; [exact (number_types v p He)|destruct q; cbn; auto].
  - refine (proj2 (unrelated_fail E d r l op Eq w v _ _ A Yr Yl Sf Se _)). left. split; [exact (number_types w q Hf)|cbn; auto].
  - cbn [has_essence] in *. subst. apply cond_yields; assumption.
  - refine (proj1 (unrelated_fail E d l r op Eq v w _ _ A Yl Yr Se Sf _)). right. left. split; [reflexivity|destruct q; cbn; auto].
  - refine (proj2 (unrelated_fail E d r l op Eq w v _ _ A Yr Yl Sf Se _)). left. split; [exact (number_types w q Hf)|destruct p; cbn; auto].
  - refine (proj2 (unrelated_fail E d r l op Eq w v _ _ A Yr Yl Sf Se _)). right. left. split; [reflexivity|destruct p; cbn; auto].
  - eapply stamp_verdict; eauto.
Qed.
Lemma out_equal e f : out EQUALS e f = Ok true -> forall op g, out op e g = out op f g /\ out op g e = out op g f.
Proof.
  destruct e as [p|b|[a|x]], f as [q|c|[a'|y]]; cbn [out verdict]; intros H; try discriminate H; intros op g.
  - assert (K : (p == q)%Q). { apply Qeq_alt. unfold answer in H. destruct (p ?= q)%Q; [reflexivity|discriminate H|discriminate H]. }
    destruct g as [r|r|r]; cbn [out]; split; try reflexivity; rewrite K; reflexivity.
  - assert (K : b = c) by (destruct b, c; [reflexivity|discriminate H|discriminate H|reflexivity]). subst. split; reflexivity.
  - assert (K : to_epoch_day a = to_epoch_day a'). { apply Z.compare_eq. destruct (to_epoch_day a ?= to_epoch_day a'); [reflexivity|discriminate H|discriminate H]. }
    destruct g as [r|r|[r|r]]; cbn [out verdict]; rewrite ?K; split; reflexivity.
  - assert (K : nanos x = nanos y). { apply Z.compare_eq. destruct (nanos x ?= nanos y); [reflexivity|discriminate H|discriminate H]. }
    destruct g as [r|r|[r|r]]; cbn [out verdict]; rewrite ?K; split; reflexivity.
Qed.

Lemma text_out E d l r op v w : In op asking -> yields E d l v -> yields E d r w -> stands v STRING -> stands w STRING ->
  bool_eval E d (cond l op r) = answer op (jstr_compare (show v) (show w)).
Proof.
  intros O Yl Yr Sv Sw. assert (A := asking_some op O). destruct (asking_accepts op (jstr_compare (show v) (show w)) O) as [x X]. unfold answer. rewrite X.
  eapply mixed_comparison with (t := STRING) (m := AText (show v)) (m' := AText (show w)); eauto; try apply read_text.
  - cbn [In asking] in O. decompose [or] O; subst; try contradiction; reflexivity.
  - constructor. apply text_order_compare. reflexivity.
Qed.
Lemma release_out E d l r op a b : In op asking -> yields E d l (VVer (dotted a)) -> yields E d r (VVer (dotted b)) -> a <> [] -> b <> [] ->
  bool_eval E d (cond l op r) = answer op (components_compare a b).
Proof.
  intros O Yl Yr Na Nb. destruct (asking_accepts op (components_compare a b) O) as [x X]. unfold answer. rewrite X, (cond_yields _ _ _ _ _ _ _ Yl Yr).
  eapply (kind_compare Versions); try discriminate; [eexists; eauto|eexists; eauto|]. cbn [order]. rewrite version_compare_dotted by assumption. exact X.
Qed.
Lemma components_same a b c : components_compare a b = Eq -> components_compare a c = components_compare b c.
Proof.
  intros H. assert (H' : components_compare b a = Eq) by (rewrite components_antisym, H; reflexivity).
  assert (Le : forall x y z, components_compare x y = Eq -> components_compare y z <> Gt -> components_compare x z <> Gt)
    by (intros x y z Hx Hz; apply (components_trans x y z); [rewrite Hx; discriminate|exact Hz]).
  assert (Ge : forall x y z, components_compare x y = Eq -> components_compare y z <> Lt -> components_compare x z <> Lt).
  { intros x y z Hx Hz. rewrite (components_antisym z x). rewrite (components_antisym z y) in Hz. assert (components_compare z y <> Gt) by (destruct (components_compare z y); cbn in *; congruence).
    assert (Hy : components_compare y x <> Gt) by (rewrite components_antisym, Hx; discriminate). assert (K := components_trans z y x H0 Hy). destruct (components_compare z x); cbn; congruence. }
  assert (L1 := Le a b c H). assert (L2 := Le b a c H'). assert (G1 := Ge a b c H). assert (G2 := Ge b a c H').
  destruct (components_compare a c), (components_compare b c); try reflexivity; exfalso;
    first [apply L1; [discriminate|reflexivity]|apply L2; [discriminate|reflexivity]|apply G1; [discriminate|reflexivity]|apply G2; [discriminate|reflexivity]].
Qed.

Lemma replace E d l r x v w u op : In op asking -> one_family [v; w; u] -> yields E d l v -> yields E d r w -> yields E d x u ->
  bool_eval E d (cond l EQUALS r) = Ok true ->
  bool_eval E d (cond l op x) = bool_eval E d (cond r op x) /\ bool_eval E d (cond x op l) = bool_eval E d (cond x op r).
Proof.
  intros O F Yl Yr Yx H. assert (Oe : In EQUALS asking) by (cbn; tauto). destruct F as [F|[F|F]]; inversion F as [|? ? Fv F1]; subst; inversion F1 as [|? ? Fw F2]; subst; inversion F2 as [|? ? Fu _]; subst; clear F F1 F2.
  - destruct (ordinary_essence v Fv) as [e He], (ordinary_essence w Fw) as [f Hf], (ordinary_essence u Fu) as [g Hg].
    rewrite (essence_out E d l r EQUALS v w e f Oe Yl Yr He Hf) in H. destruct (out_equal e f H op g) as [K K'].
    rewrite (essence_out E d l x op v u e g), (essence_out E d r x op w u f g), (essence_out E d x l op u v g e), (essence_out E d x r op u w g f) by assumption. auto.
  - rewrite (text_out E d l r EQUALS v w Oe Yl Yr Fv Fw) in H.
    assert (K : show v = show w). { destruct (jstr_compare (show v) (show w)) eqn:C; try discriminate H. exact (proj2 (text_order_compare _ _ Eq) C). }
    rewrite (text_out E d l x op v u), (text_out E d r x op w u), (text_out E d x l op u v), (text_out E d x r op u w), K by assumption. auto.
  - destruct Fv as (a & Na & ->), Fw as (b & Nb & ->), Fu as (c & Nc & ->). rewrite (release_out E d l r EQUALS a b) in H by assumption.
    assert (K : components_compare a b = Eq) by (destruct (components_compare a b); [reflexivity|discriminate H|discriminate H]).
    rewrite (release_out E d l x op a c), (release_out E d r x op b c), (release_out E d x l op c a), (release_out E d x r op c b) by assumption.
    rewrite (components_antisym a c), (components_antisym b c), (components_same a b c K). auto.
Qed.
Lemma transitive E d l r x v w u : one_family [v; w; u] -> yields E d l v -> yields E d r w -> yields E d x u ->
  bool_eval E d (cond l EQUALS r) = Ok true -> bool_eval E d (cond r EQUALS x) = Ok true -> bool_eval E d (cond l EQUALS x) = Ok true.
Proof. intros F Yl Yr Yx H K. rewrite (proj1 (replace E d l r x v w u EQUALS ltac:(cbn; tauto) F Yl Yr Yx H)). exact K. Qed.
