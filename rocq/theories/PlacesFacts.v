(** Bounds on the number of decimals. *)
From Coq Require Import QArith Lia.
From Verif Require Import RecoverFacts RecoverTexts RecoverOrigin ListenAny SpecRecover AnyText.
From Verif Require Import Base JNum BigDec Dates Values Ops Funcs Ast Eval Lexer Grammar Listener Api SpecLex SpecNum SpecCompare SpecArith SpecFunc SpecDate SpecMixed SpecCompute SpecCall SpecList SpecScale SpecExact SpecPath SpecSize
  LexFacts LexSplit FieldFacts ArithFacts FuncFacts CallFacts ScaleFacts ExactFacts SizeFacts SizeText SpecMeaning MeaningFacts SensibleFacts MeaningText SpecPlaces.
Local Open Scope Z_scope.

(** ** Doubles *)
Lemma odd_part_grows p : forall e, e <= snd (odd_part p e).
Proof. induction p as [p IH|p IH|]; intros e; cbn [odd_part snd]; try lia. specialize (IH (e + 1)). lia. Qed.
Lemma double_places m e y : -1074 <= e -> cast_double (DFin m e) = Ok (VDec y) -> 0 <= scale y <= 1074.
Proof.
  intros G H. unfold cast_double in H. destruct (bd_of_double (DFin m e)) as [b|] eqn:B; [|discriminate H]. cbn [bind] in H.
  destruct ((scale b =? 0) && in_int (unscaled b)); [discriminate H|]. assert (b = y) by congruence. subst b. clear H. unfold bd_of_double in B. destruct m as [|p|p].
  - injection B as <-. cbn. lia.
  - pose proof (odd_part_grows p e) as O. destruct (odd_part p e) as [q f]. cbn [snd] in O. destruct (f <? 0) eqn:L.
    + apply Z.ltb_lt in L. assert (X : y = BD (Zpos q * 5 ^ (- f)) (- f)) by congruence. rewrite X. change (0 <= - f <= 1074). lia.
    + assert (X : y = BD (Zpos q * 2 ^ f) 0) by congruence. rewrite X. change (0 <= 0 <= 1074). lia.
  - pose proof (odd_part_grows p e) as O. destruct (odd_part p e) as [q f]. cbn [snd] in O. destruct (f <? 0) eqn:L.
    + apply Z.ltb_lt in L. assert (X : y = BD (Zneg q * 5 ^ (- f)) (- f)) by congruence. rewrite X. change (0 <= - f <= 1074). lia.
    + assert (X : y = BD (Zneg q * 2 ^ f) 0) by congruence. rewrite X. change (0 <= 0 <= 1074). lia.
Qed.
Lemma power_places E l lt r rt y : true_doubles E -> eval_exponent E l lt r rt = Ok (VDec y) -> 0 <= scale y <= 1074.
Proof.
  intros [A B] H. unfold eval_exponent in H. destruct (either DECIMAL lt rt).
  - destruct (decimal_value l) as [s|]; [|discriminate H]. destruct (decimal_value r) as [t|]; [|discriminate H]. cbn [opt_get bind] in H.
    destruct (pow_dec E s t) as [| |u e] eqn:P; try discriminate H. exact (double_places u e y (B _ _ _ _ P) H).
  - destruct (long_value l) as [s|]; [|discriminate H]. destruct (long_value r) as [t|]; [|discriminate H]. cbn [opt_get bind] in H.
    destruct (pow_long E s t) as [| |u e] eqn:P; try discriminate H. exact (double_places u e y (A _ _ _ _ P) H).
Qed.

(** ** Operations *)
Lemma places_le k k' v : k <= k' -> places k v -> places k' v.
Proof. intros L H b Hb. specialize (H b Hb). lia. Qed.
Lemma held_small v b : held v b -> (forall y, v <> VDec y) -> Z.abs (scale b) <= 1020.
Proof. intros H N. destruct H; cbn [scale]; try lia. exfalso. apply (N b eq_refl). Qed.
Lemma result_places k v : 1020 <= k -> (forall y, v = VDec y -> Z.abs (scale y) <= k) -> places k v.
Proof.
  intros K H b Hb. destruct v; try (assert (X : Z.abs (scale b) <= 1020) by (apply (held_small _ b Hb); discriminate); lia). inversion Hb; subst. apply H. reflexivity.
Qed.
Lemma modulus_whole E v a w b y : evaluate_arithmetic E MODULUS v a (Some (w, b)) = Ok (VDec y) -> False.
Proof.
  unfold evaluate_arithmetic. cbn [arithmetic_types]. destruct (negb _); [discriminate|]. destruct (is_valid a v) as [[]|]; cbn [bind negb]; try discriminate.
  destruct (negb _); [discriminate|]. destruct (match w with VNull => _ | _ => _ end) as [[]|]; cbn [bind negb]; try discriminate. unfold eval_modulus. destruct (either LONG a b).
  - destruct (long_value v) as [m|]; [|discriminate]. destruct (long_value w) as [z|]; [|discriminate]. cbn [opt_get bind]. destruct (z =? 0); discriminate.
  - destruct (integer_value v) as [m|]; [|discriminate]. destruct (integer_value w) as [z|]; [|discriminate]. cbn [opt_get bind]. destruct (z =? 0); discriminate.
Qed.
Lemma exponent_only E v a w b x : evaluate_arithmetic E EXPONENT v a (Some (w, b)) = Ok x -> eval_exponent E v a w b = Ok x.
Proof.
  unfold evaluate_arithmetic. cbn [arithmetic_types]. destruct (negb _); [discriminate|]. destruct (is_valid a v) as [[]|]; cbn [bind negb]; try discriminate.
  destruct (negb _); [discriminate|]. destruct (match w with VNull => _ | _ => _ end) as [[]|]; cbn [bind negb]; try discriminate. auto.
Qed.
Lemma operation_places E d l r op v w y j k : true_doubles E -> arithmetic op -> arith_eval E d l = Ok v -> arith_eval E d r = Ok w ->
  genuine v -> genuine w -> 1074 <= j -> 1074 <= k -> places j v -> places k w -> arith_eval E d (bin l op r) = Ok (VDec y) -> Z.abs (scale y) <= j + k.
Proof.
  intros T A L R Gv Gw J K Pv Pw H. assert (NU : op <> UNARY) by (intros ->; destruct A as [X|[X|[X|[X|[X|[X|[]]]]]]]; discriminate X).
  pose proof H as O. apply (operator_determined E d l r op v w A L R Gv Gw) in O. destruct O as [N O].
  assert (TV : forall u, genuine u -> (u = v \/ u = w) -> exists a, argument_type u a).
  { intros u [t G] U. destruct G as [G|[G|(dbl & s & -> & F & _)]]; [exists t; left; exact G|exists t; right; exact G|].
    exfalso. assert (X : Ok (VDec y) = Err InvalidDataType) by (apply (N dbl s F); destruct U as [<-|<-]; auto). discriminate X. }
  destruct (TV v Gv (or_introl eq_refl)) as [a Ta]. destruct (TV w Gw (or_intror eq_refl)) as [b Tb]. destruct (O a b Ta Tb) as (O1 & O2 & O3).
  assert (Dsu : forall t, supported op t \/ ~ supported op t) by (intros t; clear; destruct op, t; cbn; intuition discriminate).
  assert (Dw : forall t, wordy t \/ ~ wordy t) by (intros t; clear; unfold wordy; destruct t; intuition discriminate).
  destruct (Dsu a) as [Sa|Sa]; [|discriminate O1; intros [X _]; contradiction]. destruct (Dsu b) as [Sb|Sb]; [|discriminate O1; intros [_ X]; contradiction].
  destruct (Dw a) as [Wa|Wa]; [discriminate (O2 Sa Sb (or_introl Wa))|]. destruct (Dw b) as [Wb|Wb]; [discriminate (O2 Sa Sb (or_intror Wb))|].
  destruct (O3 Sa Sb Wa Wb) as (s & t & Hs & Ht & C & D & _). specialize (Pv s Hs). specialize (Pw t Ht). specialize (D y eq_refl).
  destruct A as [X|[X|[X|[X|[X|[X|[]]]]]]]; subst op; cbn in D; try lia.
  - exfalso. rewrite (bin_eval E d l MODULUS r NU), L, R in H. cbn [bind] in H. apply modulus_whole in H. exact H.
  - rewrite (bin_eval E d l EXPONENT r NU), L, R in H. cbn [bind] in H. apply exponent_only in H. apply (power_places _ _ _ _ _ _ T) in H. lia.
Qed.
Lemma negation_places E d l v y k : arith_eval E d l = Ok v -> genuine v -> places k v -> arith_eval E d (NArith l None UNARY) = Ok (VDec y) -> Z.abs (scale y) <= k.
Proof.
  intros L [t G] P H. apply (negation_determined E d l v L ltac:(exists t; exact G)) in H. destruct H as [N O].
  assert (T : exists a, argument_type v a).
  { destruct G as [G|[G|(dbl & s & -> & F & _)]]; [exists t; left; exact G|exists t; right; exact G|]. discriminate (N dbl s F eq_refl). }
  destruct T as [a T]. destruct (O a T) as [Ng D]. destruct v; try discriminate Ng; cbn [negates] in Ng; try (destruct Ng as (u & _ & X); discriminate X).
  rewrite (D d0 y eq_refl eq_refl). apply P. apply held_dec.
Qed.

(** ** Calls *)
Lemma most_places k bs : 0 <= k -> Forall (fun b => Z.abs (scale b) <= k) bs -> 0 <= most_decimals bs <= k.
Proof. intros K H. unfold most_decimals. induction H as [|b bs Hb _ IH]; cbn [map fold_right]; lia. Qed.
Lemma held_places k ms bs : Forall (places k) ms -> Forall2 held ms bs -> Forall (fun b => Z.abs (scale b) <= k) bs.
Proof. intros P H. induction H as [|m b ms bs Hb _ IH]; [constructor|]. inversion P; subst. constructor; auto. Qed.
Lemma days_whole E items y : evaluate_function E F_DAYS_ELAPSED items = Ok (VDec y) -> False.
Proof.
  unfold evaluate_function. destruct items as [|i l]; [discriminate|]. destruct (negb _); [discriminate|]. destruct (negb _); [discriminate|]. destruct (validate_items _); [|discriminate]. cbn [bind func_evaluate].
  unfold eval_days_elapsed. destruct i as [v t]. destruct l; [|discriminate]. destruct v; try discriminate. destruct (parse_iso_date _); discriminate.
Qed.
Lemma call_places E d f items ms y k : calendar (today E) -> arguments E d items ms -> Forall genuine ms -> 3 <= k -> Forall (places k) ms ->
  arith_eval E d (NFunc f items) = Ok (VDec y) -> Z.abs (scale y) <= k.
Proof.
  intros Cal A G K P H. pose proof H as C. apply (call_determined E d f items ms Cal A G) in C. destruct C as [N C].
  destruct (arguments_kinds ms G) as [[ts T]|(dbl & t & In0 & F)];
    [|destruct (N dbl t F In0) as [X1 X2]; destruct (takes_dec f (length ms)) as [Tk|Tk]; [discriminate (X1 Tk)|discriminate (X2 Tk)]].
  destruct (C ts T) as [(O1 & O2 & O3 & O4) D]. assert (Ne : ms <> []) by (intros Z0; discriminate (O1 Z0)).
  destruct (takes_dec f (length ms)) as [Tk|Tk]; [|discriminate (O2 Ne Tk)]. destruct (func_supported_dec f ts) as [Su|Su]; [|discriminate (O3 Ne Tk Su)]. specialize (O4 Ne Tk Su).
  assert (Lf : list_function f \/ (f = F_INT \/ f = F_LEN \/ f = F_DAYS_ELAPSED)) by (destruct f; try (left; listf); tauto).
  destruct Lf as [Lf|Lf].
  - assert (Tw : (2 <= length ms)%nat) by (destruct f; cbn [takes] in Tk; try exact Tk; exfalso; clear -Lf; unfold list_function in Lf; cbn in Lf; intuition discriminate).
    destruct (supported_numbers f ms ts (or_introl Lf) T Su) as (qs & Hq & _).
    assert (B : exists bs, Forall2 held ms bs).
    { clear -Hq. induction Hq as [|v q ms qs Hv _ [bs IH]]; [exists []; constructor|]. destruct (number_held v q Hv) as (b & Hb & _). exists (b :: bs). constructor; assumption. }
    destruct B as [bs Hb]. pose proof (held_places k ms bs P Hb) as Pb. rewrite Forall_forall in Pb. specialize (D bs Hb Tw y eq_refl).
    destruct f; cbn in D; try (exfalso; clear -Lf; unfold list_function in Lf; cbn in Lf; intuition discriminate).
    + destruct (decimal_among ms) as [Dm|Dm]; [|rewrite (proj2 D Dm); cbn; lia]. destruct (proj1 D Dm) as (b1 & b2 & -> & _). apply Pb, in_elt.
    + destruct (decimal_among ms) as [Dm|Dm]; [|rewrite (proj2 D Dm); cbn; lia]. destruct (proj1 D Dm) as (b1 & b2 & -> & _). apply Pb, in_elt.
    + destruct (decimal_among ms) as [Dm|Dm]; [rewrite (proj1 D Dm)|rewrite (proj2 D Dm)]; cbn; lia.
    + rewrite D. pose proof (most_places k bs ltac:(lia) ltac:(apply Forall_forall; exact Pb)). lia.
    + destruct (decimal_among ms) as [Dm|Dm]; [rewrite (proj1 D Dm)|rewrite (proj2 D Dm)]; cbn; lia.
    + destruct D as (n & b1 & b2 & -> & _). rewrite Forall_forall in P. apply (P (VDec y)); [apply in_elt|apply held_dec].
    + destruct (Nat.even (length ms)) eqn:Ev; [rewrite (proj1 D eq_refl); cbn; lia|]. assert (Od : Nat.odd (length ms) = true) by (unfold Nat.odd; rewrite Ev; reflexivity).
      destruct (proj2 D Od) as (b1 & b2 & -> & _). apply Pb, in_elt.
  - exfalso. destruct Lf as [-> |[-> | ->]]; cbn [takes] in Tk; cbn [gives] in O4.
    + destruct ms as [|m [|]]; try discriminate Tk. destruct (O4 m eq_refl) as (q & z & u & _ & _ & _ & X). discriminate X.
    + destruct O4 as [X1 X2]. destruct ms as [|m [|m' ms]]; [contradiction| |discriminate X2; intros s X; discriminate X].
      destruct m; try (discriminate X2; intros s0 X; discriminate X). discriminate (X1 _ eq_refl).
    + rewrite (function_arguments E d F_DAYS_ELAPSED items ms A) in H. exact (days_whole _ _ _ H).
Qed.

(** ** Whole expressions *)
Lemma objects_all items : (fix all (l : list node) : nat := match l with [] => 0%nat | i :: l' => (objects i + all l')%nat end) items = list_sum (map objects items).
Proof. induction items as [|i l IH]; cbn; [reflexivity|]. rewrite IH. reflexivity. Qed.
Lemma arith_plain E d l r op x : world E d -> sensible (NArith l r op) -> lengths_fit E d (NArith l r op) -> arith_eval E d (NArith l r op) = Ok x -> plain_result x.
Proof.
  intros W [Sl Sr] [Ll Lr] Hx. destruct r as [r|].
  - destruct Sr as [Op Sr]. change (NArith l (Some r) op) with (bin l op r) in Hx. assert (NU : op <> UNARY) by (intros ->; destruct Op as [X|[X|[X|[X|[X|[X|[]]]]]]]; discriminate X).
    assert (X := Hx). rewrite (bin_eval E d l op r NU) in X. destruct (arith_eval E d l) as [v|e] eqn:Vl; [|discriminate X]. cbn [bind] in X. destruct (arith_eval E d r) as [w|e] eqn:Vr; [|discriminate X].
    destruct (result_type E d l op r v w x Op Vl Vr (java_genuine v (proj1 (proj1 (proj2 (arith_right E d W l Sl Ll) v Vl)))) (java_genuine w (proj1 (proj1 (proj2 (arith_right E d W r Sr Lr) w Vr)))) Hx) as [[(z & -> & F)|[(z & -> & F)|[b ->]]]|(_ & _ & ->)];
      [apply int_result, F|apply long_result, F|apply dec_result|apply text_result].
  - subst op. destruct (negate_result E d l x Hx) as [(z & -> & F)|[(z & -> & F)|[b ->]]]; [apply int_result, F|apply long_result, F|apply dec_result].
Qed.
Lemma call_plain_value E d f items x : world E d -> sensible (NFunc f items) -> lengths_fit E d (NFunc f items) -> arith_eval E d (NFunc f items) = Ok x -> plain_result x.
Proof.
  intros W Sn [Lf Ln] Hx. pose proof W as (Cal & Yr & _). cbn [sensible] in Sn. apply sensible_all in Sn. apply fit_all in Ln.
  assert (R : Forall (valued_right E d) items).
  { clear Lf Hx. induction items as [|i l IH]; [constructor|]. inversion Sn; inversion Ln; subst. constructor; [apply arith_right; assumption|apply IH; assumption]. }
  destruct (values_right E d items R) as [A B]. destruct (mapM (arith_eval E d) items) as [vs|e] eqn:Vs; [|rewrite arith_func in Hx; unfold arith_items in Hx; rewrite Vs in Hx; discriminate Hx].
  apply (call_plain E f (flat_map members vs) x Cal Yr (B vs eq_refl)); [intros Lf'; apply (Lf Lf'), A; reflexivity|].
  apply (call_determined E d f items (flat_map members vs) Cal (mapM_arguments E d items vs Vs)); [|exact Hx].
  eapply Forall_impl; [|exact (B vs eq_refl)]. intros v [G _]. exact G.
Qed.
Lemma plain_places k v : plain_result v -> 1020 <= k -> (forall y, v = VDec y -> Z.abs (scale y) <= k) -> places k v /\ Forall (places k) (members v).
Proof. intros (_ & _ & M) K H. assert (P : places k v) by (apply result_places; assumption). split; [exact P|]. rewrite M. constructor; [exact P|constructor]. Qed.
Lemma items_places E d B items : 0 <= B -> Forall (fun i => forall v, arith_eval E d i = Ok v -> Forall (places (B * Z.of_nat (objects i))) (members v) /\ Forall genuine (members v)) items ->
  forall vs, mapM (arith_eval E d) items = Ok vs -> Forall (places (B * Z.of_nat (list_sum (map objects items)))) (flat_map members vs) /\ Forall genuine (flat_map members vs).
Proof.
  intros HB H. induction H as [|i l Hi _ IH]; cbn [mapM]; intros vs; [intros [= <-]; split; constructor|].
  destruct (arith_eval E d i) as [v|]; cbn [bind]; [|discriminate]. destruct (mapM _ l) as [vs'|]; cbn [bind]; [|discriminate]. intros [= <-].
  destruct (Hi v eq_refl) as [A1 A2]. destruct (IH vs' eq_refl) as [B1 B2]. cbn [flat_map]. change (list_sum (map objects (i :: l))) with (objects i + list_sum (map objects l))%nat. split; apply Forall_app; split; auto.
  - eapply Forall_impl; [|exact A1]. intros u. apply places_le. nia.
  - eapply Forall_impl; [|exact B1]. intros u. apply places_le. nia.
Qed.
Lemma tree_places E d B : world E d -> true_doubles E -> 1074 <= B -> data_places d B ->
  forall n, sensible n -> lengths_fit E d n -> built (fun _ => True) (places B) n ->
  forall v, arith_eval E d n = Ok v -> places (B * Z.of_nat (objects n)) v /\ Forall (places (B * Z.of_nat (objects n))) (members v).
Proof.
  intros W T HB DP. pose proof W as (Cal & Yr & Pd & Fd). induction n as [f|dt v|l r op IHl IHr|f items IH|l r op dt IHl IHr|f lo hi t1 t2|f items IH|f op items IH|l r op IHl IHr] using node_ind';
    intros Sn Ln Bn x Hx; try discriminate Hx.
  - cbn [arith_eval] in Hx. apply (lookup_eval d f (Ok x) Pd) in Hx. inversion Hx as [s ks w L F| | |]; subst. cbn [objects]. rewrite Z.mul_1_r. exact (DP ks x F).
  - injection Hx as <-. cbn [objects]. rewrite Z.mul_1_r. cbn [sensible built] in Sn, Bn. destruct (literal_possible dt v Sn) as [_ ->]. split; [exact Bn|constructor; [exact Bn|constructor]].
  - assert (Pl : plain_result x) by (apply (arith_plain E d l r op x W Sn Ln Hx)).
    cbn [sensible lengths_fit built] in Sn, Ln, Bn. destruct Sn as [Sl Sr], Ln as [Ll Lr], Bn as [Bl Br].
    assert (Pos : 1 <= Z.of_nat (objects l)) by (pose proof (objects_pos l); lia).
    apply plain_places; [exact Pl|cbn [objects]; nia|]. intros y ->. destruct r as [r|].
    + destruct Sr as [Op Sr]. cbn [opt_P] in IHr. change (NArith l (Some r) op) with (bin l op r) in Hx.
      assert (NU : op <> UNARY) by (intros ->; destruct Op as [X|[X|[X|[X|[X|[X|[]]]]]]]; discriminate X).
      assert (X := Hx). rewrite (bin_eval E d l op r NU) in X. destruct (arith_eval E d l) as [v|e] eqn:Vl; [|discriminate X]. cbn [bind] in X.
      destruct (arith_eval E d r) as [w|e] eqn:Vr; [|discriminate X]. clear X.
      assert (Pos' : 1 <= Z.of_nat (objects r)) by (pose proof (objects_pos r); lia).
      destruct (IHl Sl Ll Bl v eq_refl) as [Pv _]. destruct (IHr Sr Lr Br w eq_refl) as [Pw _].
      assert (Gv : genuine v) by apply (proj2 (arith_right E d W l Sl Ll) v Vl). assert (Gw : genuine w) by apply (proj2 (arith_right E d W r Sr Lr) w Vr).
      pose proof (operation_places E d l r op v w y (B * Z.of_nat (objects l)) (B * Z.of_nat (objects r)) T Op Vl Vr Gv Gw ltac:(clear -HB Pos; nia) ltac:(clear -HB Pos'; nia) Pv Pw Hx) as Q0. cbn [objects]. clear -Q0 HB; rewrite Nat2Z.inj_succ, Nat2Z.inj_add; lia.
    + subst op. assert (X := Hx). cbn [arith_eval] in X. destruct (arith_eval E d l) as [v|e] eqn:Vl; [|discriminate X]. clear X.
      destruct (IHl Sl Ll Bl v eq_refl) as [Pv _]. assert (Gv : genuine v) by apply (proj2 (arith_right E d W l Sl Ll) v Vl).
      pose proof (negation_places E d l v y _ Vl Gv Pv Hx) as Q0. cbn [objects]. nia.
  - assert (Pl : plain_result x) by (apply (call_plain_value E d f items x W Sn Ln Hx)).
    cbn [sensible lengths_fit built] in Sn, Ln, Bn. apply sensible_all in Sn. destruct Ln as [_ Ln]. apply fit_all in Ln. apply built_all in Bn. cbn [objects]. rewrite objects_all.
    set (k := Z.of_nat (S (list_sum (map objects items)))). assert (Pos : 1 <= k) by (unfold k; lia).
    apply plain_places; [exact Pl|nia|]. intros y ->. destruct (mapM (arith_eval E d) items) as [vs|e] eqn:Vs; [|rewrite arith_func in Hx; unfold arith_items in Hx; rewrite Vs in Hx; discriminate Hx].
    assert (Q0 : Forall (places (B * Z.of_nat (list_sum (map objects items)))) (flat_map members vs) /\ Forall genuine (flat_map members vs)).
    { apply (items_places E d B items); [lia| |exact Vs]. clear -IH Sn Ln Bn W. induction IH as [|i l Hi _ IH]; [constructor|]. inversion Sn; inversion Ln; inversion Bn; subst. constructor; [|apply IH; assumption].
      intros v Hv. split; [apply Hi; assumption|]. eapply Forall_impl; [|apply (proj2 (arith_right E d W i ltac:(assumption) ltac:(assumption)) v Hv)]. intros u [G _]. exact G. }
    destruct Q0 as [Q1 Q2]. assert (Q3 : Forall (places (B * k)) (flat_map members vs)) by (eapply Forall_impl; [|exact Q1]; intros u; apply places_le; unfold k; nia).
    apply (call_places E d f items (flat_map members vs) y (B * k) Cal (mapM_arguments E d items vs Vs) Q2 ltac:(nia) Q3 Hx).
Qed.

(** ** Texts *)
Lemma span_digits ds c r : forallb is_digit ds = true -> is_digit c = false -> span is_digit (ds ++ c :: r) = (ds, c :: r).
Proof. intros D C. induction ds as [|x ds IH]; cbn [app span]; [rewrite C; reflexivity|]. cbn [forallb] in D. apply andb_prop in D. destruct D as [X D]. rewrite X, (IH D). reflexivity. Qed.
Lemma span_all ds : forallb is_digit ds = true -> span is_digit ds = (ds, []).
Proof. intros D. induction ds as [|x ds IH]; cbn [span]; [reflexivity|]. cbn [forallb] in D. apply andb_prop in D. destruct D as [X D]. rewrite X, (IH D). reflexivity. Qed.
Lemma decimal_token a b r : a <> [] -> forallb is_digit a = true -> forallb is_digit b = true -> parse_bigdec (a ++ ch "." :: b) = Some r -> scale r = Z.of_nat (length b).
Proof.
  intros N Da Db. destruct a as [|c a]; [contradiction|]. pose proof Da as Dc. cbn [forallb] in Dc. apply andb_prop in Dc. destruct Dc as [Dc _].
  rewrite (NumFacts.parse_bigdec_unsigned ((c :: a) ++ ch "." :: b) c (a ++ ch "." :: b) eq_refl Dc). unfold parse_unsigned_bigdec. rewrite (span_digits (c :: a) (ch ".") b Da eq_refl). cbn [N.eqb]. change ((ch "." =? ch ".")%N) with true. cbv iota.
  rewrite (span_all b Db). cbn [app]. intros [= <-]. reflexivity.
Qed.
Lemma token_length s ts t : lex s = Ok ts -> In t ts -> (length (Lexer.text t) <= length s)%nat.
Proof.
  intros L H. destruct (lex_total s) as (ps & Sp & L'). rewrite L in L'. injection L' as ->. clear L. induction Sp as [|k w rest ps P K Sp IH|w rest ps P Sp IH|w rest ps P1 P2 P3 Sp IH]; cbn [tokens_of] in H.
  - destruct H.
  - rewrite app_length. destruct H as [<-|H]; [cbn [Lexer.text]; lia|]. specialize (IH H). lia.
  - rewrite app_length. specialize (IH H). lia.
  - rewrite app_length. specialize (IH H). lia.
Qed.
Lemma built_impl (F F' : jstr -> Prop) (V V' : jval -> Prop) n : (forall f, F f -> F' f) -> (forall v, V v -> V' v) -> built F V n -> built F' V' n.
Proof.
  intros HF HV. assert (HN : forall f, built_name F f -> built_name F' f) by (intros [f|]; cbn; auto).
  assert (HI : forall items, Forall (fun n => built F V n -> built F' V' n) items -> Forall (built F V) items -> Forall (built F' V') items).
  { intros items H. induction H; intros X; inversion X; constructor; auto. }
  induction n using node_ind'; cbn [built]; rewrite ?built_all; try (intuition; fail).
  - intros [A B]. split; [apply IHn, A|]. destruct r; [apply H, B|exact Logic.I].
  - intros [A B]. split; [apply IHn, A|]. destruct r; [apply H, B|exact Logic.I].
Qed.
Lemma literal_places s dflt n B : 1020 <= B -> Z.of_nat (length s) <= B -> parse_expression s dflt = Ok n -> built (fun _ => True) (places B) n.
Proof.
  intros HB Hs Pn. destruct (lex_total s) as (ps & _ & L). eapply built_impl; [| |exact (parse_built s _ dflt n L Pn)]; [auto|].
  intros v (t & dt & It & Dt & C). apply result_places; [exact HB|]. intros y ->.
  assert (Dd : dt = DECIMAL).
  { destruct dt; try reflexivity; exfalso; cbn [convert_value] in C.
    - destruct (quoted_by _ (Lexer.text t)); [|destruct (quoted_by _ (Lexer.text t))]; unfold strip_ends in C; try destruct (_ <? _)%nat; discriminate C.
    - destruct (parse_int _); discriminate C.
    - destruct (parse_long _); discriminate C.
    - discriminate C.
    - discriminate C.
    - destruct (parse_date _); discriminate C.
    - destruct (parse_datetime _); discriminate C. }
  subst dt. destruct Dt as [Dt|Dt]; [|discriminate Dt]. assert (K : kind t = T_DECIMAL).
  { unfold token_data_type, numeric_data_type in Dt. destruct (kind t); try discriminate Dt; [reflexivity|]. destruct (parse_int _); discriminate Dt. }
  destruct It as [<-|It]; [discriminate K|]. pose proof (lex_genuine _ _ L) as G. rewrite Forall_forall in G. specialize (G t It).
  assert (M : matches (cat [Plus digit; one "."; Plus digit]) (Lexer.text t)).
  { destruct (SyntaxFacts.genuine_rule t G) as (r & R & M). rewrite K in R. unfold lexicon in R. cbn [In] in R.
    repeat (destruct R as [R|R]; [try discriminate R; try (injection R as <-; exact M)|]). destruct R. }
  apply matches_decimal in M. destruct M as (a & b & T & Na & Nb & Da & Db). cbn [convert_value] in C. rewrite T in C. destruct (parse_bigdec (a ++ ch "." :: b)) as [r|] eqn:Pr; [|discriminate C].
  assert (r = y) by congruence. subst r. rewrite (decimal_token a b y Na Da Db Pr). pose proof (token_length s _ t L It) as Le. rewrite T, app_length in Le. cbn [length] in Le. lia.
Qed.

(** ** Parts *)
Lemma part_all (P : node -> Prop) (items : list node) i : Forall P items -> In i items -> P i.
Proof. intros H. rewrite Forall_forall in H. apply H. Qed.
Lemma part_sensible m n : part m n -> sensible n -> sensible m.
Proof.
  induction 1; cbn [sensible]; rewrite ?sensible_all; auto; try tauto.
  - intros X. apply IHpart. exact (part_all _ _ _ X H).
  - intros X. apply IHpart. exact (part_all _ _ _ X H).
  - intros [_ X]. apply IHpart. exact (part_all _ _ _ X H).
Qed.
Lemma part_fit E d m n : part m n -> lengths_fit E d n -> lengths_fit E d m.
Proof.
  induction 1; cbn [lengths_fit]; rewrite ?fit_all; auto; try tauto.
  - intros [_ X]. apply IHpart. exact (part_all _ _ _ X H).
  - intros X. apply IHpart. exact (part_all _ _ _ X H).
  - intros X. apply IHpart. exact (part_all _ _ _ X H).
Qed.
Lemma part_built F V m n : part m n -> built F V n -> built F V m.
Proof.
  induction 1; cbn [built]; rewrite ?built_all; auto; try tauto.
  - intros X. apply IHpart. exact (part_all _ _ _ X H).
  - intros [_ X]. apply IHpart. exact (part_all _ _ _ X H).
  - intros [_ X]. apply IHpart. exact (part_all _ _ _ X H).
Qed.
Lemma sum_in (items : list node) i : In i items -> (objects i <= list_sum (map objects items))%nat.
Proof. induction items as [|x l IH]; [intros []|]. cbn [map list_sum fold_right]. intros [<-|H]; [lia|]. specialize (IH H). unfold list_sum in IH. lia. Qed.
Lemma part_objects m n : part m n -> (objects m <= objects n)%nat.
Proof. induction 1; cbn [objects]; rewrite ?objects_all; try lia; pose proof (sum_in _ _ H); lia. Qed.

Lemma text_places E d s dflt n m v B : world E d -> true_doubles E -> data_places d B -> 1074 <= B -> Z.of_nat (length s) <= B ->
  parse_expression s dflt = Ok n -> lengths_fit E d n -> part m n -> arith_eval E d m = Ok v -> places (B * Z.of_nat (objects m)) v.
Proof.
  intros W T D HB Hs Pn L Pt Hv. apply (tree_places E d B W T HB D m); [| | |exact Hv].
  - apply (part_sensible _ _ Pt), (text_sensible s dflt n Pn).
  - apply (part_fit _ _ _ _ Pt L).
  - apply (part_built _ _ _ _ Pt), (literal_places s dflt n B ltac:(lia) Hs Pn).
Qed.
Lemma text_fits E d s dflt n m b k B : world E d -> true_doubles E -> data_places d B -> 1074 <= B -> Z.of_nat (length s) <= B -> words_in s k ->
  B * (Z.of_nat (2 * k + 1) * Z.of_nat (2 * k + 1)) <= 2147483647 ->
  parse_expression s dflt = Ok n -> lengths_fit E d n -> part m n -> arith_eval E d m = Ok (VDec b) -> fits32 (scale b).
Proof.
  intros W T D HB Hs Wk Le Pn L Pt Hv. pose proof (text_places E d s dflt n m (VDec b) B W T D HB Hs Pn L Pt Hv b (held_dec b)) as P.
  pose proof (part_objects m n Pt) as O. pose proof (any_size s dflt n k Pn Wk) as S0.
  assert (X : B * Z.of_nat (objects m) <= 2147483647) by (etransitivity; [|exact Le]; apply Z.mul_le_mono_nonneg_l; [lia|]; rewrite <- Nat2Z.inj_mul; apply inj_le; lia).
  unfold fits32. lia.
Qed.
