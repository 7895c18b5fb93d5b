(** Values and their own text. *)
From Coq Require Import QArith Qpower.
From Verif Require Import RecoverFacts.
From Verif Require Import Base JNum BigDec Dates Version Values Ops Funcs Ast Eval Api SpecNum SpecBool SpecCompare SpecArith SpecFunc SpecDate SpecMixed SpecStamp SpecPlace SpecOwn
  JNumFacts NumFacts BoolFacts CompareFacts OrderFacts VersionFacts ScaleFacts InsertFacts MixedFacts DateFacts FormFacts CourseFacts StampFacts PlaceFacts.
Local Open Scope Z_scope.

(** ** Numbers *)
Lemma whole_written z : written_number (print_Z z) (inject_Z z).
Proof.
  unfold print_Z. destruct (z <? 0) eqn:L.
  - apply Z.ltb_lt in L. exists true, (J "-"), (print_N (Z.to_N (- z))), [], [], 0, []. rewrite !app_nil_r. split; [reflexivity|]. split; [constructor|].
    split; [apply print_N_digits|]. split; [constructor|]. split; [apply print_N_nonnil|]. split; [constructor|].
    rewrite print_N_val, Z2N.id, inject_Z_opp by lia. cbn [length Z.of_nat]. change ((10 # 1) ^ (0 - 0)%Z)%Q with 1%Q. cbv iota. ring.
  - apply Z.ltb_ge in L. exists false, [], (print_N (Z.to_N z)), [], [], 0, []. rewrite !app_nil_r. split; [reflexivity|]. split; [constructor|].
    split; [apply print_N_digits|]. split; [constructor|]. split; [apply print_N_nonnil|]. split; [constructor|].
    rewrite print_N_val, Z2N.id by lia. cbn [length Z.of_nat]. change ((10 # 1) ^ (0 - 0)%Z)%Q with 1%Q. cbv iota. ring.
Qed.
Lemma exponent_written decimals e : - 10000000000 < e < 10000000000 -> -2147483648 <= decimals - e <= 2147483647 ->
  exponent_text decimals e (J "E" ++ print_Z e) /\ (0 < e -> exponent_text decimals e (J "E" ++ J "+" ++ print_Z e)).
Proof.
  intros B R. assert (G : forall neg sg n, SpecMixed.sign_text neg sg -> e = (if neg then - Z.of_N n else Z.of_N n) -> exponent_text decimals e (J "E" ++ sg ++ print_N n)).
  { intros neg sg n Hs He. apply (exponent decimals neg (J "E") sg (print_N n) e (or_intror eq_refl) Hs (print_N_nonnil n) (print_N_digits n)); [rewrite print_N_val; destruct neg; lia|rewrite print_N_val; exact He|exact R]. }
  unfold print_Z. destruct (e <? 0) eqn:L.
  - apply Z.ltb_lt in L. split; [|lia]. apply (G true (J "-")); [constructor|rewrite Z2N.id by lia; lia].
  - apply Z.ltb_ge in L. split; [|intros _].
    + apply (G false []); [constructor|rewrite Z2N.id by lia; lia].
    + apply (G false (J "+")); [constructor|rewrite Z2N.id by lia; lia].
Qed.
Lemma sign_written z : SpecMixed.sign_text (z <? 0) (sign_str z).
Proof. unfold sign_str. destruct (z <? 0); constructor. Qed.
Lemma decimal_written b : jvm_decimal (VDec b) -> written_number (bd_to_string b) (dec_value b).
Proof.
  intros [R [k [K U]]]. set (ds := print_N (Z.abs_N (unscaled b))).
  assert (Dv : digits_val ds = Z.abs (unscaled b)) by (unfold ds; rewrite print_N_val, N2Z.inj_abs_N; reflexivity).
  assert (Dd : all_digits ds = true) by apply print_N_digits. assert (Dn : ds <> []) by apply print_N_nonnil.
  assert (Dl : Z.of_nat (length ds) <= 2147483647).
  { destruct (Z.le_gt_cases 1 k) as [K1|K1].
    - apply Z.le_trans with k; [|exact K]. apply print_N_length_le; [exact K1|]. rewrite N2Z.inj_abs_N. exact U.
    - assert (Z.abs (unscaled b) = 0). { assert (10 ^ k <= 1); [|lia]. destruct (Z.eq_dec k 0) as [->|]; [cbn; lia|]. rewrite Z.pow_neg_r by lia. lia. }
      assert (unscaled b = 0) by lia. unfold ds. rewrite H0. cbn. lia. }
  unfold bd_to_string. fold ds. destruct (scale b =? 0) eqn:Z0.
  - apply Z.eqb_eq in Z0. exists (unscaled b <? 0), (sign_str (unscaled b)), ds, [], [], 0, []. rewrite !app_nil_r. split; [reflexivity|]. split; [apply sign_written|].
    split; [exact Dd|]. split; [constructor|]. split; [exact Dn|]. split; [constructor|]. rewrite (signed_value b _ Dv), Z0. reflexivity.
  - apply Z.eqb_neq in Z0. cbv zeta. set (adj := - scale b + (Z.of_nat (length ds) - 1)).
    assert (Ll : 1 <= Z.of_nat (length ds)) by (destruct ds; [contradiction|cbn [length]; lia]).
    destruct ((0 <=? scale b) && (-6 <=? adj)) eqn:C.
    + apply andb_true_iff in C as [C _]. apply Z.leb_le in C. destruct (point_full (Z.abs_N (unscaled b)) (Z.to_nat (scale b)) ltac:(lia)) as (p & f & E & Np & Dp & Df & _ & Lf & V).
      fold ds in E. rewrite E. exists (unscaled b <? 0), (sign_str (unscaled b)), p, f, (J "." ++ f), 0, []. rewrite !app_nil_r. split; [reflexivity|]. split; [apply sign_written|].
      split; [exact Dp|]. split; [constructor; exact Df|]. split; [destruct p; [contradiction|discriminate]|]. split; [constructor|]. rewrite Lf, Z2Nat.id by lia.
      rewrite N2Z.inj_abs_N in V. rewrite (signed_value b _ V). reflexivity.
    + assert (A0 : adj <> 0). { unfold adj. apply andb_false_iff in C. destruct C as [C|C]; apply Z.leb_gt in C; [lia|]. unfold adj in C. lia. }
      rewrite (proj2 (Z.eqb_neq _ _) A0).
      assert (Ex : forall n, Z.of_nat n = Z.of_nat (length ds) - 1 -> exponent_text (Z.of_nat n) adj (ch "E" :: (if 0 <? adj then [ch "+"] else []) ++ print_Z adj)).
      { intros n Hn. destruct (exponent_written (Z.of_nat n) adj) as [X Y]; [unfold adj; lia|unfold adj; lia|]. destruct (0 <? adj) eqn:P; [apply Z.ltb_lt in P; exact (Y P)|exact X]. }
      destruct ds as [|c [|c' r]] eqn:Eds; [contradiction| |].
      * exists (unscaled b <? 0), (sign_str (unscaled b)), [c], [], [], adj, (ch "E" :: (if 0 <? adj then [ch "+"] else []) ++ print_Z adj). split; [reflexivity|]. split; [apply sign_written|].
        split; [exact Dd|]. split; [constructor|]. split; [discriminate|]. split; [apply (Ex 0%nat); reflexivity|]. rewrite (signed_value b _ Dv).
        match goal with |- context [adj - ?n] => replace (adj - n) with (- scale b) by (unfold adj; cbn [length]; lia) end. reflexivity.
      * exists (unscaled b <? 0), (sign_str (unscaled b)), [c], (c' :: r), (J "." ++ c' :: r), adj, (ch "E" :: (if 0 <? adj then [ch "+"] else []) ++ print_Z adj).
        split; [reflexivity|]. split; [apply sign_written|]. change (c :: c' :: r) with ([c] ++ (c' :: r)) in Dd. apply all_digits_app in Dd as [D1 D2].
        split; [exact D1|]. split; [constructor; exact D2|]. split; [discriminate|]. split; [apply Ex; cbn [length]; lia|]. rewrite (signed_value b _ Dv).
        match goal with |- context [adj - ?n] => replace (adj - n) with (- scale b) by (unfold adj; cbn [length]; lia) end. reflexivity.
Qed.
Lemma float_written t q : float_text t q -> written_number t q.
Proof.
  intros (neg & ip & fp & ex & N1 & N2 & D1 & D2 & L & B & E & V). exists neg, (if neg then J "-" else []), ip, fp, (J "." ++ fp), (match ex with Some e => e | None => 0 end), (match ex with Some e => J "E" ++ print_Z e | None => [] end).
  split; [rewrite E; rewrite <- !app_assoc; reflexivity|]. split; [destruct neg; constructor|]. split; [exact D1|]. split; [constructor; exact D2|]. split; [destruct ip; [contradiction|discriminate]|].
  split; [destruct ex as [e|]; [specialize (B e eq_refl); apply exponent_written; lia|constructor]|]. rewrite V, digits_val_app, inject_Z_plus, inject_Z_mult.
  assert (P : (inject_Z (10 ^ Z.of_nat (length fp))%Z == (10 # 1) ^ (Z.of_nat (length fp)))%Q) by (rewrite Qpower.Zpower_Qpower by lia; reflexivity). rewrite P.
  set (e := match ex with Some e => e | None => 0 end). set (n := Z.of_nat (length fp)).
  replace (e - n) with (- n + e) by lia. rewrite Qpower_plus by discriminate.
  assert (I : ((10 # 1) ^ n * (10 # 1) ^ (- n) == 1)%Q) by (rewrite <- Qpower_plus by discriminate; rewrite Z.add_opp_diag_r; reflexivity).
  transitivity ((if neg then -1 # 1 else 1) * (inject_Z (digits_val ip) * ((10 # 1) ^ n * (10 # 1) ^ (- n)) + inject_Z (digits_val fp) * (10 # 1) ^ (- n)) * (10 # 1) ^ e)%Q; [rewrite I|]; try ring.
Qed.
Lemma number_written v q : number v q -> jvm_decimal v -> written_number (show v) q.
Proof.
  intros H J. inversion H; subst; cbn [show].
  - eapply written_ext; [symmetry; eassumption|apply whole_written].
  - eapply written_ext; [symmetry; eassumption|apply whole_written].
  - eapply written_ext; [symmetry; eassumption|apply decimal_written, J].
  - apply float_written; assumption.
Qed.

(** ** Dates *)
Lemma pad_value w n : 0 <= n -> digits_val (pad w n) = n.
Proof. intros H. unfold pad. rewrite digits_val_app. change (ch "0") with 48%N. rewrite digits_val_zeros, print_N_val, Z2N.id by exact H. lia. Qed.
Lemma split_tail (a b c d : jstr) : length b = length d -> a ++ b = c ++ d -> a = c /\ b = d.
Proof.
  revert c. induction a as [|x a IH]; intros [|y c] L E; cbn [app] in E.
  - auto.
  - exfalso. apply (f_equal (fun x : jstr => length x)) in E. cbn [length app] in E. rewrite app_length in E. cbn [length] in E. lia.
  - exfalso. apply (f_equal (fun x : jstr => length x)) in E. cbn [length app] in E. rewrite app_length in E. cbn [length] in E. lia.
  - injection E as -> E. destruct (IH c L E) as [-> ->]. auto.
Qed.
Lemma two_digits n : 0 <= n < 100 -> length (pad 2 n) = 2%nat.
Proof. intros H. apply (pad_numeral 2 n); cbn; lia. Qed.
Lemma calendar_bounds a : calendar a -> 1 <= month a <= 12 /\ 1 <= day a <= 31.
Proof. intros [n [M D]]. destruct M as [m H|m H| |]; cbn [In] in *; lia. Qed.
Lemma own_date a b : calendar a -> written_date (date_to_string a) b -> b = a.
Proof.
  intros C (y & m & d & n & (p & q & r & P & [Lq [Dq Vq]] & [Lr [Dr Vr]] & E) & Y & M & D & ->).
  destruct (calendar_bounds a C) as [Bm Bd]. unfold date_to_string in E.
  set (yt := if year a <? 0 then _ else _) in E.
  assert (E' : yt ++ (ch "-" :: pad 2 (month a) ++ ch "-" :: pad 2 (day a)) = p ++ (J "-" ++ q ++ J "-" ++ r)) by exact E. clear E.
  apply split_tail in E'.
  2:{ cbn [length app]. rewrite !app_length. cbn [length app]. rewrite !two_digits, Lq, Lr by lia. reflexivity. }
  destruct E' as [Ey E]. cbn [J app] in E. injection E as E. apply split_tail in E.
  2:{ cbn [length app]. rewrite two_digits, Lr by lia. reflexivity. }
  destruct E as [Eq Er]. injection Er as Er. subst q r. rewrite pad_value in Vq, Vr by lia. subst m d.
  assert (year a = y).
  { unfold yt in Ey. clear yt. destruct P as [[L [Dp V]]|(ds & -> & _ & [_ [Dp V]])].
    - subst p. destruct (year a <? 0) eqn:N; [discriminate Dp|]. destruct (9999 <? year a); [discriminate Dp|]. apply Z.ltb_ge in N. rewrite pad_value in V by exact N. exact V.
    - destruct (year a <? 0) eqn:N; [discriminate Ey|]. apply Z.ltb_ge in N. destruct (9999 <? year a) eqn:K.
      + injection Ey as Ey. subst ds. rewrite pad_value in V by exact N. exact V.
      + exfalso. assert (X := pad_digits 4 (year a)). rewrite Ey in X. discriminate X. }
  subst y. destruct C as [n' [M' D']]. assert (n' = n) by (eapply month_days_unique; eauto). subst n'. rewrite Z.min_l by lia. destruct a; reflexivity.
Qed.
Lemma moment_no_date x b : ~ written_date (datetime_to_string x) b.
Proof.
  intros (y & m & d & n & (p & q & r & P & [_ [Dq _]] & [_ [Dr _]] & E) & _).
  assert (T : In (ch "T") (p ++ J "-" ++ q ++ J "-" ++ r)) by (rewrite <- E; unfold datetime_to_string; apply in_or_app; right; left; reflexivity).
  assert (Z : forall u, all_digits u = true -> ~ In (ch "T") u) by (intros u Hu I; unfold all_digits in Hu; rewrite forallb_forall in Hu; specialize (Hu _ I); discriminate Hu).
  apply in_app_or in T as [T|T].
  - destruct P as [[_ [Dp _]]|(ds & -> & _ & [_ [Dp _]])]; [exact (Z p Dp T)|]. destruct T as [T|T]; [discriminate T|exact (Z ds Dp T)].
  - change (In (ch "T") (ch "-" :: q ++ ch "-" :: r)) in T. destruct T as [T|T]; [discriminate T|]. apply in_app_or in T as [T|T]; [exact (Z q Dq T)|]. destruct T as [T|T]; [discriminate T|exact (Z r Dr T)].
Qed.
Lemma pad_no_space w n : ~ In (ch " ") (pad w n).
Proof. intros I. assert (D := pad_digits w n). unfold all_digits in D. rewrite forallb_forall in D. specialize (D _ I). discriminate D. Qed.
Lemma moment_no_space x : ~ In (ch " ") (datetime_to_string x).
Proof.
  unfold datetime_to_string. intros I. apply in_app_or in I as [I|I]; [exact (date_text_no_space _ I)|].
  repeat match goal with
  | H : In _ (_ :: _) |- _ => destruct H as [H|H]; [discriminate H|]
  | H : In _ (_ ++ _) |- _ => apply in_app_or in H as [H|H]
  | H : In _ (pad _ _) |- _ => destruct (pad_no_space _ _ H)
  | H : In _ (if ?c then _ else _) |- _ => destruct c
  | H : In _ [] |- _ => destruct H
  end.
Qed.

(** ** A value and its own text *)
Lemma text_sorts s : (exists a, written_date s a) \/ (exists x, written_datetime s x) \/ stands (VStr s) STRING.
Proof.
  destruct (parse_date s) as [a|] eqn:D; [left; exists a; apply parse_date_spec, D|]. destruct (parse_datetime s) as [x|] eqn:T; [right; left; exists x; apply parse_datetime_spec, T|].
  right. right. constructor; intros z H; [apply parse_date_spec in H|apply parse_datetime_spec in H]; congruence.
Qed.
Lemma met_text E d l r op v w a b : In op asking -> yields E d l v -> yields E d r w -> stands v a -> stands w b -> show w = show v -> meeting op a b = Some STRING ->
  bool_eval E d (cond l op r) = answer op Eq.
Proof.
  intros O Yl Yr Sv Sw T M. destruct (asking_accepts op Eq O) as [x X]. unfold answer. rewrite X.
  eapply (mixed_comparison E d l r op Eq v w a b (asking_some op O) Yl Yr Sv Sw); [exact M|apply read_text|apply read_text| |exact X]. rewrite T. constructor. reflexivity.
Qed.
Lemma met_date E d l r op v w a b t : In op asking -> yields E d l v -> yields E d r w -> stands v a -> stands w b -> meeting op a b = Some DATE -> read_as v DATE (ADate t) -> read_as w DATE (ADate t) ->
  bool_eval E d (cond l op r) = answer op Eq.
Proof.
  intros O Yl Yr Sv Sw M Rv Rw. destruct (asking_accepts op Eq O) as [x X]. unfold answer. rewrite X.
  eapply (mixed_comparison E d l r op Eq v w a b (asking_some op O) Yl Yr Sv Sw); [exact M|exact Rv|exact Rw| |exact X]. apply (by_days t t 0). left. split; [lia|constructor].
Qed.
Lemma met_moment E d l r op v w a b t : In op asking -> yields E d l v -> yields E d r w -> stands v a -> stands w b -> meeting op a b = Some DATETIME -> read_as v DATETIME (ADateTime t) -> read_as w DATETIME (ADateTime t) ->
  bool_eval E d (cond l op r) = answer op Eq.
Proof.
  intros O Yl Yr Sv Sw M Rv Rw. destruct (asking_accepts op Eq O) as [x X]. unfold answer. rewrite X.
  eapply (mixed_comparison E d l r op Eq v w a b (asking_some op O) Yl Yr Sv Sw); [exact M|exact Rv|exact Rw| |exact X]. apply (by_nanos t t 0). exists 0. split; [left; split; [lia|constructor]|lia].
Qed.
Definition object_date (v : jval) : bool := match v with VDate _ | VDateTime _ | VStr _ => true | _ => false end.
Lemma no_date_type v a : object_date v = false -> stands v a -> a <> DATE /\ a <> DATETIME.
Proof.
  intros N S. inversion S as [| | | | | |v0 y D|v0 y D| | | | |]; subst; split; try discriminate; exfalso; destruct D as [[-> _]|(s & -> & _)]; discriminate N.
Qed.
Lemma own_dates E d l r v a op : In op asking -> yields E d l v -> yields E d r (VStr (show v)) -> stands v a -> (exists t, v = VDate t \/ exists x, v = VDateTime x) ->
  bool_eval E d (cond l op r) = answer op Eq.
Proof.
  intros O Yl Yr S [t0 H]. assert (M : forall c, In c [DATE; DATETIME] -> meeting op c STRING = Some STRING).
  { cbn [In asking] in O. intros c Hc. cbn [In] in Hc. decompose [or] O; subst; try contradiction; decompose [or] Hc; subst; try contradiction; reflexivity. }
  destruct H as [->|[x ->]].
  - assert (Sa : a = DATE /\ calendar t0). { inversion S as [| | | | | |v0 y D|v0 y D| | | | |]; subst; destruct D as [[X C]|(s & X & _)]; try discriminate X. injection X as <-. auto. }
    destruct Sa as [-> Ca]. cbn [show] in Yr. destruct (text_sorts (date_to_string t0)) as [[b W]|[[x W]|St]].
    + assert (b = t0) by (eapply own_date; eauto). subst b. eapply (met_date E d l r op _ _ DATE DATE t0); eauto.
      * apply stands_date with t0. right. eauto.
      * cbn [In asking] in O. decompose [or] O; subst; try contradiction; reflexivity.
      * constructor 7. auto.
      * constructor 8; [discriminate|exact W].
    + exfalso. apply parse_datetime_spec in W. apply space_in_datetime in W. exact (date_text_no_space _ W).
    + eapply met_text; eauto. apply M. cbn; auto.
  - assert (Sa : a = DATETIME). { inversion S as [| | | | | |v0 y D|v0 y D| | | | |]; subst; destruct D as [[X C]|(s & X & _)]; try discriminate X. reflexivity. }
    subst a. cbn [show] in Yr. destruct (text_sorts (datetime_to_string x)) as [[b W]|[[y W]|St]].
    + destruct (moment_no_date _ _ W).
    + exfalso. apply parse_datetime_spec in W. apply space_in_datetime in W. exact (moment_no_space _ W).
    + eapply met_text; eauto. apply M. cbn; auto.
Qed.
Lemma own_text E d l r v a : yields E d l v -> yields E d r (VStr (show v)) -> stands v a ->
  bool_eval E d (cond l EQUALS r) = Ok true /\ bool_eval E d (cond r EQUALS l) = Ok true.
Proof.
  intros Yl Yr S. assert (O : In EQUALS asking) by (cbn; tauto).
  assert (Sr : exists b, stands (VStr (show v)) b).
  { destruct (text_sorts (show v)) as [[t W]|[[x W]|St]]; [exists DATE; apply stands_date with t; right; eauto|exists DATETIME; apply stands_datetime with x; right; eauto|exists STRING; exact St]. }
  destruct Sr as [b0 Sr]. assert (G : bool_eval E d (cond l EQUALS r) = Ok true); [|split; [exact G|]; rewrite (mirror E d r l EQUALS _ _ _ _ O Yr Yl Sr S); exact G]. clear b0 Sr.
  destruct (object_date v) eqn:K.
  - destruct v; try discriminate K.
    + eapply itself; eauto.
    + apply (own_dates E d l r _ a EQUALS O Yl Yr S). eauto.
    + apply (own_dates E d l r _ a EQUALS O Yl Yr S). exists (Date 0 0 0). eauto.
  - destruct (no_date_type v a K S) as [N1 N2]. destruct (text_sorts (show v)) as [[t W]|[[x W]|St]].
    + assert (Sw : stands (VStr (show v)) DATE) by (apply stands_date with t; right; eauto). destruct (dtype_eqb a STRING) eqn:Ta.
      * destruct a; try discriminate Ta. apply (met_text E d l r EQUALS _ _ STRING DATE O Yl Yr S Sw); reflexivity.
      * apply (met_date E d l r EQUALS _ _ a DATE t O Yl Yr S Sw); [destruct a; try discriminate Ta; try congruence; reflexivity| |]; (constructor 8; [intros c Hc; subst; discriminate|exact W]).
    + assert (Sw : stands (VStr (show v)) DATETIME) by (apply stands_datetime with x; right; eauto). destruct (dtype_eqb a STRING) eqn:Ta.
      * destruct a; try discriminate Ta. apply (met_text E d l r EQUALS _ _ STRING DATETIME O Yl Yr S Sw); reflexivity.
      * apply (met_moment E d l r EQUALS _ _ a DATETIME x O Yl Yr S Sw); [destruct a; try discriminate Ta; try congruence; reflexivity| |]; (constructor 10; [intros c Hc; subst; discriminate|exact W]).
    + apply (met_text E d l r EQUALS _ _ a STRING O Yl Yr S St); [reflexivity|destruct a; reflexivity].
Qed.
Lemma own_order E d l r v a op : op = LESS_THAN_EQUAL \/ op = GREATER_THAN_EQUAL -> yields E d l v -> yields E d r (VStr (show v)) -> stands v a -> a <> BOOLEAN -> jvm_decimal v ->
  bool_eval E d (cond l op r) = Ok true /\ bool_eval E d (cond r op l) = Ok true.
Proof.
  intros Op Yl Yr S Nb Jd.
  assert (Sr : exists b, In b [STRING; DATE; DATETIME] /\ stands (VStr (show v)) b).
  { destruct (text_sorts (show v)) as [[t W]|[[x W]|St]]; [exists DATE|exists DATETIME|exists STRING]; (split; [cbn; tauto|]); [apply stands_date with t; right; eauto|apply stands_datetime with x; right; eauto|exact St]. }
  destruct Sr as [b [Hb Sr]].
  assert (G : forall op, op = LESS_THAN_EQUAL \/ op = GREATER_THAN_EQUAL -> bool_eval E d (cond l op r) = Ok true).
  2:{ split; [apply G, Op|]. assert (O : In op asking) by (destruct Op; subst; cbn; tauto). rewrite (mirror E d r l op _ _ _ _ O Yr Yl Sr S). apply G. destruct Op; subst; cbn; auto. }
  clear op Op. intros op Op. assert (O : In op asking) by (destruct Op; subst; cbn; tauto). assert (A : answer op Eq = Ok true) by (destruct Op; subst; reflexivity).
  destruct (object_date v) eqn:K.
  - destruct v; try discriminate K.
    + destruct (itself E d l r _ a Yl Yr S) as [_ H]. destruct Op; subst; apply (H Nb).
    + rewrite <- A. apply (own_dates E d l r _ a op O Yl Yr S). eauto.
    + rewrite <- A. apply (own_dates E d l r _ a op O Yl Yr S). exists (Date 0 0 0). eauto.
  - destruct (no_date_type v a K S) as [N1 N2].
    assert (M : number_like a = true -> meeting op a b = Some a).
    { intros L. cbn [In] in Hb. destruct Op; subst op; decompose [or] Hb; subst; try contradiction; destruct a; try discriminate L; reflexivity. }
    assert (F : forall m m', number_like a = true -> read_as v a m -> read_as (VStr (show v)) a m' -> compared m m' Eq -> bool_eval E d (cond l op r) = Ok true).
    { intros m m' L Rm Rm' Cm. apply (proj1 (mixed_comparison E d l r op Eq v _ a b (asking_some op O) Yl Yr S Sr) a m m' Eq true (M L) Rm Rm' Cm). destruct Op; subst; reflexivity. }
    assert (Nu : forall q, (q ?= q)%Q = Eq) by (intros q; apply Qeq_alt; reflexivity).
    assert (W : forall q, number v q -> written_number (show v) q) by (intros q Hq; apply number_written; assumption).
    inversion S as [x|z R|z R|x|dbl t q Ft|t|v0 y D|v0 y D|s|il xs|xs t|es|t]; subst; try congruence; cbn [show] in *.
    + apply (F (ANumber (inject_Z z)) (ANumber (inject_Z z)) eq_refl); [constructor; [cbn; constructor; [exact R|reflexivity]|exact R]|constructor; [cbn; apply W; constructor; [exact R|reflexivity]|exact R]|rewrite <- (Nu (inject_Z z)); constructor].
    + apply (F (ANumber (inject_Z z)) (ANumber (inject_Z z)) eq_refl); [constructor; [cbn; constructor; [exact R|reflexivity]|exact R]|constructor; [cbn; apply W; constructor; [exact R|reflexivity]|exact R]|rewrite <- (Nu (inject_Z z)); constructor].
    + apply (F (ANumber (dec_value x)) (ANumber (dec_value x)) eq_refl); [constructor; cbn; constructor; reflexivity|constructor; cbn; apply W; constructor; reflexivity|rewrite <- (Nu (dec_value x)); constructor].
    + apply (F (ANumber q) (ANumber q) eq_refl); [constructor; cbn; constructor; exact Ft|constructor; cbn; apply W; constructor; exact Ft|rewrite <- (Nu q); constructor].
    + apply (F (AVersion t) (AVersion t) eq_refl); [exact (read_version (VVer t))|exact (read_version (VStr t))|].
      assert (V : version_compare t t = Eq) by (assert (X := version_compare_antisym t t); destruct (version_compare t t); [reflexivity|discriminate X|discriminate X]). rewrite <- V. constructor.
    + discriminate K.
    + rewrite <- A. apply (met_text E d l r op _ _ STRING b O Yl Yr S Sr); [reflexivity|]. cbn [In] in Hb. destruct Op; subst op; decompose [or] Hb; subst; try contradiction; reflexivity.
    + rewrite <- A. apply (met_text E d l r op _ _ STRING b O Yl Yr S Sr); [reflexivity|]. cbn [In] in Hb. destruct Op; subst op; decompose [or] Hb; subst; try contradiction; reflexivity.
    + rewrite <- A. apply (met_text E d l r op _ _ STRING b O Yl Yr S Sr); [reflexivity|]. cbn [In] in Hb. destruct Op; subst op; decompose [or] Hb; subst; try contradiction; reflexivity.
    + rewrite <- A. apply (met_text E d l r op _ _ STRING b O Yl Yr S Sr); [reflexivity|]. cbn [In] in Hb. destruct Op; subst op; decompose [or] Hb; subst; try contradiction; reflexivity.
Qed.

(** A number and its text against a decimal. *)
Lemma own_against_decimal E d l l' r op v q b : In op [GREATER_THAN; GREATER_THAN_EQUAL; LESS_THAN; LESS_THAN_EQUAL] -> number v q -> jvm_decimal v ->
  yields E d l v -> yields E d l' (VStr (show v)) -> yields E d r (VDec b) ->
  bool_eval E d (cond l' op r) = bool_eval E d (cond l op r) /\ exists x, bool_eval E d (cond l op r) = Ok x.
Proof.
  intros O Nv Jd Yl Yl' Yr. assert (X : exists x, question op q (dec_value b) = Some x) by (cbn [In] in O; decompose [or] O; subst; try contradiction; cbn; eauto). destruct X as [x X].
  assert (H : bool_eval E d (cond l op r) = Ok x) by (eapply compare_number_operands; eauto; constructor; reflexivity).
  split; [|eauto]. rewrite H. eapply text_decimal; eauto; try (intros ->; cbn [In] in O; decompose [or] O; discriminate || contradiction); [apply number_written; assumption|reflexivity].
Qed.
