(** Values written into the text of an expression. *)
From Coq Require Import QArith Qpower Lia Lqa.
From Verif Require Import RecoverFacts RecoverTexts RecoverOrigin ListenAny SpecRecover AnyText.
From Verif Require Import Base JNum BigDec Dates Values Ops Funcs Ast Eval Lexer Grammar Listener Api SpecNum SpecBool SpecCompare SpecPath SpecArith SpecLex SpecTight SpecDate
  SpecGrammar SpecSyntax SpecText SpecOdd JNumFacts NumFacts CacheFacts BoolFacts CompareFacts ArithFacts ValuesFacts FieldFacts LexFacts LexSplit LexWords LexTight LexApi LexCases SyntaxFacts ParseFuel ParseFacts
  ParseShapes ListenFacts TextFacts TextApi ListText OddText CompareWitness SpecMixed DateFacts MixedFacts SpecInsert.
Local Open Scope Z_scope.

(** ** The texts of numbers *)
Lemma print_digits n : digits (print_N n).
Proof. split; [apply print_N_nonnil|]. apply LexTight.all_digits. apply print_N_digits. Qed.
Lemma print_natural n : natural (print_N n) = Z.of_N n.
Proof. rewrite natural_val. apply print_N_val. Qed.
Lemma digits_no c ds : digits ds -> is_digit c = false -> ~ In c ds.
Proof. intros [_ D] C I. rewrite Forall_forall in D. rewrite (D c I) in C. discriminate. Qed.

(** [body] without sign is a sequence of digits or has a point. *)
Definition plain_body (body : jstr) (q : Q) : Prop :=
  (digits body /\ (q == inject_Z (natural body))%Q) \/
  exists a b, digits a /\ digits b /\ body = a ++ J "." ++ b /\ (q == dec_value (BD (natural (a ++ b)) (Z.of_nat (length b))))%Q.
Definition signed (neg : bool) (s : jstr) : jstr := if neg then ch "-" :: s else s.
Definition sign (neg : bool) (q : Q) : Q := (if neg then - q else q)%Q.

Lemma whole_form z : exists neg body, print_Z z = signed neg body /\ digits body /\ (inject_Z z == sign neg (inject_Z (natural body)))%Q.
Proof.
  unfold print_Z. destruct (z <? 0) eqn:L.
  - apply Z.ltb_lt in L. exists true, (print_N (Z.to_N (- z))). split; [reflexivity|]. split; [apply print_digits|].
    rewrite print_natural, Z2N.id by lia. cbn. unfold Qeq. cbn. lia.
  - apply Z.ltb_ge in L. exists false, (print_N (Z.to_N z)). split; [reflexivity|]. split; [apply print_digits|].
    rewrite print_natural, Z2N.id by lia. reflexivity.
Qed.
Lemma repeat_digits n ds : digits ds -> digits (repeat (ch "0") n ++ ds).
Proof.
  intros [N D]. split; [destruct n; [exact N|discriminate]|]. apply Forall_app. split; [|exact D]. apply Forall_forall. intros c I. apply repeat_spec in I. subst c. reflexivity.
Qed.
Lemma natural_zeros n ds : natural (repeat (ch "0") n ++ ds) = natural ds.
Proof. induction n as [|n IH]; [reflexivity|]. cbn [repeat app natural]. rewrite IH. change (Z.of_N (ch "0")) with 48. lia. Qed.
Lemma firstn_digits n ds : digits ds -> (0 < n)%nat -> digits (firstn n ds).
Proof.
  intros [N D] L. split; [destruct ds; [contradiction|]; destruct n; [lia|discriminate]|]. rewrite Forall_forall in *. intros c I. apply D. rewrite <- (firstn_skipn n ds). apply in_or_app. auto.
Qed.
Lemma skipn_digits n ds : digits ds -> (n < length ds)%nat -> digits (skipn n ds).
Proof.
  intros [N D] L. split; [intros E; apply (f_equal (@length _)) in E; rewrite skipn_length in E; cbn in E; lia|]. rewrite Forall_forall in *. intros c I. apply D. rewrite <- (firstn_skipn n ds). apply in_or_app. auto.
Qed.
Lemma point_form ds s : digits ds -> (0 < s)%nat -> exists a b, digits a /\ digits b /\ insert_point ds s = a ++ J "." ++ b /\ natural (a ++ b) = natural ds /\ length b = s.
Proof.
  intros D Sp. unfold insert_point. destruct (s <? length ds)%nat eqn:L.
  - apply Nat.ltb_lt in L. exists (firstn (length ds - s) ds), (skipn (length ds - s) ds). split; [apply firstn_digits; [exact D|lia]|].
    split; [apply skipn_digits; [exact D|lia]|]. split; [reflexivity|]. split; [rewrite firstn_skipn; reflexivity|]. rewrite skipn_length. lia.
  - apply Nat.ltb_ge in L. exists (J "0"), (repeat (ch "0") (s - length ds) ++ ds). split; [split; [discriminate|repeat constructor]|].
    split; [apply repeat_digits, D|]. split; [reflexivity|]. split; [exact (natural_zeros (S (s - length ds)%nat) ds)|]. rewrite app_length, repeat_length. lia.
Qed.
Lemma decimal_scientific b : scale b <> 0 -> (0 <=? scale b) && (-6 <=? - scale b + (Z.of_nat (length (print_N (Z.abs_N (unscaled b)))) - 1)) = false ->
  exists m sg ds, bd_to_string b = signed (unscaled b <? 0) (m ++ J "E" ++ sg :: ds) /\ (digits m \/ exists a c, digits a /\ digits c /\ m = a ++ J "." ++ c) /\
    (sg = ch "+" \/ sg = ch "-") /\ digits ds /\ natural ds = Z.abs (- scale b + (Z.of_nat (length (print_N (Z.abs_N (unscaled b)))) - 1)).
Proof.
  intros S H. unfold bd_to_string. apply Z.eqb_neq in S. rewrite S. cbv zeta. rewrite H. pose proof (print_digits (Z.abs_N (unscaled b))) as D. set (p := print_N _) in *.
  set (adj := - scale b + _) in *.
  assert (A : adj <> 0).
  { intros A. apply andb_false_iff in H. destruct D as [Dn _]. assert (1 <= Z.of_nat (length p)) by (destruct p; [contradiction|cbn [length]; lia]).
    destruct H as [H|H]; [apply Z.leb_gt in H; unfold adj in A; lia|apply Z.leb_gt in H; lia]. }
  replace (adj =? 0) with false by (symmetry; apply Z.eqb_neq; exact A).
  assert (Sg : exists sg ds, (if 0 <? adj then [ch "+"] else []) ++ print_Z adj = sg :: ds /\ (sg = ch "+" \/ sg = ch "-") /\ digits ds /\ natural ds = Z.abs adj).
  { unfold print_Z. destruct (0 <? adj) eqn:L.
    - apply Z.ltb_lt in L. replace (adj <? 0) with false by (symmetry; apply Z.ltb_ge; lia). exists (ch "+"), (print_N (Z.to_N adj)). split; [reflexivity|]. split; [auto|].
      split; [apply print_digits|]. rewrite print_natural, Z2N.id by lia. lia.
    - apply Z.ltb_ge in L. replace (adj <? 0) with true by (symmetry; apply Z.ltb_lt; lia). exists (ch "-"), (print_N (Z.to_N (- adj))). split; [reflexivity|]. split; [auto|].
      split; [apply print_digits|]. rewrite print_natural, Z2N.id by lia. lia. }
  destruct Sg as [sg [ds [E [Hs [Hd Hn]]]]]. rewrite E.
  destruct D as [Dn D]. destruct p as [|c [|c' p]]; [contradiction| |].
  - exists [c], sg, ds. split; [unfold sign_str, signed; destruct (unscaled b <? 0); reflexivity|]. split; [left; split; [discriminate|exact D]|]. auto.
  - exists ([c] ++ J "." ++ (c' :: p)), sg, ds. split; [unfold sign_str, signed; destruct (unscaled b <? 0); cbn [app]; reflexivity|].
    split; [right; exists [c], (c' :: p); inversion D; subst; repeat split; try discriminate; try (repeat constructor; assumption); assumption|]. auto.
Qed.
Lemma abs_sign z : (inject_Z z == sign (z <? 0)%Z (inject_Z (Z.of_N (Z.abs_N z))))%Q.
Proof. rewrite N2Z.inj_abs_N. destruct (z <? 0) eqn:L; [apply Z.ltb_lt in L|apply Z.ltb_ge in L]; cbn; unfold Qeq; cbn; lia. Qed.
Lemma sign_mult neg p q : (sign neg p * q == sign neg (p * q))%Q.
Proof. destruct neg; cbn; ring. Qed.
Lemma decimal_form b : ~ scientific (bd_to_string b) -> exists neg body q, bd_to_string b = signed neg body /\ plain_body body q /\ (dec_value b == sign neg q)%Q.
Proof.
  intros N. set (n := Z.abs_N (unscaled b)). destruct (Z.eq_dec (scale b) 0) as [Z0|NZ].
  - exists (unscaled b <? 0), (print_N n), (inject_Z (natural (print_N n))). split.
    { unfold bd_to_string. rewrite (proj2 (Z.eqb_eq _ _) Z0). unfold sign_str, signed. destruct (unscaled b <? 0); reflexivity. }
    split; [left; split; [apply print_digits|reflexivity]|]. unfold dec_value. rewrite Z0, print_natural. change ((10 # 1) ^ (- 0))%Q with 1%Q. rewrite Qmult_1_r. apply abs_sign.
  - destruct ((0 <=? scale b) && (-6 <=? - scale b + (Z.of_nat (length (print_N n)) - 1))) eqn:C.
    2:{ destruct (decimal_scientific b NZ C) as [m [sg [ds [E _]]]]. exfalso. apply N. unfold scientific. rewrite E. unfold signed.
        assert (I : In (ch "E") (m ++ J "E" ++ sg :: ds)) by (apply in_or_app; right; left; reflexivity). destruct (unscaled b <? 0); [right|]; exact I. }
    pose proof C as C'. apply andb_true_iff in C'. destruct C' as [C1 _]. apply Z.leb_le in C1.
    destruct (point_form (print_N n) (Z.to_nat (scale b)) (print_digits n) ltac:(lia)) as [a [c [A [B [E [V L]]]]]].
    exists (unscaled b <? 0), (a ++ J "." ++ c), (dec_value (BD (natural (a ++ c)) (Z.of_nat (length c)))). split.
    { unfold bd_to_string. rewrite (proj2 (Z.eqb_neq _ _) NZ). cbv zeta. fold n. rewrite C, E. unfold sign_str, signed. destruct (unscaled b <? 0); reflexivity. }
    split; [right; exists a, c; split; [exact A|]; split; [exact B|]; split; reflexivity|]. unfold dec_value. cbn [unscaled scale]. rewrite V, L, print_natural, Z2Nat.id by lia.
    rewrite (abs_sign (unscaled b)). apply sign_mult.
Qed.
Lemma float_form t q : float_text t q -> ~ scientific t -> exists neg body q', t = signed neg body /\ plain_body body q' /\ (q == sign neg q')%Q.
Proof.
  intros [neg [ip [fp [ex [N1 [N2 [D1 [D2 [_ [_ [E Q]]]]]]]]]]] N. assert (ex = None) as ->.
  { destruct ex as [e|]; [|reflexivity]. exfalso. apply N. unfold scientific. rewrite E. do 4 (apply in_or_app; right). left. reflexivity. }
  assert (A : digits ip) by (split; [exact N1|apply LexTight.all_digits, D1]). assert (B : digits fp) by (split; [exact N2|apply LexTight.all_digits, D2]).
  exists neg, (ip ++ J "." ++ fp), (dec_value (BD (natural (ip ++ fp)) (Z.of_nat (length fp)))). split; [rewrite E, app_nil_r; destruct neg; reflexivity|].
  split; [right; exists ip, fp; split; [exact A|]; split; [exact B|]; split; reflexivity|]. rewrite Q. unfold dec_value. cbn [unscaled scale]. change ((10 # 1) ^ 0)%Q with 1%Q. rewrite Qmult_1_r.
  assert (P : (inject_Z (10 ^ Z.of_nat (length fp))%Z * (10 # 1) ^ (- Z.of_nat (length fp)) == 1)%Q).
  { rewrite Qpower.Zpower_Qpower by lia. change (inject_Z 10) with (10 # 1)%Q. rewrite <- Qpower_plus by discriminate. rewrite Z.add_opp_diag_r. reflexivity. }
  assert (V : (inject_Z (natural (ip ++ fp)) * (10 # 1) ^ (- Z.of_nat (length fp)) == inject_Z (digits_val ip) + inject_Z (digits_val fp) * (10 # 1) ^ (- Z.of_nat (length fp)))%Q).
  { rewrite natural_val, digits_val_app, inject_Z_plus, inject_Z_mult. rewrite Qmult_plus_distr_l, <- Qmult_assoc, P, Qmult_1_r. reflexivity. }
  destruct neg; cbn [sign]; rewrite V; ring.
Qed.
Lemma number_form u q : number u q -> ~ scientific (show u) -> exists neg body q', show u = signed neg body /\ plain_body body q' /\ (q == sign neg q')%Q.
Proof.
  destruct 1 as [z q B Q|z q B Q|b q Q|dbl t q F]; intros N; cbn [show] in *.
  - destruct (whole_form z) as [neg [body [E [D V]]]]. exists neg, body, (inject_Z (natural body)). split; [exact E|]. split; [left; split; [exact D|reflexivity]|]. rewrite Q. exact V.
  - destruct (whole_form z) as [neg [body [E [D V]]]]. exists neg, body, (inject_Z (natural body)). split; [exact E|]. split; [left; split; [exact D|reflexivity]|]. rewrite Q. exact V.
  - destruct (decimal_form b N) as [neg [body [q' [E [P V]]]]]. exists neg, body, q'. split; [exact E|]. split; [exact P|]. rewrite Q. exact V.
  - exact (float_form t q F N).
Qed.

(** ** Plain numbers are literals, perhaps after a sign *)
Lemma number_comp u p q : (p == q)%Q -> number u p -> number u q.
Proof.
  intros E. destruct 1 as [z p0 B Q|z p0 B Q|b p0 Q|dbl t p0 F]; [apply number_int|apply number_long|apply number_dec|apply number_float]; try assumption; try (rewrite <- E; exact Q).
  destruct F as [neg [ip [fp [ex [N1 [N2 [D1 [D2 [L [X [T Q]]]]]]]]]]]. exists neg, ip, fp, ex. repeat (split; [assumption|]). rewrite <- E. exact Q.
Qed.
Lemma body_literal body q : plain_body body q -> In (ch ".") body \/ (q < inject_Z 9223372036854775808)%Q -> exists ty w, operand body (NUnary ty w) /\ In ty [INTEGER; LONG; DECIMAL] /\ number w q.
Proof.
  intros [[D Q]|[a [b [A [B [-> Q]]]]]] H.
  - destruct H as [H|H]; [exfalso; exact (digits_no (ch ".") _ D eq_refl H)|]. pose proof (natural_nonneg body D) as N. rewrite Q in H. rewrite <- Zlt_Qlt in H.
    destruct (Z_le_gt_dec (natural body) 2147483647) as [L|L].
    + exists INTEGER, (VInt (natural body)). split; [apply o_integer; [exact D|unfold fits32; lia]|]. split; [cbn; auto|]. apply number_int; [lia|exact Q].
    + exists LONG, (VLong (natural body)). split; [apply o_long; [exact D|unfold fits32; lia|unfold fits64; lia]|]. split; [cbn; auto|]. apply number_long; [lia|exact Q].
  - exists DECIMAL, (VDec (BD (natural (a ++ b)) (Z.of_nat (length b)))). split; [apply o_decimal; assumption|]. split; [cbn; auto|]. apply number_dec. exact Q.
Qed.
Lemma body_nonneg body q : plain_body body q -> (0 <= q)%Q.
Proof.
  intros [[D Q]|[a [b [[A1 A] [[B1 B] [_ Q]]]]]]; rewrite Q.
  - change 0%Q with (inject_Z 0). rewrite <- Zle_Qle. apply natural_nonneg, D.
  - unfold dec_value. cbn [unscaled scale]. apply Qmult_le_0_compat; [|apply Qpower_0_le; discriminate]. change 0%Q with (inject_Z 0). rewrite <- Zle_Qle. apply natural_nonneg.
    split; [intros E; apply app_eq_nil in E; destruct E; contradiction|apply Forall_app; auto].
Qed.
Lemma plain_signed u q : plain_number u q -> exists neg body ty w, show u = signed neg body /\ operand body (NUnary ty w) /\ In ty [INTEGER; LONG; DECIMAL] /\ number w (sign neg q).
Proof.
  intros [N [NE H]]. destruct (number_form u q N NE) as [neg [body [q' [E [P V]]]]].
  assert (B : In (ch ".") body \/ (q' < inject_Z 9223372036854775808)%Q).
  { destruct H as [H|[H1 H2]]; [left|right].
    - rewrite E in H. destruct neg; cbn [signed] in H; [destruct H as [H|H]; [discriminate H|]|]; exact H.
    - rewrite V in H1, H2. destruct neg; cbn [sign] in H1, H2; lra. }
  destruct (body_literal body q' P B) as [ty [w [O [I W]]]]. exists neg, body, ty, w. split; [exact E|]. split; [exact O|]. split; [exact I|]. apply number_comp with q'; [|exact W].
  destruct neg; cbn [sign] in *; rewrite V; ring.
Qed.

Lemma space_blank : blanks (J " ").
Proof. repeat constructor. Qed.
Lemma comparison_laid x o y : laid_out [x; o; y] (comparison_text x o y).
Proof.
  right. exists [], (comparison_text x o y). split; [constructor|]. split; [|reflexivity]. unfold comparison_text.
  apply laid_more; [apply space_blank|left; discriminate|]. apply laid_more; [apply space_blank|left; discriminate|].
  rewrite <- (app_nil_r y) at 2. apply laid_last. constructor.
Qed.
Lemma negative_laid x o y : laid_out [x; o; J "-"; y] (comparison_text x o (ch "-" :: y)).
Proof.
  right. exists [], (comparison_text x o (ch "-" :: y)). split; [constructor|]. split; [|reflexivity]. unfold comparison_text.
  apply laid_more; [apply space_blank|left; discriminate|]. apply laid_more; [apply space_blank|left; discriminate|].
  change (ch "-" :: y) with (J "-" ++ [] ++ y). apply laid_more; [constructor| |rewrite <- (app_nil_r y) at 2; apply laid_last; constructor].
  right. intros c b' ->. split; [intros X; discriminate X|]. split; [intros [X|X]; discriminate X|]. intros F. inversion F; subst. discriminate.
Qed.
Lemma question_comp op p q r : (q == r)%Q -> question op p q = question op p r.
Proof.
  intros E. assert (EqB : Qeq_bool p q = Qeq_bool p r) by (apply eq_true_iff_eq; rewrite !Qeq_bool_iff, E; reflexivity).
  assert (LeB : Qle_bool p q = Qle_bool p r) by (apply eq_true_iff_eq; rewrite !Qle_bool_iff, E; reflexivity).
  assert (GeB : Qle_bool q p = Qle_bool r p) by (apply eq_true_iff_eq; rewrite !Qle_bool_iff, E; reflexivity).
  destruct op; cbn; rewrite ?EqB, ?LeB, ?GeB; reflexivity.
Qed.
Lemma literal_yields E d ty w : w <> VNull -> yields E d (NUnary ty w) w.
Proof. intros N. split; [reflexivity|]. split; [exact N|]. intros [f [H _]]. discriminate. Qed.

Lemma number_inserted E d dflt x m sym op v p u q b : operand x m -> In (sym, op) comparators -> yields E d m v -> number v p -> plain_number u q ->
  question op p q = Some b -> evaluate_boolean E (comparison_text x sym (show u)) d dflt = Ok b.
Proof.
  intros X C Y Np P Q. destruct (plain_signed u q P) as [neg [body [ty [w [-> [O [I W]]]]]]]. destruct neg; cbn [signed sign] in *.
  - apply (negative_number E d dflt x m sym op body ty w v p (- q)%Q b); try assumption; [apply negative_laid|]. rewrite <- Q. apply question_comp. ring.
  - rewrite (proj1 (layout_condition E d dflt _ _ _ _ (w_compare Nothing x sym body m op (NUnary ty w) STRING (or_introl eq_refl) X C O) (comparison_laid x sym body))).
    apply (compare_number_operands E d m (NUnary ty w) op STRING v w p q b); try assumption. apply literal_yields. intros ->. inversion W.
Qed.

(** ** Scientific notation *)
Lemma sum_after E d dflt x m o op y n sg z p s : operand x m -> In (o, op) comparators -> operand y n -> sg = J "+" \/ sg = J "-" -> operand z p ->
  laid_out [x; o; y; sg; z] s -> evaluate_boolean E s d dflt = Ok false.
Proof.
  intros X C Y Sg Z O. destruct (operand_words _ _ X) as [kx [Gx Kx]]. destruct (operand_words _ _ Y) as [ky [Gy Ky]]. destruct (operand_words _ _ Z) as [kz [Gz Kz]]. destruct (comparator_genuine _ _ C) as [kc [Gc Kc]].
  assert (Sym : exists aop, In (sg, aop) arithmetic_symbols) by (destruct Sg as [-> | ->]; eexists; cbn; auto). destruct Sym as [aop I].
  destruct (symbol_level _ _ I) as [ka [Ga [Aa La]]].
  rewrite (layout_meaning E s (PArith (PCmp (PTypes (Tok kx x)) (Tok kc o) (PTypes (Tok ky y))) (Tok ka sg) (PTypes (Tok kz z))) [x; o; y; sg; z]
    (NArith (NCmp m n op STRING) (Some p) aop) d dflt); [reflexivity|reflexivity|cbn [yield app]; genuines| | | |exact O].
  - eapply r_arith; [exact Aa|exact La|lia| |apply r_operand; exact Kz]. eapply r_cmp; [exact Kc|apply comparator_level9, Kc| |apply r_operand; exact Kx|apply r_operand; exact Ky].
    clear -I. unfold arithmetic_symbols in I. table_tac I; cbn; lia.
  - apply g_arith_left; [|reflexivity]. apply g_cmp_plain; auto.
  - repeat (constructor; try assumption).
Qed.
Lemma sum_after_negative E d dflt x m o op y n sg z p s : operand x m -> In (o, op) comparators -> operand y n -> sg = J "+" \/ sg = J "-" -> operand z p ->
  laid_out [x; o; J "-"; y; sg; z] s -> evaluate_boolean E s d dflt = Ok false.
Proof.
  intros X C Y Sg Z O. destruct (operand_words _ _ X) as [kx [Gx Kx]]. destruct (operand_words _ _ Y) as [ky [Gy Ky]]. destruct (operand_words _ _ Z) as [kz [Gz Kz]]. destruct (comparator_genuine _ _ C) as [kc [Gc Kc]].
  assert (Sym : exists aop, In (sg, aop) arithmetic_symbols) by (destruct Sg as [-> | ->]; eexists; cbn; auto). destruct Sym as [aop I].
  destruct (symbol_level _ _ I) as [ka [Ga [Aa La]]]. pose proof minus_genuine as GM.
  rewrite (layout_meaning E s (PArith (PCmp (PTypes (Tok kx x)) (Tok kc o) (PNeg (PTypes (Tok ky y)))) (Tok ka sg) (PTypes (Tok kz z))) [x; o; J "-"; y; sg; z]
    (NArith (NCmp m (NArith n None UNARY) op STRING) (Some p) aop) d dflt); [reflexivity|reflexivity|cbn [yield app]; genuines| | | |exact O].
  - eapply r_arith; [exact Aa|exact La|lia| |apply r_operand; exact Kz]. eapply r_cmp; [exact Kc|apply comparator_level9, Kc| |apply r_operand; exact Kx|].
    + clear -I. unfold arithmetic_symbols in I. table_tac I; cbn; lia.
    + apply r_neg; [apply r_operand; exact Ky|]. cbn [kind]. clear -Aa. intros H. cbn in Aa, H. decompose [or] Aa; subst; decompose [or] H; try discriminate; assumption.
  - apply g_arith_left; [|reflexivity]. apply g_cmp_right; [reflexivity| |right; discriminate]. apply g_neg_plain; [reflexivity|discriminate].
  - repeat (constructor; try assumption).
Qed.
Lemma digit_first_field c w : is_digit c = true -> Forall (fun c => word_char c = true) w -> In (ch "E") w -> field_name (c :: w).
Proof.
  intros D W I. split; [constructor; [|exact W]; unfold word_char, letter_or_digit; rewrite D; reflexivity|]. split.
  - apply Exists_exists. exists (ch "E"). split; [right; exact I|]. split; [reflexivity|discriminate].
  - intros [k [up [lo [K [E|E]]]]]; clear -D K E; cbn in K; repeat (destruct K as [K|K]; [injection K as <- <- <-; injection E as -> _; discriminate D|]); contradiction.
Qed.
Lemma digits_word ds : digits ds -> Forall (fun c => word_char c = true) ds.
Proof. intros [_ D]. apply (Forall_impl _ (P := fun c => is_digit c = true)); [|exact D]. intros c H. unfold word_char, letter_or_digit. rewrite H. reflexivity. Qed.
Lemma mantissa_field m r : digits m \/ (exists a c, digits a /\ digits c /\ m = a ++ J "." ++ c) -> Forall (fun c => word_char c = true) r -> field_name (m ++ J "E" ++ r).
Proof.
  intros M R.
  assert (W : Forall (fun c => word_char c = true) m /\ exists c m', m = c :: m' /\ is_digit c = true).
  { destruct M as [M|[a [b [A [B ->]]]]].
    - split; [apply digits_word, M|]. destruct M as [N D]. destruct m; [contradiction|]. inversion D; subst. eauto.
    - split; [apply Forall_app; split; [apply digits_word, A|]; constructor; [reflexivity|apply digits_word, B]|]. destruct A as [N D]. destruct a; [contradiction|]. inversion D; subst. cbn. eauto. }
  destruct W as [W [c [m' [-> D]]]]. inversion W; subst. apply (digit_first_field c (m' ++ J "E" ++ r)); [exact D| |apply in_or_app; right; left; reflexivity].
  apply Forall_app. split; [assumption|]. constructor; [reflexivity|exact R].
Qed.
Lemma sign_touches a sg ds : (sg = ch "+" \/ sg = ch "-") -> In (ch "E") a -> touching a (sg :: ds).
Proof.
  intros S I c b' E. injection E as <- _. split; [intros _; destruct S as [-> | ->]; reflexivity|]. split; [intros _ ->; destruct S; discriminate|].
  intros F. rewrite Forall_forall in F. specialize (F _ I). discriminate.
Qed.
Lemma after_sign sg ds : (sg = ch "+" \/ sg = ch "-") -> touching [sg] ds.
Proof.
  intros S c b' ->. split; [destruct S as [-> | ->]; intros X; discriminate X|]. split; [intros [X|X]; destruct S as [-> | ->]; discriminate X|].
  intros F. inversion F; subst. destruct S as [-> | ->]; discriminate.
Qed.
Lemma laid_end y : laid [y] y.
Proof. rewrite <- (app_nil_r y) at 2. apply laid_last. constructor. Qed.
Lemma scientific_false E d dflt x m o op neg man sg ds : operand x m -> In (o, op) comparators ->
  digits man \/ (exists a c, digits a /\ digits c /\ man = a ++ J "." ++ c) -> sg = ch "+" \/ sg = ch "-" -> digits ds -> natural ds <= 9223372036854775807 ->
  evaluate_boolean E (comparison_text x o (signed neg (man ++ J "E" ++ sg :: ds))) d dflt = Ok false.
Proof.
  intros X C M Sg D F. set (y := man ++ J "E"). assert (Y : operand y (NField (Some y))) by (apply o_field; apply (mantissa_field man []); [exact M|constructor]).
  assert (I : In (ch "E") y) by (apply in_or_app; right; left; reflexivity).
  replace (man ++ J "E" ++ sg :: ds) with (y ++ [] ++ [sg] ++ [] ++ ds) by (unfold y; rewrite <- app_assoc; reflexivity).
  assert (Z : exists ty w, operand ds (NUnary ty w)).
  { destruct (body_literal ds (inject_Z (natural ds))) as [ty [w [O _]]]; [left; split; [exact D|reflexivity]|right; rewrite <- Zlt_Qlt; lia|eauto]. }
  destruct Z as [ty [w Z]].
  assert (L : laid [y; [sg]; ds] (y ++ [] ++ [sg] ++ [] ++ ds)).
  { apply laid_more; [constructor|right; apply sign_touches; assumption|]. apply laid_more; [constructor|right; apply after_sign; exact Sg|]. apply laid_end. }
  assert (SG : [sg] = J "+" \/ [sg] = J "-") by (destruct Sg as [-> | ->]; auto).
  destruct neg; cbn [signed].
  - apply (sum_after_negative E d dflt x m o op y _ [sg] ds _ _ X C Y SG Z). right. eexists [], _. split; [constructor|]. split; [|reflexivity]. unfold comparison_text.
    apply laid_more; [apply space_blank|left; discriminate|]. apply laid_more; [apply space_blank|left; discriminate|].
    change (ch "-" :: y ++ [] ++ [sg] ++ [] ++ ds) with (J "-" ++ [] ++ (y ++ [] ++ [sg] ++ [] ++ ds)). apply laid_more; [constructor| |exact L].
    right. apply (after_sign (ch "-")). auto.
  - apply (sum_after E d dflt x m o op y _ [sg] ds _ _ X C Y SG Z). right. eexists [], _. split; [constructor|]. split; [|reflexivity]. unfold comparison_text.
    apply laid_more; [apply space_blank|left; discriminate|]. apply laid_more; [apply space_blank|left; discriminate|]. exact L.
Qed.
Lemma decimal_scientific_false E d dflt x m sym op b : operand x m -> In (sym, op) comparators -> -2147483648 <= scale b <= 2147483647 ->
  Z.of_nat (length (show (VDec b))) <= 2147483647 -> scientific (show (VDec b)) -> evaluate_boolean E (comparison_text x sym (show (VDec b))) d dflt = Ok false.
Proof.
  intros X C Sb L Sc. cbn [show] in *. destruct (Z.eq_dec (scale b) 0) as [Z0|NZ].
  { exfalso. revert Sc. unfold scientific, bd_to_string. rewrite (proj2 (Z.eqb_eq _ _) Z0). intros I. apply in_app_or in I. destruct I as [I|I].
    - unfold sign_str in I. destruct (unscaled b <? 0); [destruct I as [I|[]]; discriminate|contradiction].
    - exact (digits_no (ch "E") _ (print_digits _) eq_refl I). }
  destruct ((0 <=? scale b) && (-6 <=? - scale b + (Z.of_nat (length (print_N (Z.abs_N (unscaled b)))) - 1))) eqn:K.
  { exfalso. revert Sc. unfold scientific, bd_to_string. rewrite (proj2 (Z.eqb_neq _ _) NZ). cbv zeta. rewrite K. intros I. apply in_app_or in I. destruct I as [I|I].
    - unfold sign_str in I. destruct (unscaled b <? 0); [destruct I as [I|[]]; discriminate|contradiction].
    - apply andb_true_iff in K. destruct K as [K _]. apply Z.leb_le in K.
      destruct (point_form _ (Z.to_nat (scale b)) (print_digits (Z.abs_N (unscaled b))) ltac:(lia)) as [a [c [A [B [E0 _]]]]]. rewrite E0 in I.
      apply in_app_or in I. destruct I as [I|[I|I]]; [exact (digits_no (ch "E") _ A eq_refl I)|discriminate I|exact (digits_no (ch "E") _ B eq_refl I)]. }
  destruct (decimal_scientific b NZ K) as [man [sg [ds [E0 [M [Sg [D N]]]]]]].
  assert (P : Z.of_nat (length (print_N (Z.abs_N (unscaled b)))) <= 2147483647 + 1).
  { revert L. unfold bd_to_string. rewrite (proj2 (Z.eqb_neq _ _) NZ). cbv zeta. rewrite K, !app_length. destruct (print_N (Z.abs_N (unscaled b))) as [|c0 [|c1 p0]]; cbn [length]; lia. }
  rewrite E0. apply (scientific_false E d dflt x m sym op _ man sg ds X C M Sg D). rewrite N. lia.
Qed.

(** ** Doubles and floats in scientific notation *)
Lemma float_scientific_false E d dflt x m sym op neg ip fp e : operand x m -> In (sym, op) comparators -> digits ip -> digits fp -> -1000 <= e < 0 ->
  evaluate_boolean E (comparison_text x sym (signed neg (ip ++ J "." ++ fp ++ J "E" ++ print_Z e))) d dflt = Ok false.
Proof.
  intros X C A B L. destruct e as [|e|e]; [lia|lia|].
  change (print_Z (Z.neg e)) with (ch "-" :: print_N (N.pos e)).
  replace (ip ++ J "." ++ fp ++ J "E" ++ ch "-" :: print_N (N.pos e)) with ((ip ++ J "." ++ fp) ++ J "E" ++ ch "-" :: print_N (N.pos e)) by (rewrite <- !app_assoc; reflexivity).
  apply (scientific_false E d dflt x m sym op neg (ip ++ J "." ++ fp) (ch "-") (print_N (N.pos e)) X C); [right; eauto|auto|apply print_digits|].
  rewrite print_natural. lia.
Qed.
Lemma float_scientific_field E d dflt x m sym op ip fp e : operand x m -> In (sym, op) comparators -> digits ip -> digits fp -> 0 <= e ->
  let t := ip ++ J "." ++ fp ++ J "E" ++ print_Z e in
  evaluate_boolean E (comparison_text x sym t) d dflt = bool_eval E d (NCmp m (NField (Some t)) op STRING) /\
  evaluate_boolean E (comparison_text x sym (ch "-" :: t)) d dflt = bool_eval E d (NCmp m (NArith (NField (Some t)) None UNARY) op STRING).
Proof.
  intros X C A B L t.
  assert (P : exists n, print_Z e = print_N n) by (destruct e as [|e|e]; [exists 0%N; reflexivity|exists (N.pos e); reflexivity|lia]). destruct P as [n P].
  assert (Y : operand t (NField (Some t))).
  { apply o_field. unfold t. replace (ip ++ J "." ++ fp ++ J "E" ++ print_Z e) with ((ip ++ J "." ++ fp) ++ J "E" ++ print_Z e) by (rewrite <- !app_assoc; reflexivity).
    apply mantissa_field; [right; eauto|]. rewrite P. apply digits_word, print_digits. }
  split.
  - apply (layout_condition E d dflt _ _ _ _ (w_compare Nothing x sym t m op _ STRING (or_introl eq_refl) X C Y) (comparison_laid x sym t)).
  - apply (negative_right E d dflt x m sym op t _ _ X C Y (negative_laid x sym t)).
Qed.

(** ** Integers that do not fit *)
Lemma huge_token ds dflt : digits ds -> ~ fits64 (natural ds) -> map_types_token dflt (Tok T_INTEGER ds) = Err NumberFormat.
Proof.
  intros D F. pose proof (integer_genuine ds D) as G. rewrite (map_literal _ _ _ G) by discriminate. destruct (digits_all ds D) as [N H].
  unfold token_data_type, numeric_data_type, convert_value, parse_int, parse_long. cbn [kind text]. rewrite (parse_integer_digits ds N H), <- natural_val.
  unfold fits64 in F. rewrite <- in_long_iff in F. destruct (in_long (natural ds)) eqn:Y; [contradiction|]. destruct (in_int (natural ds)) eqn:X; [apply in_int_long in X; congruence|]. reflexivity.
Qed.
Lemma huge_fails E d dflt x m sym op neg ds : operand x m -> In (sym, op) comparators -> digits ds -> ~ fits64 (natural ds) ->
  evaluate_boolean E (comparison_text x sym (signed neg ds)) d dflt = Err NumberFormat.
Proof.
  intros X C D F. destruct (operand_words _ _ X) as [kx [Gx Kx]]. destruct (comparator_genuine _ _ C) as [kc [Gc Kc]]. pose proof minus_genuine as GM. pose proof (integer_genuine ds D) as GD.
  pose proof (huge_token ds dflt D F) as H. unfold evaluate_boolean. destruct neg; cbn [signed].
  - rewrite (layout_listen (PCmp (PTypes (Tok kx x)) (Tok kc sym) (PNeg (PTypes (Tok T_INTEGER ds)))) [x; sym; J "-"; ds]);
      [|reflexivity|cbn [yield app]; genuines| |apply negative_laid].
    + unfold listen. cbn [walk bind stack exit_unary]. unfold exit_types. cbn [stack bind as_types exit_unary]. rewrite H. reflexivity.
    + eapply r_cmp; [exact Kc|apply comparator_level9, Kc|lia|apply r_operand; exact Kx|]. apply r_neg; [apply r_operand; cbn; tauto|]. cbn. intros H0. decompose [or] H0; try discriminate; assumption.
  - rewrite (layout_listen (PCmp (PTypes (Tok kx x)) (Tok kc sym) (PTypes (Tok T_INTEGER ds))) [x; sym; ds]);
      [|reflexivity|cbn [yield app]; genuines| |apply comparison_laid].
    + unfold listen. cbn [walk bind stack]. unfold exit_types. cbn [stack bind push_context map_context steals]. unfold push_context. cbn [map_context steals stack]. rewrite H. reflexivity.
    + eapply r_cmp; [exact Kc|apply comparator_level9, Kc|lia|apply r_operand; exact Kx|apply r_operand; cbn; tauto].
Qed.
Lemma huge_inserted E d dflt x m sym op u q : operand x m -> In (sym, op) comparators -> number u q -> ~ scientific (show u) -> ~ In (ch ".") (show u) ->
  (q <= - inject_Z 9223372036854775808 \/ inject_Z 9223372036854775808 <= q)%Q -> evaluate_boolean E (comparison_text x sym (show u)) d dflt = Err NumberFormat.
Proof.
  intros X C N NE ND H. destruct (number_form u q N NE) as [neg [body [q' [E0 [P V]]]]]. rewrite E0 in *. pose proof (body_nonneg _ _ P) as NN. destruct P as [[D Q]|[a [b [_ [_ [-> _]]]]]].
  - apply (huge_fails E d dflt x m sym op neg body X C D). unfold fits64. intros F.
    assert (G : (inject_Z 9223372036854775808 <= q')%Q) by (rewrite V in H; destruct neg; cbn [sign] in H; destruct H as [H|H]; unfold inject_Z in *; lra).
    rewrite Q, <- Zle_Qle in G. lia.
  - exfalso. apply ND. assert (I : In (ch ".") (a ++ J "." ++ b)) by (apply in_or_app; right; left; reflexivity). destruct neg; [right|]; exact I.
Qed.

(** ** Booleans *)
Lemma boolean_operand b : operand (show (VBool b)) (NUnary BOOLEAN (VBool b)).
Proof. destruct b; [apply o_true|apply o_false]; cbn; auto. Qed.
Lemma literal_compared E d dflt x m sym op t ty w : operand x m -> In (sym, op) comparators -> operand t (NUnary ty w) ->
  evaluate_boolean E (comparison_text x sym t) d dflt = bool_eval E d (SpecCompare.cond m op (NUnary ty w)).
Proof. intros X C O. apply (layout_condition E d dflt _ _ _ _ (w_compare Nothing x sym t m op _ STRING (or_introl eq_refl) X C O) (comparison_laid x sym t)). Qed.
Lemma boolean_inserted E d dflt x m a b : operand x m -> yields E d m (VBool a) ->
  evaluate_boolean E (comparison_text x (J "=") (show (VBool b))) d dflt = Ok (Bool.eqb a b) /\
  evaluate_boolean E (comparison_text x (J "!=") (show (VBool b))) d dflt = Ok (negb (Bool.eqb a b)).
Proof.
  intros X Y. assert (Z : yields E d (NUnary BOOLEAN (VBool b)) (VBool b)) by (apply literal_yields; discriminate).
  assert (I1 : In (J "=", EQUALS) comparators) by (cbn; tauto). assert (I2 : In (J "!=", NOT_EQUAL) comparators) by (cbn; tauto).
  rewrite (literal_compared E d dflt x m _ EQUALS _ _ _ X I1 (boolean_operand b)), (literal_compared E d dflt x m _ NOT_EQUAL _ _ _ X I2 (boolean_operand b)).
  unfold SpecCompare.cond. rewrite !(cmp_yields E d m _ _ _ _ _ Y Z). destruct a, b; split; reflexivity.
Qed.

(** ** Dates *)
Lemma zeros_val k : digits_val (repeat (ch "0") k) = 0.
Proof. rewrite <- natural_val, <- (app_nil_r (repeat _ k)), natural_zeros. reflexivity. Qed.
Lemma pad_numeral k n : 0 <= n -> n < 10 ^ Z.of_nat k -> (1 <= k)%nat -> numeral k n (pad k n).
Proof.
  intros N L K. split; [|split; [apply pad_digits|]]; unfold pad.
  - rewrite app_length, repeat_length. assert (LS : Z.of_nat (length (print_N (Z.to_N n))) <= Z.of_nat k) by (apply print_N_length_le; [lia|rewrite Z2N.id by lia; exact L]). lia.
  - rewrite digits_val_app, zeros_val, print_N_val, Z2N.id by lia. lia.
Qed.
Lemma date_written a : calendar a -> 1 <= year a <= 9999 -> plain_text (year a) (month a) (day a) (date_to_string a) /\ length (date_to_string a) = 10%nat /\ written_date (date_to_string a) a.
Proof.
  intros [n [M D]] Y. pose proof (days_month_length _ _ _ M) as [Hm En]. pose proof (month_length_range (year a) (month a)) as R.
  assert (P : plain_text (year a) (month a) (day a) (date_to_string a)).
  { exists (pad 4 (year a)), (pad 2 (month a)), (pad 2 (day a)). split; [apply pad_numeral; [lia|change (10 ^ Z.of_nat 4) with 10000; lia|lia]|].
    split; [apply pad_numeral; [lia|change (10 ^ Z.of_nat 2) with 100; lia|lia]|]. split; [apply pad_numeral; [lia|change (10 ^ Z.of_nat 2) with 100; lia|lia]|].
    unfold date_to_string. replace (year a <? 0) with false by (symmetry; apply Z.ltb_ge; lia). replace (9999 <? year a) with false by (symmetry; apply Z.ltb_ge; lia). reflexivity. }
  split; [exact P|]. split.
  - destruct P as [p [q [r [[L1 _] [[L2 _] [[L3 _] ->]]]]]]. rewrite !app_length, L1, L2, L3. reflexivity.
  - pose proof (plain_written _ _ _ _ n P ltac:(lia) M ltac:(lia)) as W. replace (Z.min (day a) n) with (day a) in W by lia. destruct a; exact W.
Qed.
Lemma date_operand a : calendar a -> 1 <= year a <= 9999 -> operand (show (VDate a)) (NUnary DATE (VDate a)).
Proof. intros C Y. destruct (date_written a C Y) as [_ [L W]]. apply o_date; assumption. Qed.
Lemma date_inserted E d dflt x m sym op v a b k r : operand x m -> In (sym, op) comparators -> yields E d m v -> denotes_date v b -> calendar a -> 1 <= year a <= 9999 ->
  days_later k b a -> accepts op (0 ?= k) = Some r -> evaluate_boolean E (comparison_text x sym (show (VDate a))) d dflt = Ok r.
Proof.
  intros X C Y V Ca Ya K A. rewrite (literal_compared E d dflt x m sym op _ _ _ X C (date_operand a Ca Ya)).
  assert (Z : yields E d (NUnary DATE (VDate a)) (VDate a)) by (apply literal_yields; discriminate).
  destruct (date_order E d m (NUnary DATE (VDate a)) op STRING v (VDate a) b a Y Z V (or_introl (conj eq_refl Ca))) as [k' [K' H]].
  rewrite (days_later_unique _ _ _ _ K' K) in H. apply H, A.
Qed.

(** ** Texts *)
Lemma text_inserted E d dflt x m sym op q s w c r : operand x m -> In (sym, op) comparators -> q = ch "'" \/ q = 34%N -> ~ In q s -> yields E d m (VStr w) ->
  w = s /\ c = Eq \/ of_kind Texts (VStr w) /\ of_kind Texts (VStr s) /\ text_order w s c -> accepts op c = Some r ->
  evaluate_boolean E (comparison_text x sym (q :: s ++ [q])) d dflt = Ok r.
Proof.
  intros X C Hq NQ Y H A. rewrite (literal_compared E d dflt x m sym op _ _ _ X C (o_string q s Hq NQ)).
  assert (Z : yields E d (NUnary STRING (VStr s)) (VStr s)) by (apply literal_yields; discriminate).
  assert (T : of_kind Texts (VStr w) /\ of_kind Texts (VStr s) /\ text_order w s c -> bool_eval E d (SpecCompare.cond m op (NUnary STRING (VStr s))) = Ok r).
  { intros [T1 [T2 O]]. exact (texts_by_units E d m _ op w s c r Y Z T1 T2 O A). }
  destruct H as [[-> ->]|H]; [|exact (T H)]. destruct (parse_date s) as [a|] eqn:PD.
  - pose proof PD as W. apply parse_date_spec in W. assert (D : denotes_date (VStr s) a) by (right; eauto).
    destruct (date_order E d m (NUnary STRING (VStr s)) op STRING _ _ a a Y Z D D) as [k [K HK]]. apply HK.
    assert (K0 : days_later 0 a a) by (left; split; [lia|constructor]). rewrite (days_later_unique _ _ _ _ K K0). exact A.
  - destruct (parse_datetime s) as [t|] eqn:PT.
    + pose proof PT as W. apply parse_datetime_spec in W. assert (D : denotes_datetime (VStr s) t) by (right; eauto).
      destruct (datetime_order E d m (NUnary STRING (VStr s)) op STRING _ _ t t Y Z D D) as [k [[j [K Ek]] HK]]. apply HK.
      assert (K0 : days_later 0 (dt_date t) (dt_date t)) by (left; split; [lia|constructor]). rewrite (days_later_unique _ _ _ _ K K0) in Ek. rewrite Ek.
      replace (0 * 86400000000000 + (clock t - clock t)) with 0 by lia. exact A.
    + apply T. assert (O : of_kind Texts (VStr s)) by (exists s; auto). repeat split; assumption.
Qed.

(** ** Values as single words *)
Lemma insertable_operand u t : insertable u t -> exists ty w, operand t (NUnary ty w) /\ same_value u w.
Proof.
  destruct 1 as [u q P N S|b|a C Y|q s Q N].
  - destruct (plain_signed u q P) as [neg [body [ty [w [E [O [_ W]]]]]]]. destruct neg; [exfalso; exact (S body E)|]. cbn [signed sign] in *. rewrite E. exists ty, w. split; [exact O|]. right. exists q.
    split; [apply P|exact W].
  - exists BOOLEAN, (VBool b). split; [apply boolean_operand|left; reflexivity].
  - exists DATE, (VDate a). split; [apply date_operand; assumption|left; reflexivity].
  - exists STRING, (VStr s). split; [apply o_string; assumption|left; reflexivity].
Qed.

(** ** Text after a complete comparison *)
Lemma longer_match (w rest w' rest' : jstr) : w ++ rest = w' ++ rest' -> (length w < length w')%nat -> exists y, w' = w ++ y /\ rest = y ++ rest' /\ y <> [].
Proof.
  revert w'. induction w as [|c w IH]; intros w' E L.
  - exists w'. split; [reflexivity|]. split; [exact E|]. intros ->. cbn in L. lia.
  - destruct w' as [|c' w']; [cbn in L; lia|]. injection E as <- E. destruct (IH w' E) as [y [-> [H N]]]; [cbn [length] in L; lia|]. exists y. auto.
Qed.
Lemma quoted_picks q s rest : q = ch "'" \/ q = 34%N -> ~ In q s -> picks ((q :: s ++ [q]) ++ rest) T_WORD (q :: s ++ [q]).
Proof.
  intros Hq NQ. destruct (operand_token _ _ (o_string q s Hq NQ)) as [k [G [K _]]].
  assert (KW : k = T_WORD). { destruct (quoted_genuine q s Hq NQ) as [P' _]. destruct G as [P _]. cbn [kind text] in *. destruct (picks_unique _ _ _ _ _ P P') as [-> _]. reflexivity. }
  subst k. destruct G as [P _]. cbn [kind text] in P. pose proof P as [N [_ [R MAX]]]. split; [exact N|]. split; [eauto|]. split; [exact R|]. intros k' r' w' rest' I E M.
  destruct (Nat.le_gt_cases (length w') (length (q :: s ++ [q]))) as [L|L]; [exact L|]. exfalso. destruct (longer_match _ _ _ _ E L) as [y [-> [_ Ny]]].
  pose proof (rule_shape _ _ _ I M) as S. apply shape_cases in S.
  assert (Qc : is_field_char q = false /\ is_digit q = false /\ is_ws q = false) by (destruct Hq as [-> | ->]; repeat split; reflexivity). destruct Qc as [Q1 [Q2 Q3]].
  destruct S as [[_ F]|[F|[[F _]|[[F _]|[[_ [F _]]|[q' [b [Q [B V]]]]]]]]].
  - cbn [app forallb] in F. rewrite Q1 in F. discriminate.
  - clear -F Hq. unfold symbols in F. cbn [In app] in F. repeat (destruct F as [F|F]; [vm_compute in F; destruct Hq as [-> | ->]; discriminate|]). contradiction.
  - cbn [app date_classes matches_classes] in F. rewrite Q2 in F. discriminate.
  - cbn [app datetime_classes date_classes matches_classes] in F. rewrite Q2 in F. discriminate.
  - cbn [app forallb] in F. rewrite Q3 in F. discriminate.
  - cbn [app] in V. injection V as <- V. rewrite <- app_assoc in V. cbn [app] in V. apply Ny. apply (quote_splits q s b y); [|exact V|exact B].
    apply forallb_forall. intros c Ic. apply negb_true_iff, N.eqb_neq. intros ->. contradiction.
Qed.
Lemma date_picks s a rest : length s = 10%nat -> written_date s a -> (forall c r, rest = c :: r -> c <> ch " ") -> picks (s ++ rest) T_DATE s.
Proof.
  intros L10 W H. destruct (date_classes_text s a L10 W) as [MC [HD [c0 [Es C0]]]]. pose proof (date_genuine s a L10 W) as G. destruct G as [P _]. cbn [kind text] in P. pose proof P as [N [_ [R MAX]]].
  split; [exact N|]. split; [eauto|]. split; [exact R|]. intros k' r' w' rest' I E M.
  destruct (Nat.le_gt_cases (length w') (length s)) as [L|L]; [exact L|]. exfalso. destruct (longer_match _ _ _ _ E L) as [y [-> [Ey Ny]]].
  pose proof (rule_shape _ _ _ I M) as S. remember (s ++ y) as z eqn:Z. destruct S as [k0 z _ F|k0 z F|z F Lz|z F Lz|z _ F|k0 q body QQ F].
  - rewrite forallb_forall in F. specialize (F (ch "-")). subst z. assert (X : is_field_char (ch "-") = true) by (apply F, in_or_app; auto). discriminate X.
  - subst z. rewrite Es in F. cbn [app] in F. apply symbol_no_digit in F. congruence.
  - cbn in Lz. lia.
  - subst z. destruct (matches_classes_nth _ _ 10%nat (is_char (ch " ")) F eq_refl) as [c [Hc Pc]]. rewrite nth_error_app2 in Hc by lia. rewrite L10 in Hc. cbn [Nat.sub] in Hc.
    destruct y as [|c' y]; [discriminate|]. injection Hc as ->. unfold is_char in Pc. apply N.eqb_eq in Pc. exact (H c _ Ey Pc).
  - subst z. rewrite Es in F. cbn [app forallb] in F. apply andb_true_iff in F. destruct F as [F _]. rewrite (digit_not_ws _ C0) in F. discriminate.
  - rewrite Es in Z. injection Z as -> _. destruct QQ as [-> | ->]; discriminate C0.
Qed.
Lemma comparator_head sym op : In (sym, op) comparators -> exists c r, sym = c :: r /\ is_ws c = false /\ is_digit c = false.
Proof. intros I. unfold comparators in I. table_tac I; eexists _, _; repeat split; reflexivity. Qed.
Lemma followed_lex x kx sym kc t rest ps : genuine (Tok kx x) -> genuine (Tok kc sym) -> (exists op, In (sym, op) comparators) -> kind t <> T_WS -> picks (text t ++ rest) (kind t) (text t) ->
  (forall c r, text t = c :: r -> is_ws c = false) -> ~ time_like (text t ++ rest) -> splits rest ps ->
  lex (comparison_text x sym (text t ++ rest)) = Ok (Tok kx x :: Tok kc sym :: t :: tokens_of ps).
Proof.
  intros Gx Gc [op C] K P H NT S. destruct (comparator_head sym op C) as [c0 [r0 [Es [W0 D0]]]]. destruct t as [kt w]. cbn [kind text] in *.
  assert (S1 : splits (w ++ rest) (Token (Tok kt w) :: ps)) by (apply split_token; assumption).
  assert (N : w <> []) by apply P.
  assert (H1 : forall c r, w ++ rest = c :: r -> is_ws c = false) by (intros c r E; destruct w as [|c1 w]; [contradiction|]; injection E as <- _; eapply H; reflexivity).
  destruct (split_leading (J " ") (w ++ rest) _ space_blank H1 S1) as [ps1 [S2 E1]].
  assert (S3 : splits (sym ++ J " " ++ w ++ rest) (Token (Tok kc sym) :: ps1)).
  { apply split_token; [apply (genuine_stop (Tok kc sym) (ch " ") (w ++ rest) Gc eq_refl NT)|apply Gc|exact S2]. }
  assert (H2 : forall c r, sym ++ J " " ++ w ++ rest = c :: r -> is_ws c = false) by (intros c r E; rewrite Es in E; injection E as <- _; exact W0).
  destruct (split_leading (J " ") _ _ space_blank H2 S3) as [ps2 [S4 E2]].
  assert (S5 : splits (comparison_text x sym (w ++ rest)) (Token (Tok kx x) :: ps2)).
  { apply split_token; [|apply Gx|exact S4]. apply (genuine_stop (Tok kx x) (ch " ") (sym ++ J " " ++ w ++ rest) Gx eq_refl).
    intros [a [b [z [E [A _]]]]]. rewrite Es in E. injection E as <- _. congruence. }
  rewrite (lex_splits _ _ S5). cbn [tokens_of]. rewrite E2. cbn [tokens_of]. rewrite E1. reflexivity.
Qed.
Lemma trailing_comparison x m sym op t rest dflt : operand x m -> In (sym, op) comparators -> operand_kind (kind t) -> closing_kind (kind t) -> picks (text t ++ rest) (kind t) (text t) ->
  (forall c r, text t = c :: r -> is_ws c = false) -> ~ time_like (text t ++ rest) -> ~ time_like (text t) -> no_operator_text rest ->
  parse_expression (comparison_text x sym (text t ++ rest)) dflt = parse_expression (comparison_text x sym (text t)) dflt.
Proof.
  intros X C Ko Kc P H NT NT0 NO. destruct (operand_words _ _ X) as [kx [Gx Kx]]. destruct (comparator_genuine _ _ C) as [kc [Gc Hc]].
  assert (NW : kind t <> T_WS) by (intros E; rewrite E in Kc; cbn in Kc; decompose [or] Kc; discriminate || contradiction).
  destruct (lex_total rest) as [ps [S _]].
  pose proof (followed_lex x kx sym kc t rest ps Gx Gc (ex_intro _ op C) NW P H NT S) as L.
  assert (P0 : picks (text t ++ []) (kind t) (text t)) by (rewrite app_nil_r; apply (picks_prefix _ rest _ P)).
  pose proof (followed_lex x kx sym kc t [] [] Gx Gc (ex_intro _ op C) NW P0 H ltac:(rewrite app_nil_r; exact NT0) split_end) as L0. rewrite app_nil_r in L0.
  set (tree := PCmp (PTypes (Tok kx x)) (Tok kc sym) (PTypes t)).
  assert (R : reads 0 tree eof) by (eapply r_cmp; [exact Hc|apply comparator_level9, Hc|lia|apply r_operand; exact Kx|apply r_operand; exact Ko]).
  assert (En : ends_operand (yield tree)) by (exists [Tok kx x; Tok kc sym], t; split; [reflexivity|exact Kc]).
  unfold parse_expression. rewrite L, L0. cbn [bind].
  change (Tok kx x :: Tok kc sym :: t :: tokens_of ps) with (yield tree ++ tokens_of ps). change (Tok kx x :: Tok kc sym :: t :: tokens_of []) with (yield tree ++ []).
  rewrite (trailing_ignored tree _ R En (NO ps S)). rewrite (trailing_ignored tree [] R En); [reflexivity|]. intros u us E. discriminate.
Qed.
Lemma quote_cut E d dflt x m sym op q c1 c2 : operand x m -> In (sym, op) comparators -> q = ch "'" \/ q = 34%N -> ~ In q c1 -> no_operator_text (c2 ++ [q]) ->
  evaluate_boolean E (comparison_text x sym (q :: (c1 ++ q :: c2) ++ [q])) d dflt = evaluate_boolean E (comparison_text x sym (q :: c1 ++ [q])) d dflt.
Proof.
  intros X C Hq NQ NO. unfold evaluate_boolean.
  replace (q :: (c1 ++ q :: c2) ++ [q]) with (text (Tok T_WORD (q :: c1 ++ [q])) ++ c2 ++ [q]) by (cbn [text app]; rewrite <- !app_assoc; reflexivity).
  assert (NT : forall r, ~ time_like ((q :: c1 ++ [q]) ++ r)) by (intros r [a [b [z [E0 [A _]]]]]; injection E0 as <- _; destruct Hq as [-> | ->]; discriminate A).
  rewrite (trailing_comparison x m sym op (Tok T_WORD (q :: c1 ++ [q])) (c2 ++ [q]) dflt X C); [reflexivity|cbn; tauto|cbn; tauto|apply quoted_picks; assumption| |apply NT| |exact NO].
  - cbn [text]. intros c r E0. injection E0 as <- _. destruct Hq as [-> | ->]; reflexivity.
  - cbn [text]. rewrite <- (app_nil_r (q :: c1 ++ [q])). apply NT.
Qed.
Lemma word_first c r : word_char c = true -> ~ In c [ch "a"; ch "A"; ch "o"; ch "O"] -> no_operator_text (c :: r).
Proof.
  intros W NI ps S x us E. destruct (level (kind x)) as [n|] eqn:LV; [exfalso|reflexivity].
  assert (PX : exists w, picks (c :: r) (kind x) w).
  { remember (c :: r) as s eqn:Es. destruct S as [|k w rest ps P K S|w rest ps P S|w rest ps N0 NP DR S].
    - discriminate.
    - injection E as <- _. eauto.
    - exfalso. pose proof (picks_shape _ _ _ P) as SH. destruct (picks_rule _ _ _ P) as [r0 [I0 M0]]. destruct P as [N0 [_ _]]. destruct w as [|c' w]; [contradiction|]. injection Es as -> _.
      assert (M1 : matches (Plus (Any blank)) (c :: w)) by (cbn in I0; repeat (destruct I0 as [I0|I0]; [try discriminate I0; injection I0 as <-; exact M0|]); contradiction).
      apply (matches_plus _ _ _ (single_any blank)) in M1. destruct M1 as [_ M1]. cbn [forallb] in M1. apply andb_true_iff in M1. destruct M1 as [M1 _].
      rewrite blank_is_ws in M1. apply ws_not_field in M1. rewrite field_word in M1. congruence.
    - exfalso. destruct (some_match (w ++ rest) _ _ [c] r in_field) as [k' [w' P]]; [|exact Es|discriminate|exact (NP k' w' P)].
      apply field_matches; [discriminate|]. cbn [forallb]. rewrite field_word, W. reflexivity. }
  destruct PX as [w P]. destruct (picks_rule _ _ _ P) as [r0 [I0 M0]]. destruct P as [N0 [[rest Ew] _]]. destruct w as [|c' w]; [contradiction|]. injection Ew as <- _. clear S E.
  revert I0. generalize (kind x) LV. intros k LV0 I0. cbn [lexicon In] in I0.
  repeat (destruct I0 as [I0|I0]; [injection I0 as <- <-; try discriminate LV0; unfold two, one in M0; repeat (rewrite ?matches_or, ?matches_word in M0); cbn [J] in M0;
    decompose [or] M0; match goal with H : c :: w = _ |- _ => injection H as -> _; first [discriminate W|apply NI; cbn; tauto] end|]); contradiction.
Qed.
Lemma datetime_cut E d dflt x m sym op t : operand x m -> In (sym, op) comparators -> calendar (dt_date t) -> 1 <= year (dt_date t) <= 9999 ->
  evaluate_boolean E (comparison_text x sym (show (VDateTime t))) d dflt = evaluate_boolean E (comparison_text x sym (show (VDate (dt_date t)))) d dflt.
Proof.
  intros X C Ca Y. destruct (date_written _ Ca Y) as [_ [L W]]. unfold evaluate_boolean. cbn [show]. unfold datetime_to_string. set (w := date_to_string (dt_date t)) in *.
  destruct (date_classes_text w _ L W) as [MC [_ [c0 [Es C0]]]].
  assert (NT : forall r, ~ time_like (w ++ r)).
  { intros r [a [b [z [E0 [A B]]]]]. destruct w as [|w0 [|w1 [|w2 w]]]; try discriminate L. injection E0 as <- <- -> _. cbn in MC. rewrite !andb_false_r in MC. cbn in MC. destruct (is_digit w0), (is_digit w1); discriminate. }
  match goal with |- context [w ++ ?rr] => set (rest := rr) end.
  change (w ++ rest) with (text (Tok T_DATE w) ++ rest). 
  rewrite (trailing_comparison x m sym op (Tok T_DATE w) rest dflt X C); [reflexivity|cbn; tauto|cbn; tauto| | |apply NT| |].
  - apply (date_picks w _ rest L W). unfold rest. intros c r E0. injection E0 as <- _. discriminate.
  - cbn [text]. intros c r E0. rewrite Es in E0. injection E0 as <- _. apply digit_not_ws, C0.
  - cbn [text]. rewrite <- (app_nil_r w). apply NT.
  - unfold rest. apply word_first; [reflexivity|]. cbn. intros I. decompose [or] I; discriminate || contradiction.
Qed.
