(** Literals as the operands of parsed expressions. *)
From Coq Require Import QArith.
From Verif Require Import Recover.
From Verif Require Import Base JNum JNumFacts BigDec BigDecFacts Values Ops Ast Eval Lexer Grammar Listener Api
  SpecNum SpecCompare SpecArith SpecPath SpecLex NumFacts CacheFacts CompareFacts ValuesFacts FieldFacts LexFacts LexSplit LexWords.
Local Open Scope Z_scope.

Lemma comparator_token sym op : In (sym, op) comparators ->
  exists k, genuine (Tok k sym) /\ is_comparator k = true /\ operator_of k = op.
Proof.
  unfold comparators. cbn [In]. intros I.
  assert (G : forall k w, lex w = Ok [Tok k w] -> genuine (Tok k w)).
  { intros k w H. apply lex_genuine in H. inversion H. assumption. }
  repeat (destruct I as [I|I]; [injection I as <- <-|]); try contradiction.
  - exists T_EQ. split; [apply G; vm_compute; reflexivity|split; reflexivity].
  - exists T_NE. split; [apply G; vm_compute; reflexivity|split; reflexivity].
  - exists T_GT. split; [apply G; vm_compute; reflexivity|split; reflexivity].
  - exists T_GE. split; [apply G; vm_compute; reflexivity|split; reflexivity].
  - exists T_LT. split; [apply G; vm_compute; reflexivity|split; reflexivity].
  - exists T_LE. split; [apply G; vm_compute; reflexivity|split; reflexivity].
Qed.
Lemma spaced3 a b c : spaced [a; b; c] (text a ++ J " " ++ text b ++ J " " ++ text c).
Proof.
  change (text a ++ J " " ++ text b ++ J " " ++ text c) with ([] ++ text a ++ 32%N :: ([] ++ text b ++ 32%N :: text c)).
  apply sp_more; [constructor|reflexivity|discriminate|]. apply sp_more; [constructor|reflexivity|discriminate|].
  rewrite <- (app_nil_r (text c)). apply (sp_one [] c []); constructor.
Qed.
Lemma field_not_blank f : field_name f -> is_blank f = false.
Proof.
  intros F. destruct (field_name_chars f F) as [N [C _]]. destruct f as [|c f]; [contradiction|]. unfold is_blank. cbn [forallb] in *.
  apply andb_true_iff in C. destruct C as [C _]. destruct (is_ws c) eqn:W; [apply ws_not_field in W; congruence|reflexivity].
Qed.
Definition literal_kind (k : tkind) : Prop := In k [T_INTEGER; T_DECIMAL; T_APP_VERSION; T_TRUE; T_FALSE; T_WORD; T_DATE; T_DATETIME].
Lemma parse_comparison f sym op t dflt : field_name f -> In (sym, op) comparators -> genuine t -> literal_kind (kind t) ->
  parse_expression (f ++ J " " ++ sym ++ J " " ++ text t) dflt =
  (v <- convert_value (text t) (token_data_type t) ;; Ok (NCmp (NField (Some f)) (NUnary (token_data_type t) v) op (token_data_type t))).
Proof.
  intros F I G K. destruct (comparator_token sym op I) as [k [Gk [C O]]]. unfold parse_expression.
  rewrite (spaced_lex [Tok T_FIELD f; Tok k sym; t]); [|constructor; [apply field_genuine, F|constructor; [exact Gk|constructor; [exact G|constructor]]]|apply (spaced3 (Tok T_FIELD f) (Tok k sym) t)].
  assert (NB : is_blank (text t) = false).
  { pose proof (genuine_nonnil t G) as N. unfold is_blank. destruct (text t) as [|c w] eqn:T; [contradiction|]. cbn [forallb]. rewrite (genuine_head t c w G T). reflexivity. }
  cbn [bind].
  assert (P : parse_any [Tok T_FIELD f; Tok k sym; t] = Ok (PCmp (PTypes (Tok T_FIELD f)) (Tok k sym) (PTypes t))).
  { clear -C K. destruct t as [kt wt]. cbn [kind] in K. unfold literal_kind in K. cbn [In] in K.
    repeat (destruct K as [<-|K]); try contradiction; destruct k; try discriminate C; reflexivity. }
  rewrite P. cbn [bind]. unfold listen. cbn [walk bind push_context stack exit_types last_token token_count].
  assert (M1 : map_types_token dflt (Tok T_FIELD f) = Ok (NField (Some f))).
  { unfold map_types_token. cbn [kind text]. rewrite (field_not_blank f F). reflexivity. }
  assert (M : map_types_token dflt t = (v <- convert_value (text t) (token_data_type t) ;; Ok (NUnary (token_data_type t) v))).
  { unfold map_types_token. rewrite NB. clear -K. destruct t as [kt wt]. cbn [kind] in *. unfold literal_kind in K. cbn [In] in K.
    repeat (destruct K as [<-|K]); try contradiction; reflexivity. }
  unfold push_context. cbn [map_context steals stack as_types exit_types]. rewrite M, M1.
  destruct (convert_value (text t) (token_data_type t)) as [v|e]; [|reflexivity].
  cbn [bind fst snd exit_parse stack start kind]. rewrite O. reflexivity.
Qed.

(** ** Quoted strings *)
Lemma last_app_one {A} (l : list A) x d : last (l ++ [x]) d = x.
Proof. induction l as [|a l IH]; [reflexivity|]. cbn [app last]. destruct (l ++ [x]) eqn:E; [destruct l; discriminate|]. exact IH. Qed.
Lemma removelast_app_one {A} (l : list A) x : removelast (l ++ [x]) = l.
Proof. rewrite removelast_app by discriminate. cbn. apply app_nil_r. Qed.
Lemma convert_quoted q b : q = ch "'" \/ q = 34%N -> convert_value (q :: b ++ [q]) STRING = Ok (VStr b).
Proof.
  intros Q. assert (QB : quoted_by q (q :: b ++ [q]) = true).
  { unfold quoted_by. rewrite N.eqb_refl. change (q :: b ++ [q]) with ((q :: b) ++ [q]). rewrite last_app_one. apply N.eqb_refl. }
  assert (SE : strip_ends (q :: b ++ [q]) = Ok (VStr b)).
  { unfold strip_ends. cbn [length tl]. rewrite app_length. cbn [length]. destruct (Nat.ltb_spec (S (length b + 1)) 2); [lia|]. rewrite removelast_app_one. reflexivity. }
  unfold convert_value. destruct Q as [-> | ->].
  - rewrite QB. exact SE.
  - rewrite QB, SE. destruct (quoted_by (ch "'") _); reflexivity.
Qed.
Lemma quoted_compared f sym op q b dflt : field_name f -> In (sym, op) comparators -> q = ch "'" \/ q = 34%N -> ~ In q b ->
  parse_expression (f ++ J " " ++ sym ++ J " " ++ q :: b ++ [q]) dflt = Ok (NCmp (NField (Some f)) (NUnary STRING (VStr b)) op STRING).
Proof.
  intros F I Q N. pose proof (parse_comparison f sym op (Tok T_WORD (q :: b ++ [q])) dflt F I (quoted_genuine q b Q N)) as P.
  cbn [kind text] in P. rewrite P by (unfold literal_kind; cbn; tauto). unfold token_data_type. cbn [kind]. rewrite (convert_quoted q b Q). reflexivity.
Qed.
Lemma quoted_alone E d q b : q = ch "'" \/ q = 34%N -> ~ In q b -> evaluate_arith E (q :: b ++ [q]) d = Ok (VStr b).
Proof.
  intros Q N. unfold evaluate_arith, parse_expression. pose proof (genuine_lex _ (quoted_genuine q b Q N)) as L. cbn [text] in L. rewrite L. cbn [bind].
  assert (P : parse_any [Tok T_WORD (q :: b ++ [q])] = Ok (PTypes (Tok T_WORD (q :: b ++ [q])))) by reflexivity. rewrite P. cbn [bind].
  unfold listen. cbn [walk bind exit_types exit_parse stack token_count last_token kind text]. rewrite (convert_quoted q b Q). reflexivity.
Qed.

(** ** Numbers *)
Lemma integer_compared f sym op ds dflt : field_name f -> In (sym, op) comparators -> digits ds ->
  (fits32 (natural ds) -> parse_expression (f ++ J " " ++ sym ++ J " " ++ ds) dflt = Ok (NCmp (NField (Some f)) (NUnary INTEGER (VInt (natural ds))) op INTEGER)) /\
  (~ fits32 (natural ds) -> fits64 (natural ds) ->
     parse_expression (f ++ J " " ++ sym ++ J " " ++ ds) dflt = Ok (NCmp (NField (Some f)) (NUnary LONG (VLong (natural ds))) op LONG)) /\
  (~ fits64 (natural ds) -> parse_expression (f ++ J " " ++ sym ++ J " " ++ ds) dflt = Err NumberFormat).
Proof.
  intros F I D. pose proof (parse_comparison f sym op (Tok T_INTEGER ds) dflt F I (integer_genuine ds D)) as P. cbn [kind text] in P.
  rewrite P by (unfold literal_kind; cbn; tauto). clear P. destruct (digits_all ds D) as [N H]. unfold token_data_type. cbn [kind text].
  unfold numeric_data_type, convert_value, parse_int, parse_long. rewrite (parse_integer_digits ds N H). rewrite natural_val.
  unfold fits32, fits64. rewrite <- in_int_iff, <- in_long_iff. split; [|split].
  - intros A. rewrite A. reflexivity.
  - intros A B. rewrite B. destruct (in_int (digits_val ds)); [contradiction|]. reflexivity.
  - intros B. destruct (in_long (digits_val ds)) eqn:Y; [contradiction|].
    destruct (in_int (digits_val ds)) eqn:X; [apply in_int_long in X; congruence|]. reflexivity.
Qed.

Lemma decimal_compared f sym op a b dflt : field_name f -> In (sym, op) comparators -> digits a -> digits b ->
  exists x, parse_expression (f ++ J " " ++ sym ++ J " " ++ a ++ J "." ++ b) dflt = Ok (NCmp (NField (Some f)) (NUnary DECIMAL (VDec x)) op DECIMAL) /\
    (dec_value x == inject_Z (natural a) + inject_Z (natural b) * (10 # 1) ^ (- Z.of_nat (length b)))%Q.
Proof.
  intros F I A B. pose proof (parse_comparison f sym op _ dflt F I (decimal_genuine a b A B)) as P. cbn [kind text] in P.
  rewrite P by (unfold literal_kind; cbn; tauto). clear P. destruct (digits_all a A) as [NA HA]. destruct (digits_all b B) as [NB HB].
  unfold token_data_type. cbn [kind]. unfold convert_value.
  destruct a as [|c a]; [contradiction|]. pose proof HA as HA'. cbn [forallb] in HA. apply andb_true_iff in HA. destruct HA as [HC HA].
  rewrite (parse_bigdec_unsigned ((c :: a) ++ J "." ++ b) c (a ++ J "." ++ b) eq_refl HC).
  change ((c :: a) ++ J "." ++ b) with ((c :: a) ++ ch "." :: b).
  rewrite (parse_unsigned_point (c :: a) b NA HA' HB). eexists. split; [reflexivity|].
  unfold dec_value. cbn [unscaled scale]. rewrite digits_val_app, !natural_val, inject_Z_plus, inject_Z_mult.
  rewrite (p10_Z (Z.of_nat (length b))) by lia.
  assert (E : (p10 (Z.of_nat (length b)) * p10 (- Z.of_nat (length b)) == 1)%Q) by (rewrite <- p10_plus, Z.add_opp_diag_r; reflexivity).
  change ((10 # 1) ^ (- Z.of_nat (length b)))%Q with (p10 (- Z.of_nat (length b))).
  rewrite Qmult_plus_distr_l, <- Qmult_assoc, E, Qmult_1_r. reflexivity.
Qed.

Lemma integer_observed E d ks v p sym op ds dflt b : proper_data d -> ks <> [] -> Forall component ks -> field_name (path_text ks) ->
  to_lower (path_text ks) <> J "null" -> found d ks v -> number v p -> In (sym, op) comparators -> digits ds -> fits64 (natural ds) ->
  question op p (inject_Z (natural ds)) = Some b ->
  evaluate_boolean E (path_text ks ++ J " " ++ sym ++ J " " ++ ds) d dflt = Ok b.
Proof.
  intros PD NK C F NL FD NV I D F64 Q. destruct (integer_compared (path_text ks) sym op ds dflt F I D) as [A [B _]].
  assert (Y : yields E d (NField (Some (path_text ks))) v).
  { split; [apply (field_found E d ks v PD NK C), FD|]. split; [intros ->; inversion NV|]. intros [f [Ef L]]. injection Ef as <-. contradiction. }
  assert (Y2 : forall w, w <> VNull -> yields E d (lit w) w) by (intros w NW; apply yields_lit, NW).
  unfold evaluate_boolean. destruct (in_int (natural ds)) eqn:X.
  - apply in_int_iff in X. rewrite (A X). cbn [bind]. change (NUnary INTEGER (VInt (natural ds))) with (lit (VInt (natural ds))).
    eapply compare_number_operands; [exact Y|apply Y2; discriminate|exact NV|apply number_int; [exact X|reflexivity]|exact Q].
  - assert (X' : ~ fits32 (natural ds)) by (intros X'; apply in_int_iff in X'; congruence). rewrite (B X' F64). cbn [bind].
    change (NUnary LONG (VLong (natural ds))) with (lit (VLong (natural ds))).
    eapply compare_number_operands; [exact Y|apply Y2; discriminate|exact NV|apply number_long; [exact F64|reflexivity]|exact Q].
Qed.
