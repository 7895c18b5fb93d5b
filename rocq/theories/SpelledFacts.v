(** Proofs about the field names literals are taken for. *)
From Coq Require Import QArith.
From Verif Require Import RecoverFacts ListenAny SpecRecover AnyText CacheFacts FieldFacts.
From Verif Require Import Base JNum JNumFacts BigDec Dates Values Ast Eval Lexer Grammar Listener Api SpecPath SpecNum SpecDate DateFacts SpecMixed MixedFacts SpecAlphabet AlphabetFacts SpecShown ShownFacts SpecSpelled.
Local Open Scope Z_scope.

Lemma digits_number (neg : bool) sg ds : sign_text neg sg -> ds <> [] -> all_digits ds = true -> written_number (sg ++ ds) (inject_Z (if neg then - digits_val ds else digits_val ds)).
Proof.
  intros G N D. exists neg, sg, ds, [], [], 0, []. rewrite !app_nil_r. split; [reflexivity|]. split; [exact G|]. split; [exact D|]. split; [apply no_point|]. split; [exact N|].
  split; [apply no_exponent|]. cbn [length Z.of_nat Z.sub Z.add Z.opp Qpower]. destruct neg; [rewrite inject_Z_opp|]; ring.
Qed.
Lemma integer_written s z : parse_integer s = Some z -> written_number s (inject_Z z).
Proof.
  unfold parse_integer. destruct s as [|c s]; [discriminate|]. destruct (N.eqb_spec c (ch "-")) as [->|_]; [|destruct (N.eqb_spec c (ch "+")) as [->|_]].
  - destruct s as [|x s]; [discriminate|]. destruct (all_digits (x :: s)) eqn:D; [|discriminate]. intros H. injection H as <-. exact (digits_number true (J "-") (x :: s) minus_sign ltac:(discriminate) D).
  - destruct s as [|x s]; [discriminate|]. destruct (all_digits (x :: s)) eqn:D; [|discriminate]. intros H. injection H as <-. exact (digits_number false (J "+") (x :: s) plus_sign ltac:(discriminate) D).
  - destruct (all_digits (c :: s)) eqn:D; [|discriminate]. intros H. injection H as <-. exact (digits_number false [] (c :: s) unsigned ltac:(discriminate) D).
Qed.
Lemma stripped q s v : quoted_by q s = true -> strip_ends s = Ok v -> exists f, v = VStr f /\ s = q :: f ++ [q].
Proof.
  unfold quoted_by, strip_ends. destruct s as [|c s]; [discriminate|]. intros H. apply andb_true_iff in H as [C L]. apply N.eqb_eq in C as ->. apply N.eqb_eq in L.
  destruct s as [|x s]; [discriminate|]. cbn [length Nat.ltb Nat.leb tl]. intros H. injection H as <-. exists (removelast (x :: s)). split; [reflexivity|]. f_equal.
  change (last (q :: x :: s) 0%N) with (last (x :: s) 0%N) in L. rewrite <- L. apply app_removelast_last. discriminate.
Qed.
Lemma text_converted t v : convert_value (text t) STRING = Ok v -> spells t (show v).
Proof.
  cbn [convert_value]. intros H.
  destruct (quoted_by (ch "'") (text t)) eqn:Q; [destruct (stripped _ _ _ Q H) as (f & -> & E); exact (unquoted t _ f (or_introl eq_refl) E)|].
  destruct (quoted_by 34%N (text t)) eqn:Q'; [destruct (stripped _ _ _ Q' H) as (f & -> & E); exact (unquoted t _ f (or_intror eq_refl) E)|]. injection H as <-. apply as_it_stands.
Qed.
Lemma integer_converted t dt v : kind t = T_INTEGER -> dt = INTEGER \/ dt = LONG -> convert_value (text t) dt = Ok v -> spells t (show v).
Proof.
  intros K [-> | ->]; cbn [convert_value]; unfold parse_int, parse_long; destruct (parse_integer (text t)) as [z|] eqn:P; try discriminate; intros H.
  - destruct (in_int z) eqn:I; [|discriminate]. injection H as <-. apply (as_number t (VInt z) (inject_Z z)); [left; exact K|exact (integer_written _ z P)| |apply show_shown].
    apply number_int; [|reflexivity]. unfold in_int, int_min, int_max in I. lia.
  - destruct (in_long z) eqn:I; [|discriminate]. injection H as <-. apply (as_number t (VLong z) (inject_Z z)); [left; exact K|exact (integer_written _ z P)| |apply show_shown].
    apply number_long; [|reflexivity]. unfold in_long, long_min, long_max in I. lia.
Qed.
Lemma truth_converted t v : kind t = T_TRUE \/ kind t = T_FALSE -> convert_value (text t) BOOLEAN = Ok v -> spells t (show v).
Proof.
  intros K H. cbn [convert_value] in H. injection H as <-. apply (as_truth t (equals_ignore_case (text t) (J "true"))); [exact K| |apply show_shown].
  unfold equals_ignore_case. change (jstr_eqb (to_lower (text t)) (to_lower (J "true")) = true <-> Forall2 lowers (text t) (J "true")); rewrite jstr_eqb_eq; apply lower_text.
Qed.
Lemma converted t dt v : dt = token_data_type t \/ dt = STRING -> convert_value (text t) dt = Ok v -> spells t (show v).
Proof.
  intros [-> | ->]; [|apply text_converted]. unfold token_data_type. destruct (kind t) eqn:K; try apply text_converted; intros H.
  all: try (apply (truth_converted t v); [auto|exact H]).
  all: try (apply (integer_converted t _ v K) with (2 := H); unfold numeric_data_type; destruct (parse_int (text t)); auto).
  all: cbn [convert_value] in H.
  all: try (injection H as <-; apply as_it_stands).
  all: try (destruct (parse_bigdec (text t)) as [b|] eqn:P; [|discriminate]; injection H as <-; apply (as_number t (VDec b) (dec_value b)); [right; exact K| |apply number_dec; reflexivity|apply show_shown];
    apply number_parses; exists b; split; [exact P|reflexivity]).
  all: try (destruct (parse_date (text t)) as [a|] eqn:P; injection H as <-; [apply (as_date t a _ K); [apply parse_date_spec, P|apply show_shown]|
    apply (as_no_date t K); intros a W; apply parse_date_spec in W; congruence]).
  destruct (parse_datetime (text t)) as [x|] eqn:P; injection H as <-; [apply (as_datetime t x _ K); [apply parse_datetime_spec, P|apply show_shown]|
    apply (as_no_datetime t K); intros x W; apply parse_datetime_spec in W; congruence].
Qed.
Lemma spelled_fields s ts dflt E d1 d2 : lex s = Ok ts -> (forall f, names ts dflt f \/ (exists t, In t (eof :: ts) /\ spells t f) -> same_field d1 d2 f) ->
  evaluate_boolean E s d1 dflt = evaluate_boolean E s d2 dflt.
Proof.
  intros L H. unfold evaluate_boolean. destruct (parse_expression s dflt) as [n|e] eqn:Pn; [|reflexivity]. cbn [bind].
  apply bool_same. intros f I. apply H. destruct (built_bool _ _ _ (parse_built s ts dflt n L Pn) f I) as [N|[v [[t [dt [It [D C]]]] Sv]]]; [left; exact N|].
  right. exists t. split; [exact It|]. subst f. exact (converted t dt v D C).
Qed.
Lemma spelled_word k w f : ~ In k [T_INTEGER; T_DECIMAL; T_TRUE; T_FALSE; T_DATE; T_DATETIME] -> spells (Tok k w) f -> f = w \/ f = removelast (tl w).
Proof.
  intros K S. destruct S as [|q f Q E|v x f H|b f H|a f H|x f H|H|H]; cbn [kind text] in *; try (exfalso; apply K; cbn; intuition congruence); [left; reflexivity|right].
  rewrite E. cbn [tl]. symmetry. apply removelast_last.
Qed.
Lemma spelled_case E :
  let d1 := [(J "up", VBool true); (J "other", VInt 1)] in let d2 := [(J "other", VInt 2); (J "up", VBool true)] in let s := J "'up'" in
  (exists ts, lex s = Ok ts /\ (exists t, In t ts /\ spells t (J "up")) /\ (forall f, names ts None f \/ (exists t, In t (eof :: ts) /\ spells t f) -> same_field d1 d2 f)) /\
  evaluate_boolean E s d1 None = Ok true /\ evaluate_boolean E s d2 None = Ok true /\ ~ same_field d1 d2 (J "other").
Proof.
  intros d1 d2 s. split; [|split; [vm_compute; reflexivity|split; [vm_compute; reflexivity|intros H; specialize (H E); vm_compute in H; discriminate H]]].
  eexists. split; [vm_compute; reflexivity|]. split.
  - eexists. split; [left; reflexivity|]. apply (unquoted _ (ch "'")); [left; reflexivity|reflexivity].
  - intros f [[X|(t & I & K & T)]|(t & I & S)]; [discriminate X| |].
    + repeat (destruct I as [<-|I]; [discriminate K|]). destruct I.
    + repeat (destruct I as [<-|I]; [apply spelled_word in S; [destruct S as [-> | ->]; intros E'; vm_compute; reflexivity|cbn; intuition discriminate]|]). destruct I.
Qed.
