(** Concrete cases for the properties of layouts and odd texts. *)
From Coq Require Import QArith.
From Verif Require Import Base JNum BigDec Values Ops Funcs Ast Eval Lexer Grammar Listener Api SpecNum SpecCompare SpecArith SpecLex SpecTight SpecGrammar SpecSyntax SpecText SpecOdd
  LexSplit LexWords LexTight LexCases SyntaxFacts TextFacts TextCases OddText CompareWitness.
Local Open Scope nat_scope.

(** A way to compute layouts: words with the white space after them. *)
Definition touching_b (a b : jstr) : bool :=
  match b with
  | [] => true
  | c :: _ => negb (word_char (last a c) && word_char c) &&
      negb ((jstr_eqb a (J ">") || jstr_eqb a (J "<")) && (c =? ch "=")%N) &&
      negb (forallb is_digit a && (length a =? 4)%nat && (c =? ch "-")%N)
  end.
Fixpoint layout_b (l : list (jstr * jstr)) : bool :=
  match l with
  | (a, w) :: (((b, _) :: _) as l') => forallb blank w && (negb (length w =? 0) || touching_b a b) && layout_b l'
  | [(_, w)] => forallb blank w
  | [] => false
  end.
Definition weave (l : list (jstr * jstr)) : jstr := concat (map (fun p => fst p ++ snd p) l).
Lemma touching_b_ok a b : touching_b a b = true -> touching a b.
Proof.
  intros H c b' ->. unfold touching_b in H. rewrite !andb_true_iff, !negb_true_iff in H. destruct H as [[H1 H2] H3]. split; [|split].
  - intros W. rewrite W in H1. exact H1.
  - intros A ->. rewrite N.eqb_refl, andb_true_r in H2. destruct A as [-> | ->]; discriminate.
  - intros F L ->. rewrite N.eqb_refl, andb_true_r, L in H3. rewrite andb_true_r in H3. apply not_true_iff_false in H3. apply H3, forallb_forall. rewrite Forall_forall in F. exact F.
Qed.
Lemma layout_b_ok l : layout_b l = true -> laid_out (map fst l) (weave l).
Proof.
  intros H. right. exists [], (weave l). split; [constructor|]. split; [|reflexivity]. revert H. induction l as [|[a w] l IH]; [discriminate|]. intros H.
  assert (BL : forall v, forallb blank v = true -> blanks v) by (intros v V; apply Forall_forall; rewrite forallb_forall in V; exact V).
  destruct l as [|[b v] l].
  - cbn [layout_b] in H. unfold weave. cbn [map concat fst snd]. rewrite app_nil_r. apply laid_last, BL, H.
  - cbn [layout_b] in H. rewrite !andb_true_iff, orb_true_iff in H. destruct H as [[W T] H].
    change (weave ((a, w) :: (b, v) :: l)) with ((a ++ w) ++ weave ((b, v) :: l)). rewrite <- app_assoc. cbn [map fst].
    apply laid_more; [apply BL, W| |apply IH, H]. destruct T as [T|T]; [left|right; apply touching_b_ok, T].
    intros ->. discriminate.
Qed.
Definition tight (ws : list jstr) : list (jstr * jstr) := map (fun w => (w, [])) ws.

Ltac laidout l := match goal with |- laid_out ?ws ?s => exact (layout_b_ok l eq_refl : laid_out ws s) end.

Lemma layout_case :
  laid_out [J "("; J "a"; J ">="; J "5"; J ")"; J "AND"; J "("; J "b"; J "IN"; J "("; J "1"; J ","; J "'x y'"; J ")"; J ")"] (J "(a>=5)AND(b IN(1,'x y'))") /\
  laid_out [J "a"; J "+"; J "12"; J "-"; J "b"] (J "a+12-b") /\
  lex (J "(a>=5)AND(b IN(1,'x y'))") = lex (J "( a >= 5 ) AND ( b IN ( 1 , 'x y' ) )") /\
  (exists n, written Nothing Arithmetic [J "a"; J "+"; J "12"] n) /\ laid_out [J "a"; J "+"; J "12"] (J "a+ 12").
Proof.
  split; [laidout [(J "(", []); (J "a", []); (J ">=", []); (J "5", []); (J ")", []); (J "AND", []); (J "(", []); (J "b", J " "); (J "IN", []); (J "(", []); (J "1", []); (J ",", []); (J "'x y'", []); (J ")", []); (J ")", [])]|].
  split; [laidout (tight [J "a"; J "+"; J "12"; J "-"; J "b"])|]. split; [vm_compute; reflexivity|].
  split; [|laidout [(J "a", []); (J "+", J " "); (J "12", [])]].
  eexists. eapply w_arith; [fieldop|sym|intop (J "12")].
Qed.
Lemma date_case : evaluate_arith witness_env (J "2020-12-10") [] <> evaluate_arith witness_env (J "2020 -12-10") [] /\
  evaluate_arith witness_env (J "2020 -12-10") [] = Ok (VInt 1998) /\ evaluate_arith witness_env (J "220-12-10") [] = Ok (VInt 198).
Proof. vm_compute. repeat split; try reflexivity. discriminate. Qed.
Lemma negative_case :
  operand (J "g") (NField (Some (J "g"))) /\ operand (J "10") (NUnary INTEGER (VInt 10)) /\ In (J ">", GREATER_THAN) comparators /\ laid_out [J "g"; J ">"; J "-"; J "10"] (J "g>-10") /\
  yields witness_env [(J "g", VInt (-3))] (NField (Some (J "g"))) (VInt (-3)) /\ number (VInt (-3)) (-3 # 1) /\ number (VInt 10) (10 # 1) /\
  question GREATER_THAN (-3 # 1) (- (10 # 1)) = Some true /\ evaluate_boolean witness_env (J "g>-10") [(J "g", VInt (-3))] None = Ok true.
Proof.
  split; [fieldop|]. split; [intop (J "10")|]. split; [sym|]. split; [laidout (tight [J "g"; J ">"; J "-"; J "10"])|].
  split; [split; [reflexivity|split; [discriminate|intros [f [H X]]; injection H as <-; discriminate]]|].
  split; [apply number_int; [lia|reflexivity]|]. split; [apply number_int; [lia|reflexivity]|]. vm_compute. auto.
Qed.
Lemma odd_list_case :
  Forall (fun e => exists b, element b e) [[J "3"]; [J "-"; J "10"]; bracketed [J "x"]] /\ Exists (element true) [[J "3"]; [J "-"; J "10"]; bracketed [J "x"]] /\
  laid_out (J "f" :: [] ++ J "IN" :: bracketed (separated [[J "3"]; [J "-"; J "10"]; bracketed [J "x"]])) (J "f IN (3,-10,(x))") /\
  laid_out (J "min" :: bracketed (separated [[J "3"]; [J "-"; J "10"]; bracketed [J "x"]])) (J "min(3, -10, (x))").
Proof.
  assert (E3 : element false [J "3"]) by (eapply e_plain; intop (J "3")). assert (E10 : element true [J "-"; J "10"]) by (eapply e_negated; intop (J "10")).
  assert (Ex : element true (bracketed [J "x"])) by (eapply e_bracketed; fieldop).
  split; [repeat (apply Forall_cons; [eauto|]); apply Forall_nil|]. split; [apply Exists_cons_tl, Exists_cons_hd, E10|].
  split; [laidout [(J "f", J " "); (J "IN", J " "); (J "(", []); (J "3", []); (J ",", []); (J "-", []); (J "10", []); (J ",", []); (J "(", []); (J "x", []); (J ")", []); (J ")", [])]|].
  laidout [(J "min", []); (J "(", []); (J "3", []); (J ",", J " "); (J "-", []); (J "10", []); (J ",", J " "); (J "(", []); (J "x", []); (J ")", []); (J ")", [])].
Qed.
Lemma range_case : operand (J "20") (NUnary INTEGER (VInt 20)) /\ laid_out [J "t"; J "-"; J "20"; J "TO"; J "5"] (J "t -20 TO 5") /\
  evaluate_boolean witness_env (J "t -20 TO 5") [(J "t", VInt 0)] None = Ok false.
Proof.
  split; [intop (J "20")|]. split; [|vm_compute; reflexivity]. laidout [(J "t", J " "); (J "-", []); (J "20", J " "); (J "TO", J " "); (J "5", [])].
Qed.
Lemma not_case : laid_out [J "NOT"; J "a"; J "="; J "1"] (J "NOT a=1") /\ operand (J "a") (NField (Some (J "a"))) /\ operand (J "1") (NUnary INTEGER (VInt 1)) /\
  evaluate_boolean witness_env (J "NOT a=1") [(J "a", VInt 2)] None = Err InvalidExpression /\ evaluate_boolean witness_env (J "NOT (a=1)") [(J "a", VInt 2)] None = Ok true.
Proof.
  split; [laidout [(J "NOT", J " "); (J "a", []); (J "=", []); (J "1", [])]|]. split; [fieldop|]. split; [intop (J "1")|]. vm_compute. auto.
Qed.
Lemma mismatch_case : (exists n, written Nothing Arithmetic [J "a"; J "+"; J "1"] n) /\ (exists n, written Nothing Logic [J "a"; J "="; J "1"] n) /\
  evaluate_boolean witness_env (J "a+1") [(J "a", VInt 2)] None = Ok false /\ evaluate_boolean witness_env (J "NOT (a+1)") [(J "a", VInt 2)] None = Ok true /\
  evaluate_arith witness_env (J "a=1") [(J "a", VInt 2)] = Err UnsupportedToken.
Proof.
  split; [eexists; eapply w_arith; [fieldop|sym|intop (J "1")]|]. split; [exists (NCmp (NField (Some (J "a"))) (NUnary INTEGER (VInt 1)) EQUALS STRING); apply w_compare; [auto|fieldop|sym|intop (J "1")]|].
  vm_compute. auto.
Qed.
Lemma bracket_case : laid_out (bracketed [J "a"] ++ J "=" :: [J "1"]) (J "(a)=1") /\ laid_out ([J "a"] ++ J "+" :: bracketed [J "1"]) (J "a+(1)") /\
  evaluate_boolean witness_env (J "(a)=1") [(J "a", VInt 1)] None = Err InvalidExpression /\ evaluate_arith witness_env (J "a+(1)") [(J "a", VInt 1)] = Err EmptyStack /\
  evaluate_boolean witness_env (J "(a=1)") [(J "a", VInt 1)] None = Ok true.
Proof.
  split; [laidout (tight [J "("; J "a"; J ")"; J "="; J "1"])|]. split; [laidout (tight [J "a"; J "+"; J "("; J "1"; J ")"])|]. vm_compute. auto.
Qed.
Lemma numeral_like_by w : match w with [] => false | _ => true end = true -> forallb (fun c => is_digit c || (c =? ch ".")%N) w = true -> lex w = Ok [Tok T_FIELD w] -> numeral_like w.
Proof.
  intros N C L. assert (G : genuine (Tok T_FIELD w)) by (apply lex_one_genuine, L).
  split; [intros ->; discriminate|]. split.
  - apply Forall_forall. rewrite forallb_forall in C. intros c I. specialize (C c I). apply orb_true_iff in C. destruct C as [D|D]; [auto|right; apply N.eqb_eq, D].
  - split; [|split].
    + intros D. discriminate (genuine_kind _ _ _ G (integer_genuine w D)).
    + intros a b A B ->. discriminate (genuine_kind _ _ _ G (decimal_genuine a b A B)).
    + intros c ps D NP F ->. destruct ps as [|p [|q ps]]; [contradiction| |].
      * inversion F as [|? ? P _]; subst. assert (G2 : genuine (Tok T_DECIMAL ([c] ++ J "." ++ p))) by (apply decimal_genuine; [split; [discriminate|repeat constructor; exact D]|exact P]).
        cbn [map concat] in G. rewrite app_nil_r in G. discriminate (genuine_kind _ _ _ G G2).
      * discriminate (genuine_kind _ _ _ G (version_genuine c (p :: q :: ps) D ltac:(cbn [length]; lia) F)).
Qed.
Lemma numeral_case : numeral_like (J ".5") /\ numeral_like (J "5.") /\ numeral_like (J "12.1.3") /\ laid_out [J "v"; J ">"; J "12.1.3"] (J "v > 12.1.3") /\
  evaluate_boolean witness_env (J "v > 12.1.3") [(J "v", VStr (J "13.0.0"))] None = Err NoSuchElement /\
  evaluate_boolean witness_env (J "v > 9.1.3") [(J "v", VStr (J "13.0.0"))] None = Ok true /\
  evaluate_boolean witness_env (J "x > .5") [(J "x", VInt 1)] None = Err NoSuchElement.
Proof.
  do 3 (split; [apply numeral_like_by; vm_compute; reflexivity|]). split; [laidout [(J "v", J " "); (J ">", J " "); (J "12.1.3", [])]|]. vm_compute. auto.
Qed.
