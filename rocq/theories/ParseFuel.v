(** The parser's fuel: enough for every token list, and irrelevant beyond that. *)
From Verif Require Import Base Lexer Grammar.

Definition fueled {A} (r : res A) : Prop := r <> Err OutOfFuel.

Lemma bind_mono A B (a a' : res A) (k k' : A -> res B) :
  (fueled a -> a' = a) -> (forall x, a = Ok x -> fueled (k x) -> k' x = k x) ->
  fueled (bind a k) -> bind a' k' = bind a k.
Proof.
  intros H1 H2 F. destruct a as [x|e].
  - rewrite H1 by discriminate. cbn in *. apply H2; auto.
  - rewrite H1. reflexivity. intro E. apply F. cbn. inversion E. reflexivity.
Qed.

Lemma fuel_mono f :
  (forall p ts, fueled (pexpr f p ts) -> pexpr (S f) p ts = pexpr f p ts) /\
  (forall p l ts, fueled (ploop f p l ts) -> ploop (S f) p l ts = ploop f p l ts) /\
  (forall ts, fueled (pwordlist f ts) -> pwordlist (S f) ts = pwordlist f ts) /\
  (forall ts, fueled (pitems f ts) -> pitems (S f) ts = pitems f ts).
Proof.
  induction f as [|f [I1 [I2 [I3 I4]]]].
  { repeat split; intros; exfalso; apply H; reflexivity. }
  assert (P : forall p ts, fueled (pexpr (S f) p ts) -> pexpr (S (S f)) p ts = pexpr (S f) p ts).
  { intros p ts. remember (S f) as sf eqn:Esf.
    destruct sf as [|g]; [discriminate|]. injection Esf as ->.
    change (pexpr (S (S f)) p ts) with
      (bind (match ts with
            | [] => Err SyntaxError
            | t :: ts' =>
                match kind t with
                | T_LPAREN =>
                    er <- pexpr (S f) 0 ts' ;;
                    cr <- expect_tok T_RPAREN (snd er) ;;
                    Ok (PParen (fst er), snd cr)
                | T_NOT => er <- pexpr (S f) not_prec ts' ;; Ok (PNot t (fst er), snd er)
                | T_SUBTRACT => er <- pexpr (S f) neg_prec ts' ;; Ok (PNeg (fst er), snd er)
                | T_FIELD =>
                    match ts' with
                    | t2 :: ts2 =>
                        match kind t2 with
                        | T_INTEGER | T_DECIMAL =>
                            tr <- expect_tok T_TO ts2 ;;
                            match snd tr with
                            | hi :: rest =>
                                if is_numeric_type (kind hi) then Ok (PTo t t2 (fst tr) hi, rest)
                                else Err SyntaxError
                            | [] => Err SyntaxError
                            end
                        | T_NOT =>
                            ir <- expect_tok T_IN ts2 ;;
                            wr <- pwordlist (S f) (snd ir) ;;
                            Ok (PIn t (Some t2) (fst ir) (fst wr), snd wr)
                        | T_IN => wr <- pwordlist (S f) ts2 ;; Ok (PIn t None t2 (fst wr), snd wr)
                        | T_CONTAINS_ALL | T_CONTAINS_ANY =>
                            wr <- pwordlist (S f) ts2 ;; Ok (PArray t t2 (fst wr), snd wr)
                        | _ => Ok (PTypes t, ts')
                        end
                    | [] => Ok (PTypes t, ts')
                    end
                | k =>
                    if is_function k then wr <- pwordlist (S f) ts' ;; Ok (PFunc t (fst wr), snd wr)
                    else if is_type k then Ok (PTypes t, ts')
                    else Ok (PEps t, ts)
                end
            end) (fun lr => ploop (S f) p (fst lr) (snd lr))).
    cbn [pexpr]. apply bind_mono.
    2:{ intros x _ F. apply I2. exact F. }
    destruct ts as [|t ts']; [reflexivity|].
    destruct (kind t); cbn [is_function is_type]; try reflexivity;
      try (apply bind_mono; [apply I1 || apply I3|reflexivity]).
    destruct ts' as [|t2 ts2]; [reflexivity|].
    destruct (kind t2); try reflexivity; try (apply bind_mono; [apply I3|reflexivity]).
    apply bind_mono; [reflexivity|]. intros x _. apply bind_mono; [apply I3|reflexivity]. }
  split; [exact P|]. split; [|split].
  - intros p l ts.
    change (ploop (S (S f)) p l ts) with
      (match ts with
      | [] => Ok (l, ts)
      | t :: ts' =>
          match infix_prec (kind t) with
          | Some q =>
              if p <=? q then
                rr <- pexpr (S f) (S q) ts' ;; ploop (S f) p (mk_infix l t (fst rr)) (snd rr)
              else Ok (l, ts)
          | None => Ok (l, ts)
          end
      end).
    cbn [ploop]. destruct ts as [|t ts']; [reflexivity|].
    destruct (infix_prec (kind t)) as [q|]; [|reflexivity].
    destruct (p <=? q); [|reflexivity].
    apply bind_mono; [apply I1|]. intros x _. apply I2.
  - intros ts.
    change (pwordlist (S (S f)) ts) with (lr <- expect_tok T_LPAREN ts ;; pitems (S f) (snd lr)).
    cbn [pwordlist]. apply bind_mono; [reflexivity|]. intros x _. apply I4.
  - intros ts.
    change (pitems (S (S f)) ts) with
      (er <- pexpr (S f) 0 ts ;;
      match snd er with
      | t :: rest =>
          match kind t with
          | T_COMMA => ir <- pitems (S f) rest ;; Ok (fst er :: fst ir, snd ir)
          | T_RPAREN => Ok ([fst er], rest)
          | _ => Err SyntaxError
          end
      | [] => Err SyntaxError
      end).
    cbn [pitems]. apply bind_mono; [apply I1|]. intros x _.
    destruct (snd x) as [|t rest]; [reflexivity|].
    destruct (kind t); try reflexivity. apply bind_mono; [apply I4|reflexivity].
Qed.

Lemma pexpr_mono f f' p ts : f <= f' -> fueled (pexpr f p ts) -> pexpr f' p ts = pexpr f p ts.
Proof.
  intros L F. induction L as [|f' L IH]; [reflexivity|].
  rewrite <- IH. apply fuel_mono. rewrite IH. exact F.
Qed.
Lemma ploop_mono f f' p l ts : f <= f' -> fueled (ploop f p l ts) -> ploop f' p l ts = ploop f p l ts.
Proof.
  intros L F. induction L as [|f' L IH]; [reflexivity|].
  rewrite <- IH. apply fuel_mono. rewrite IH. exact F.
Qed.
Lemma pitems_mono f f' ts : f <= f' -> fueled (pitems f ts) -> pitems f' ts = pitems f ts.
Proof.
  intros L F. induction L as [|f' L IH]; [reflexivity|].
  rewrite <- IH. apply fuel_mono. rewrite IH. exact F.
Qed.
Lemma pwordlist_mono f f' ts : f <= f' -> fueled (pwordlist f ts) -> pwordlist f' ts = pwordlist f ts.
Proof.
  intros L F. induction L as [|f' L IH]; [reflexivity|].
  rewrite <- IH. apply fuel_mono. rewrite IH. exact F.
Qed.

(** [r] succeeds leaving at most [n] tokens, or meets a syntax error *)
Definition within {A} (n : nat) (r : res (A * list token)) : Prop :=
  match r with Ok (_, rest) => length rest <= n | Err e => e = SyntaxError end.

Lemma bind_within A B n m (a : res (A * list token)) (k : A * list token -> res (B * list token)) :
  within n a -> (forall x rest, length rest <= n -> within m (k (x, rest))) -> within m (bind a k).
Proof. destruct a as [[x rest]|e]; cbn; auto. Qed.
Lemma expect_within k ts n : length ts <= S n -> within n (expect_tok k ts).
Proof. destruct ts as [|t ts]; cbn; [reflexivity|]. destruct (tkind_eqb _ _); cbn; [lia|reflexivity]. Qed.

Lemma within_weaken A n m (r : res (A * list token)) : n <= m -> within n r -> within m r.
Proof. destruct r as [[x rest]|e]; cbn; auto. lia. Qed.

Lemma fuel_enough f :
  (forall p ts n, length ts <= n -> 3 * n + 3 <= f -> within n (pexpr f p ts)) /\
  (forall p l ts n, length ts <= n -> 3 * n + 2 <= f -> within n (ploop f p l ts)) /\
  (forall ts n, length ts <= n -> 3 * n + 2 <= f -> within n (pwordlist f ts)) /\
  (forall ts n, length ts <= n -> 3 * n + 4 <= f -> within n (pitems f ts)).
Proof.
  induction f as [|f [I1 [I2 [I3 I4]]]].
  { repeat split; intros; exfalso; lia. }
  split; [|split; [|split]].
  - intros p ts n L F. cbn [pexpr]. apply bind_within with (n := n).
    2:{ intros x rest Lr. cbn [fst snd]. apply I2; lia. }
    destruct ts as [|t ts']; [reflexivity|]. cbn [length] in L.
    destruct n as [|n]; [lia|].
    assert (W : forall us B (k : _ -> B), length us <= n -> within (S n) (wr <- pwordlist f us ;; Ok (k wr, snd wr))).
    { intros us B k Lu. apply bind_within with (n := n); [apply I3; lia|]. intros x rest Lr. cbn. lia. }
    destruct (kind t); cbn [is_function is_type]; try (apply W; lia); try (cbn; lia).
    + apply bind_within with (n := n); [apply I1; lia|]. intros x rest Lr. cbn. lia.
    + apply bind_within with (n := n); [apply I1; lia|]. intros x rest Lr. cbn. lia.
    + apply bind_within with (n := n); [apply I1; lia|]. intros x rest Lr. cbn [snd fst].
      apply bind_within with (n := n); [apply expect_within; lia|]. intros y rest' Lr'. cbn. lia.
    + destruct ts' as [|t2 ts2]; [cbn; lia|]. cbn [length] in L.
      destruct (kind t2); try (apply W; lia); try (cbn; lia).
      * apply bind_within with (n := n); [apply expect_within; lia|]. intros x rest Lr. cbn [snd fst]. apply W. lia.
      * apply bind_within with (n := n); [apply expect_within; lia|]. intros x rest Lr. cbn [snd fst].
        destruct rest as [|hi rest]; [reflexivity|]. cbn in Lr. destruct (is_numeric_type _); cbn; [lia|reflexivity].
      * apply bind_within with (n := n); [apply expect_within; lia|]. intros x rest Lr. cbn [snd fst].
        destruct rest as [|hi rest]; [reflexivity|]. cbn in Lr. destruct (is_numeric_type _); cbn; [lia|reflexivity].
  - intros p l ts n L F. cbn [ploop]. destruct ts as [|t ts']; [cbn; lia|]. cbn [length] in L.
    destruct n as [|n]; [lia|].
    destruct (infix_prec (kind t)) as [q|]; [|cbn; lia]. destruct (p <=? q); [|cbn; lia].
    apply bind_within with (n := n); [apply I1; lia|]. intros x rest Lr. cbn [fst snd]. apply within_weaken with n; [lia|]. apply I2; lia.
  - intros ts n L F. cbn [pwordlist]. destruct ts as [|t ts']; [reflexivity|]. cbn [length] in L.
    destruct n as [|n]; [lia|].
    apply bind_within with (n := n); [apply expect_within; cbn; lia|]. intros x rest Lr. cbn [fst snd].
    assert (W := I4 rest n ltac:(lia) ltac:(lia)). destruct (pitems f rest) as [[y r]|e]; cbn in *; [lia|exact W].
  - intros ts n L F. cbn [pitems].
    apply bind_within with (n := n); [apply I1; lia|]. intros x rest Lr. cbn [fst snd].
    destruct rest as [|t rest]; [reflexivity|]. cbn in Lr. destruct n as [|n]; [lia|].
    destruct (kind t); try reflexivity; [|cbn; lia].
    apply bind_within with (n := n); [apply I4; lia|]. intros y r Ly. cbn. lia.
Qed.

Lemma pexpr_fueled ts p : fueled (pexpr (parse_fuel ts) p ts).
Proof.
  assert (W := proj1 (fuel_enough (parse_fuel ts)) p ts (length ts) (le_n _) ltac:(unfold parse_fuel; lia)).
  intro E. rewrite E in W. discriminate W.
Qed.

(** The fuel never runs out. *)
Lemma parse_decides ts : (exists t, parse_tokens ts = Ok t) \/ parse_tokens ts = Err SyntaxError.
Proof.
  unfold parse_tokens. cbv zeta. set (input := ts ++ [eof]).
  assert (W := proj1 (fuel_enough (parse_fuel input)) 0 input (length input) (le_n _) ltac:(unfold parse_fuel; lia)).
  destruct (pexpr _ _ _) as [[t rest]|e]; cbn [bind snd fst].
  - destruct rest as [|x [|y r]]; auto. destruct (tkind_eqb _ _); eauto.
  - cbn in W. subst e. auto.
Qed.

(** Whatever succeeds with some fuel succeeds with the parser's. *)
Lemma pexpr_any_fuel f p ts x : pexpr f p ts = Ok x -> pexpr (parse_fuel ts) p ts = Ok x.
Proof.
  intros H. destruct (Nat.le_ge_cases f (parse_fuel ts)) as [L|L].
  - rewrite (pexpr_mono _ _ _ _ L); [exact H|]. rewrite H. discriminate.
  - rewrite <- (pexpr_mono _ _ _ _ L); [exact H|]. apply pexpr_fueled.
Qed.
