(** Proofs for the theorems and cases of PropsShown. *)
From Coq Require Import QArith.
From Verif Require Import Base JNum BigDec Dates Values Ops Funcs Ast Eval SpecNum SpecCompare SpecArith SpecDate SpecScale CompareFacts CompareWitness ArithFacts SpecShown ShownFacts.
Local Open Scope Z_scope.

Lemma texts_joined E d l r v w : arith_eval E d l = Ok v -> arith_eval E d r = Ok w -> textual v \/ textual w ->
  supported ADD (get_data_type v) -> supported ADD (get_data_type w) -> (forall b t, v = VFloat b t \/ w = VFloat b t -> exists q, float_text t q) ->
  exists s t, shown v s /\ shown w t /\ arith_eval E d (bin l ADD r) = Ok (VStr (s ++ t)).
Proof. intros L R T Sv Sw F. exists (show v), (show w). split; [apply show_shown|split; [apply show_shown|]]. exact (concat_text E d l r v w L R T Sv Sw F). Qed.
Lemma spaced s : shown (VColl true [VInt 1; VInt 2]) s -> exists a t, whole 1 a /\ s = J "[" ++ (a ++ J ", " ++ t) ++ J "]".
Proof.
  intros H. inversion H as [| | | | | | | | | | |k i t L| | |]; subst. inversion L as [| |x a y xs u A B]; subst. exists a, u. split; [|reflexivity]. inversion A; subst. assumption.
Qed.
Lemma no_space s : shown (VColl true [VInt 1; VInt 2]) s -> s <> J "[1,2]".
Proof.
  intros H Q. destruct (spaced s H) as (a & t & (ds & (Fd & V & Le) & ->) & E). rewrite Q in E. clear Q H.
  cbn [Z.ltb Z.compare app] in E. destruct ds as [|c [|c' ds]]; cbn in E; [destruct Le as [Le|[Le _]]; cbn in Le; lia|discriminate E|]. injection E as <- <- E.
  apply Forall_inv_tail, Forall_inv in Fd. cbn in Fd. repeat destruct Fd as [Fd|Fd]; discriminate || contradiction.
Qed.
Lemma shown_case :
  let v := VColl true [VInt (-7); VNull; VBool true; VMap [(J "a", VStr (J "x")); (J "b", VColl false [])]] in
  let x := DateTime (Date 2024 2 29) 9 5 0 120000000 in
  show v = J "[-7, null, true, {a=x, b=[]}]" /\ (forall s, shown (VColl true [VInt 1; VInt 2]) s -> s <> J "[1,2]") /\
  settled v /\ wall_time x /\ show (VDateTime x) = J "2024-02-29T09:05:00.120" /\
  arith_eval witness_env [(J "d", v)] (bin (lit (VStr (J "is "))) ADD (NField (Some (J "d")))) = Ok (VStr (J "is [-7, null, true, {a=x, b=[]}]")).
Proof.
  intros v x. split; [vm_compute; reflexivity|]. split; [exact no_space|]. split; [repeat constructor|]. split; [|split; vm_compute; reflexivity].
  unfold x, wall_time. cbn [dt_date hour minute second nano]. repeat split; try lia. exists 29. split; [|cbn; lia]. cbn [year month]. apply days29.
  split; [exists 506; reflexivity|left; intros [k K]; lia].
Qed.
Lemma exponent_case : ~ short (BD (-125) 12) /\ show (VDec (BD (-125) 12)) = J "-1.25E-10" /\ ~ short (BD 7 (-3)) /\ show (VDec (BD 7 (-3))) = J "7E+3" /\
  short (BD (-125) 8) /\ show (VDec (BD (-125) 8)) = J "-0.00000125".
Proof.
  split; [intros [_ [H|H]]; [cbn in H; lia|vm_compute in H; congruence]|]. split; [vm_compute; reflexivity|]. split; [intros [H _]; cbn in H; lia|]. split; [vm_compute; reflexivity|].
  split; [split; [cbn; lia|right; vm_compute; discriminate]|vm_compute; reflexivity].
Qed.
