(** Proofs about the text of a value. *)
From Coq Require Import QArith.
From Verif Require Import Base JNum JNumFacts BigDec Dates Values SpecNum SpecDate SpecCompare SpecMixed SpecScale InsertFacts ScaleFacts SpecAlphabet AlphabetFacts SpecShown.
Local Open Scope Z_scope.

Lemma zeros_val k s : digits_val (repeat (ch "0") k ++ s) = digits_val s.
Proof. induction k as [|k IH]; [reflexivity|]. exact IH. Qed.
Lemma padded w n : (1 <= w)%nat -> 0 <= n -> figures w n (pad w n).
Proof.
  intros W N. destruct (AlphabetFacts.printed n) as (ds & Ne & A & Z0 & V & P). unfold print_Z in P. destruct (Z.ltb_spec n 0); [lia|]. cbn [app] in P.
  unfold pad. rewrite P. split; [|split].
  - apply Forall_app. split; [|exact A]. apply Forall_forall. intros c I. apply repeat_spec in I as ->. left. reflexivity.
  - rewrite zeros_val, V. lia.
  - rewrite app_length, repeat_length. destruct (Nat.le_gt_cases (length ds) w) as [L|L]; [left; lia|right]. replace (w - length ds)%nat with 0%nat by lia. cbn [repeat app]. split; [lia|].
    destruct Z0 as [->|Z0]; [cbn in L; lia|exact Z0].
Qed.
Lemma whole_shown z : whole z (print_Z z).
Proof.
  destruct (AlphabetFacts.printed z) as (ds & Ne & A & Z0 & V & P). exists ds. split; [|exact P]. split; [exact A|split; [exact V|]].
  destruct ds as [|c [|c' r]]; [congruence|left; reflexivity|right; split; [cbn; lia|]]. destruct Z0 as [Q|Z0]; [discriminate Q|exact Z0].
Qed.
Lemma calendar_month d : calendar d -> 1 <= month d <= 12 /\ 1 <= day d.
Proof.
  intros (n & M & D). split; [|lia]. destruct M as [m I|m I|L|L]; try lia; cbn in I; repeat destruct I as [<-|I]; lia || contradiction.
Qed.
Lemma date_dated d : calendar d -> dated d (date_to_string d).
Proof.
  intros C. destruct (calendar_month d C) as [M D]. exists (pad 4 (Z.abs (year d))), (pad 2 (month d)), (pad 2 (day d)). repeat split; try (apply padded; lia).
  unfold date_to_string. destruct (Z.ltb_spec (year d) 0).
  - replace (Z.abs (year d)) with (- year d) by lia. reflexivity.
  - replace (Z.abs (year d)) with (year d) by lia. destruct (9999 <? year d); reflexivity.
Qed.
Lemma moment_timed x : wall_time x -> timed x (datetime_to_string x).
Proof.
  intros (C & H & M & S & N).
  set (f := if 0 <? nano x then ch "." :: (if nano x mod 1000000 =? 0 then pad 3 (nano x / 1000000) else if nano x mod 1000 =? 0 then pad 6 (nano x / 1000) else pad 9 (nano x)) else []).
  assert (F : fraction (nano x) f).
  { unfold f. destruct (Z.ltb_spec 0 (nano x)); [|apply no_fraction; lia].
    destruct (Z.eqb_spec (nano x mod 1000000) 0) as [E|E]; [|destruct (Z.eqb_spec (nano x mod 1000) 0) as [E'|E']].
    - apply (milliseconds _ _ (nano x / 1000000)); [lia|rewrite (Z.div_mod (nano x) 1000000) at 1; lia|apply padded; [lia|apply Z.div_pos; lia]].
    - apply (microseconds _ _ (nano x / 1000)); [exact E|rewrite (Z.div_mod (nano x) 1000) at 1; lia|apply padded; [lia|apply Z.div_pos; lia]].
    - apply nanoseconds; [exact E'|apply padded; lia]. }
  exists (date_to_string (dt_date x)), (pad 2 (hour x)), (pad 2 (minute x)), (if (0 <? second x) || (0 <? nano x) then J ":" ++ pad 2 (second x) ++ f else []).
  split; [apply date_dated, C|]. split; [apply padded; lia|]. split; [apply padded; lia|]. split; [|reflexivity].
  destruct (Z.ltb_spec 0 (second x)); [|destruct (Z.ltb_spec 0 (nano x))]; cbn [orb].
  - apply some_seconds; [lia|apply padded; lia|exact F].
  - apply some_seconds; [lia|apply padded; lia|exact F].
  - apply full_minute; lia.
Qed.
Lemma exponent_shown b : ~ short b -> with_exponent b (show (VDec b)).
Proof.
  intros N. assert (Z0 : scale b <> 0) by (intros Z0; apply N; split; [lia|left; lia]). cbn [show].
  destruct ((0 <=? scale b) && (-6 <=? - scale b + (Z.of_nat (length (print_N (Z.abs_N (unscaled b)))) - 1))) eqn:C.
  - exfalso. apply andb_true_iff in C as [C1 C2]. apply Z.leb_le in C1, C2. apply N. apply short_digits; [lia|exact C2].
  - unfold bd_to_string. rewrite (proj2 (Z.eqb_neq _ _) Z0). cbv zeta. rewrite C. destruct (whole_shown (Z.abs (unscaled b))) as (p & F & P). unfold print_Z in P.
    destruct (Z.ltb_spec (Z.abs (unscaled b)) 0); [lia|]. cbn [app] in P. replace (Z.to_N (Z.abs (unscaled b))) with (Z.abs_N (unscaled b)) in P by lia. rewrite P in *.
    rewrite Z.abs_involutive in F. destruct p as [|c ds]; [destruct F as (_ & _ & [F|[F _]]); cbn in F; lia|]. cbn [length] in *.
    replace (- scale b + (Z.of_nat (S (length ds)) - 1)) with (Z.of_nat (length ds) - scale b) in * by lia. exists c, ds, (Z.of_nat (length ds) - scale b), (print_Z (Z.of_nat (length ds) - scale b)).
    split; [exact F|]. split; [reflexivity|]. split; [apply whole_shown|]. destruct (Z.eqb_spec (Z.of_nat (length ds) - scale b) 0) as [A|A].
    + exfalso. apply andb_false_iff in C. destruct C as [C|C]; apply Z.leb_gt in C; lia.
    + unfold sign_str. destruct (unscaled b <? 0), ds, (0 <? _); reflexivity.
Qed.
Lemma joined {A} (one : A -> jstr -> Prop) (f : A -> jstr) l : Forall (fun x => one x (f x)) l -> listed one l (join (J ", ") (map f l)).
Proof.
  induction 1 as [|x l H L IH]; [apply listed_none|]. destruct l as [|y l]; [apply listed_last, H|]. exact (listed_more one x (f x) y l _ H IH).
Qed.
Lemma show_shown : forall v, shown v (show v).
Proof.
  fix IH 1. intros v. destruct v as [|b|z|z|b|k t|s|t|d|t|k items|items t|es|t]; cbn [show].
  - apply shown_null.
  - destruct b; [apply shown_true|apply shown_false].
  - apply shown_int, whole_shown.
  - apply shown_long, whole_shown.
  - apply shown_decimal; [apply printed_full|apply exponent_shown].
  - apply shown_float.
  - apply shown_text.
  - apply shown_version.
  - apply shown_date, date_dated.
  - apply shown_datetime, moment_timed.
  - apply shown_collection, joined. induction items as [|x l L]; constructor; [apply IH|exact L].
  - apply shown_array.
  - apply shown_map, joined. induction es as [|[k x] l L]; constructor; [exists (show x); split; [apply IH|reflexivity]|exact L].
  - apply shown_other.
Qed.
