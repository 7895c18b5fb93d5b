(** Proofs about trees as objects. *)
From Verif Require Import Base Values Ops Funcs Ast Api Cache SpecCache CacheFacts FieldFacts Heap SpecHeap.

Fixpoint read_items (depth : nat) (h : heap) (ls : list loc) : option (list node) :=
  match ls with
  | [] => Some []
  | m :: ls' => match read depth h m, read_items depth h ls' with Some a, Some b => Some (a :: b) | _, _ => None end
  end.
Definition read_opt (depth : nat) (h : heap) (o : option loc) : option (option node) :=
  match o with None => Some None | Some m => option_map Some (read depth h m) end.
Lemma read_unfold : forall d h l, read (S d) h l =
  match nth_error h l with
  | None => None
  | Some (OField f) => Some (NField f)
  | Some (OUnary dt v) => Some (NUnary dt v)
  | Some (OArith a b op) => match read d h a, read_opt d h b with Some x, Some y => Some (NArith x y op) | _, _ => None end
  | Some (OFunc f ls) => option_map (NFunc f) (read_items d h ls)
  | Some (OCmp a b op dt) => match read d h a, read d h b with Some x, Some y => Some (NCmp x y op dt) | _, _ => None end
  | Some (ORange f v w dv dw) => Some (NRange f v w dv dw)
  | Some (OIn f ls) => option_map (NIn f) (read_items d h ls)
  | Some (OArray f op ls) => option_map (NArray f op) (read_items d h ls)
  | Some (OBool a b op) => match read d h a, read_opt d h b with Some x, Some y => Some (NBool x y op) | _, _ => None end
  end.
Proof.
  intros. cbn [read].
  set (go := fix go (ls : list loc) : option (list node) := match ls with [] => Some [] | m :: ls' => _ end).
  assert (E : forall ls, go ls = read_items d h ls).
  { induction ls as [|m ls IH]; auto. cbn [read_items]. rewrite <- IH. reflexivity. }
  destruct (nth_error h l) as [c|]; auto. destruct c; auto; rewrite E; auto.
Qed.

Lemma nth_app : forall (h x : heap) l c, nth_error h l = Some c -> nth_error (h ++ x) l = Some c.
Proof. intros. rewrite nth_error_app1; auto. apply nth_error_Some. congruence. Qed.

Lemma read_more : forall d h l n, read d h l = Some n -> forall d' x, d <= d' -> read d' (h ++ x) l = Some n.
Proof.
  induction d as [|d IH]; intros h l n H d' x L; [discriminate|]. destruct d' as [|d']; [lia|].
  assert (O : forall o y, read_opt d h o = Some y -> read_opt d' (h ++ x) o = Some y).
  { intros [m|] y; cbn; auto. destruct (read d h m) eqn:E; [|discriminate]. intros [= <-].
    rewrite (IH _ _ _ E d' x) by lia. auto. }
  assert (I : forall ls y, read_items d h ls = Some y -> read_items d' (h ++ x) ls = Some y).
  { induction ls as [|m ls IHl]; cbn; auto. intros y. destruct (read d h m) eqn:E; [|discriminate].
    destruct (read_items d h ls) eqn:E2; [|discriminate]. intros [= <-].
    rewrite (IH _ _ _ E d' x) by lia. rewrite (IHl _ eq_refl). auto. }
  rewrite read_unfold in H |- *. destruct (nth_error h l) as [c|] eqn:N; [|discriminate]. rewrite (nth_app _ x _ _ N).
  destruct c as [f|dt v|a b op|f ls|a b op dt|f v w dv dw|f ls|f op ls|a b op]; auto.
  - destruct (read d h a) eqn:E1; [|discriminate]. destruct (read_opt d h b) eqn:E2; [|discriminate].
    rewrite (IH _ _ _ E1 d' x) by lia. rewrite (O _ _ E2). auto.
  - destruct (read_items d h ls) eqn:E1; [|discriminate]. rewrite (I _ _ E1). auto.
  - destruct (read d h a) eqn:E1; [|discriminate]. destruct (read d h b) eqn:E2; [|discriminate].
    rewrite (IH _ _ _ E1 d' x) by lia. rewrite (IH _ _ _ E2 d' x) by lia. auto.
  - destruct (read_items d h ls) eqn:E1; [|discriminate]. rewrite (I _ _ E1). auto.
  - destruct (read_items d h ls) eqn:E1; [|discriminate]. rewrite (I _ _ E1). auto.
  - destruct (read d h a) eqn:E1; [|discriminate]. destruct (read_opt d h b) eqn:E2; [|discriminate].
    rewrite (IH _ _ _ E1 d' x) by lia. rewrite (O _ _ E2). auto.
Qed.
Lemma holds_more : forall h l n x, holds h l n -> holds (h ++ x) l n.
Proof. intros h l n x [d H]. exists d. apply (read_more d); auto. Qed.
Lemma holds_one : forall h l n m, holds h l n -> holds h l m -> n = m.
Proof.
  intros h l n m [d H] [d' H']. apply (fun H => read_more _ _ _ _ H (max d d') []) in H; [|lia].
  apply (fun H => read_more _ _ _ _ H (max d d') []) in H'; [|lia]. congruence.
Qed.

Definition holds_opt (h : heap) (o : option loc) (n : option node) : Prop :=
  match o, n with Some l, Some m => holds h l m | None, None => True | _, _ => False end.
Lemma holds_opt_read : forall h o n, holds_opt h o n -> exists d, read_opt d h o = Some n.
Proof. intros h [l|] [m|] H; cbn in H; try contradiction; [destruct H as [d H]; exists d; cbn; rewrite H; auto | exists 0; auto]. Qed.
Lemma holds_items_read : forall h ls ns, Forall2 (holds h) ls ns -> exists d, read_items d h ls = Some ns.
Proof.
  intros h ls ns F. induction F as [|l n ls ns [d H] F [d' IH]]; [exists 0; auto|]. exists (max d d'). cbn.
  assert (M := read_more _ _ _ _ H (max d d') [] ltac:(lia)). rewrite app_nil_r in M. rewrite M.
  assert (I : forall ls ns d d', read_items d h ls = Some ns -> d <= d' -> read_items d' h ls = Some ns).
  { clear. induction ls as [|m ls IH]; cbn; auto. intros ns d d' H L. destruct (read d h m) eqn:E; [|discriminate].
    destruct (read_items d h ls) eqn:E2; [|discriminate]. injection H as <-.
    assert (M := read_more _ _ _ _ E d' [] L). rewrite app_nil_r in M. rewrite M, (IH _ _ _ E2 L). auto. }
  rewrite (I _ _ _ _ IH) by lia. auto.
Qed.
Lemma read_opt_more : forall d d' h o n, read_opt d h o = Some n -> d <= d' -> read_opt d' h o = Some n.
Proof.
  intros d d' h [l|] n; cbn; auto. destruct (read d h l) eqn:E; [|discriminate]. intros [= <-] L.
  assert (M := read_more _ _ _ _ E d' [] L). rewrite app_nil_r in M. rewrite M. auto.
Qed.

(** The objects a cell's references lead to. *)
Definition cell_holds (h : heap) (c : cell) (n : node) : Prop :=
  match c, n with
  | OField f, NField f' => f = f'
  | OUnary dt v, NUnary dt' v' => dt = dt' /\ v = v'
  | OArith a b op, NArith x y op' => holds h a x /\ holds_opt h b y /\ op = op'
  | OFunc f ls, NFunc f' ns => f = f' /\ Forall2 (holds h) ls ns
  | OCmp a b op dt, NCmp x y op' dt' => holds h a x /\ holds h b y /\ op = op' /\ dt = dt'
  | ORange f v w dv dw, NRange f' v' w' dv' dw' => f = f' /\ v = v' /\ w = w' /\ dv = dv' /\ dw = dw'
  | OIn f ls, NIn f' ns => f = f' /\ Forall2 (holds h) ls ns
  | OArray f op ls, NArray f' op' ns => f = f' /\ op = op' /\ Forall2 (holds h) ls ns
  | OBool a b op, NBool x y op' => holds h a x /\ holds_opt h b y /\ op = op'
  | _, _ => False
  end.
Lemma holds_cell : forall h l c n, nth_error h l = Some c -> cell_holds h c n -> holds h l n.
Proof.
  intros h l c n N C.
  destruct c; destruct n; cbn in C; try contradiction.
  - subst. exists 1. rewrite read_unfold, N. auto.
  - destruct C as [-> ->]. exists 1. rewrite read_unfold, N. auto.
  - destruct C as ([d H] & H2 & ->). apply holds_opt_read in H2 as [d2 H2]. exists (S (max d d2)). rewrite read_unfold, N.
    assert (M := read_more _ _ _ _ H (max d d2) [] ltac:(lia)). rewrite app_nil_r in M.
    rewrite M, (read_opt_more _ (max d d2) _ _ _ H2) by lia. auto.
  - destruct C as [-> F]. apply holds_items_read in F as [d F]. exists (S d). rewrite read_unfold, N, F. auto.
  - destruct C as ([d H] & [d2 H2] & -> & ->). exists (S (max d d2)). rewrite read_unfold, N.
    assert (M := read_more _ _ _ _ H (max d d2) [] ltac:(lia)). assert (M2 := read_more _ _ _ _ H2 (max d d2) [] ltac:(lia)).
    rewrite app_nil_r in M, M2. rewrite M, M2. auto.
  - destruct C as (-> & -> & -> & -> & ->). exists 1. rewrite read_unfold, N. auto.
  - destruct C as [-> F]. apply holds_items_read in F as [d F]. exists (S d). rewrite read_unfold, N, F. auto.
  - destruct C as (-> & -> & F). apply holds_items_read in F as [d F]. exists (S d). rewrite read_unfold, N, F. auto.
  - destruct C as ([d H] & H2 & ->). apply holds_opt_read in H2 as [d2 H2]. exists (S (max d d2)). rewrite read_unfold, N.
    assert (M := read_more _ _ _ _ H (max d d2) [] ltac:(lia)). rewrite app_nil_r in M.
    rewrite M, (read_opt_more _ (max d d2) _ _ _ H2) by lia. auto.
Qed.
Lemma nth_last : forall (h : heap) c, nth_error (h ++ [c]) (length h) = Some c.
Proof. intros. rewrite nth_error_app2, Nat.sub_diag; auto. Qed.

(** A parse puts new objects at the end of the heap; the last of them is the root, and the others make up its children. *)
Definition fresh (n : node) : Prop := forall h, exists h1 c, alloc n h = (length (h ++ h1), (h ++ h1) ++ [c]) /\ cell_holds (h ++ h1) c n.
Lemma fresh_holds : forall n h h1 c, alloc n h = (length (h ++ h1), (h ++ h1) ++ [c]) -> cell_holds (h ++ h1) c n ->
  holds ((h ++ h1) ++ [c]) (length (h ++ h1)) n.
Proof.
  intros n h h1 c E C. apply holds_cell with c; [apply nth_last|].
  assert (O : forall o m, holds_opt (h ++ h1) o m -> holds_opt ((h ++ h1) ++ [c]) o m).
  { intros [l|] [m|]; cbn; auto using holds_more. }
  assert (F : forall ls ns, Forall2 (holds (h ++ h1)) ls ns -> Forall2 (holds ((h ++ h1) ++ [c])) ls ns).
  { intros ls ns F. induction F; constructor; auto using holds_more. }
  destruct c; destruct n; cbn in *; intuition auto using holds_more.
Qed.
Fixpoint alloc_items (l : list node) (h : heap) : list loc * heap :=
  match l with
  | [] => ([], h)
  | m :: l' => let (a, h1) := alloc m h in let (b, h2) := alloc_items l' h1 in (a :: b, h2)
  end.
Definition alloc_opt (o : option node) (h : heap) : option loc * heap :=
  match o with None => (None, h) | Some m => let (a, h1) := alloc m h in (Some a, h1) end.
Lemma alloc_items_eq : forall l h,
  (fix go (l : list node) (h : heap) : list loc * heap :=
    match l with
    | [] => ([], h)
    | m :: l' => let (a, h1) := alloc m h in let (b, h2) := go l' h1 in (a :: b, h2)
    end) l h = alloc_items l h.
Proof. reflexivity. Qed.
Lemma fresh_new : forall n h, fresh n -> exists l x, alloc n h = (l, h ++ x) /\ holds (h ++ x) l n.
Proof.
  intros n h F. destruct (F h) as (h1 & c & E & C). exists (length (h ++ h1)), (h1 ++ [c]). rewrite app_assoc. split; auto.
  apply fresh_holds; auto.
Qed.
Lemma fresh_items : forall ns, Forall fresh ns -> forall h, exists ls x, alloc_items ns h = (ls, h ++ x) /\ Forall2 (holds (h ++ x)) ls ns.
Proof.
  intros ns F. induction F as [|n ns Fn F IH]; intros h.
  - exists [], []. rewrite app_nil_r. split; auto.
  - destruct (fresh_new n h Fn) as (l & x & E & H). destruct (IH (h ++ x)) as (ls & y & E2 & H2).
    exists (l :: ls), (x ++ y). cbn. rewrite E, E2, app_assoc. split; auto. constructor; auto. apply holds_more; auto.
Qed.
Lemma fresh_opt : forall o, opt_P fresh o -> forall h, exists a x, alloc_opt o h = (a, h ++ x) /\ holds_opt (h ++ x) a o.
Proof.
  intros [n|] F h; cbn in *.
  - destruct (fresh_new n h F) as (l & x & E & H). exists (Some l), x. rewrite E. auto.
  - exists None, []. rewrite app_nil_r. auto.
Qed.
Lemma holds_opt_more : forall h o n x, holds_opt h o n -> holds_opt (h ++ x) o n.
Proof. intros h [l|] [m|] x; cbn; auto using holds_more. Qed.

Lemma all_fresh : forall n, fresh n.
Proof.
  induction n using node_ind'; intros h; cbn [alloc]; unfold create.
  - exists [], (OField f). rewrite !app_nil_r. repeat split; auto.
  - exists [], (OUnary dt v). rewrite !app_nil_r. repeat split; auto.
  - destruct (fresh_new n h IHn) as (a & x & E & Hh). rewrite E.
    destruct (fresh_opt r H (h ++ x)) as (b & y & E2 & H2). fold (alloc_opt r (h ++ x)). rewrite E2.
    exists (x ++ y), (OArith a b op). rewrite !app_assoc. repeat split; auto using holds_more, holds_opt_more.
  - rewrite alloc_items_eq. destruct (fresh_items _ H h) as (ls & x & E & F). rewrite E. exists x, (OFunc f ls). repeat split; auto.
  - destruct (fresh_new n1 h IHn1) as (a & x & E & Hh). rewrite E.
    destruct (fresh_new n2 (h ++ x) IHn2) as (b & y & E2 & H2). rewrite E2.
    exists (x ++ y), (OCmp a b op dt). rewrite !app_assoc. repeat split; auto using holds_more.
  - eexists [], (ORange _ _ _ _ _). rewrite !app_nil_r. repeat split; auto.
  - rewrite alloc_items_eq. destruct (fresh_items _ H h) as (ls & x & E & F). rewrite E. exists x, (OIn f ls). repeat split; auto.
  - rewrite alloc_items_eq. destruct (fresh_items _ H h) as (ls & x & E & F). rewrite E. exists x, (OArray f op ls). repeat split; auto.
  - destruct (fresh_new n h IHn) as (a & x & E & Hh). rewrite E.
    destruct (fresh_opt r H (h ++ x)) as (b & y & E2 & H2). fold (alloc_opt r (h ++ x)). rewrite E2.
    exists (x ++ y), (OBool a b op). rewrite !app_assoc. repeat split; auto using holds_more, holds_opt_more.
Qed.

(** The plain parser: nothing a client does to earlier trees matters, and no earlier tree is touched. *)
Lemma plain_private : forall es x d, let h := plain_run [] es in
  let (h', o) := plain_step h (HCall x d) in returns_tree h' o (parse_expression x d).
Proof.
  intros es x d h. cbn. destruct (parse_expression x d) as [n|e]; cbn; auto.
  destruct (fresh_new n h (all_fresh n)) as (l & y & E & H). rewrite E. cbn. eauto.
Qed.
Lemma plain_undisturbed : forall h l n x d, holds h l n -> holds (fst (plain_step h (HCall x d))) l n.
Proof.
  intros h l n x d H. cbn. destruct (parse_expression x d) as [m|e]; cbn; auto.
  destruct (fresh_new m h (all_fresh m)) as (l' & y & E & _). rewrite E. cbn. apply holds_more; auto.
Qed.
(** ... in particular the two trees of two calls have no object in common that a client could reach through both. *)

(** The caching parser, if clients only read. *)
Definition entries_ok (all : list cevent) (s : hstate) : Prop :=
  forall k l, find_entry k (entries s) = Some l -> exists x d n, In (Call x d) all /\ cache_key x d = k /\ parse_expression x d = Ok n /\ holds (objects s) l n.
Lemma find_entry_filter : forall c k k' l, find_entry k (filter (fun e => negb (jstr_eqb (fst e) k')) c) = Some l -> find_entry k c = Some l.
Proof.
  induction c as [|[k0 n0] c IH]; cbn; intros k k' n H; [discriminate|].
  destruct (jstr_eqb k0 k') eqn:E1; cbn in H.
  - destruct (jstr_eqb k0 k) eqn:E2; [|eauto]. apply jstr_eqb_eq in E1, E2. subst.
    exfalso. clear IH. revert H. induction c as [|[k1 n1] c IH]; cbn; [discriminate|].
    destruct (jstr_eqb k1 k) eqn:E3; cbn; auto. rewrite E3; auto.
  - destruct (jstr_eqb k0 k); eauto.
Qed.
Lemma entries_step : forall all s e, (forall l m, e <> HWrite l m) -> (forall c, In c (calls [e]) -> In c all) -> entries_ok all s ->
  entries_ok all (fst (cached_step s e)).
Proof.
  intros all s [x d|l m|k] NW I O; cbn.
  - destruct (find_entry (cache_key x d) (entries s)) eqn:F; cbn; auto.
    destruct (parse_expression x d) as [n|e] eqn:P; cbn; auto.
    destruct (fresh_new n (objects s) (all_fresh n)) as (l & y & E & H). rewrite E. cbn.
    intros k l0. cbn. destruct (jstr_eqb (cache_key x d) k) eqn:K.
    + intros [= <-]. apply jstr_eqb_eq in K. exists x, d, n. repeat split; auto. apply I. left; auto.
    + intros F0. destruct (O _ _ F0) as (x' & d' & n' & A & B & C & D). exists x', d', n'. repeat split; auto. apply holds_more; auto.
  - destruct (NW l m); auto.
  - intros k0 l F. apply find_entry_filter in F. apply O in F. auto.
Qed.
Lemma entries_run : forall all es s, read_only es -> (forall c, In c (calls es) -> In c all) -> entries_ok all s ->
  entries_ok all (cached_run s es).
Proof.
  induction es as [|e es IH]; intros s R I O; auto. cbn. apply IH.
  - intros l m H. apply (R l m). right; auto.
  - intros c H. apply I. unfold calls in *. cbn. apply in_or_app. auto.
  - apply entries_step; auto.
    + intros l m ->. apply (R l m). left; auto.
    + intros c H. apply I. unfold calls in *. cbn in *. rewrite app_nil_r in H. apply in_or_app. auto.
Qed.
Lemma cached_shared : forall es x d, read_only es -> collision_free (calls (es ++ [HCall x d])) ->
  let (s', o) := cached_step (cached_run (HState [] []) es) (HCall x d) in returns_tree (objects s') o (parse_expression x d).
Proof.
  intros es x d R CF. set (all := calls (es ++ [HCall x d])) in *.
  assert (C : forall c, In c (calls es) -> In c all).
  { intros c H. unfold all, calls in *. rewrite map_app, concat_app. apply in_or_app; auto. }
  assert (Cx : In (Call x d) all).
  { unfold all, calls. rewrite map_app, concat_app. apply in_or_app. right. left; auto. }
  assert (O : entries_ok all (cached_run (HState [] []) es)).
  { apply entries_run; auto. intros k l F. discriminate F. }
  set (s := cached_run _ es) in *. cbn.
  destruct (find_entry (cache_key x d) (entries s)) as [l|] eqn:F.
  - destruct (O _ _ F) as (x' & d' & n & I & K & P & H). rewrite !cache_key_text in K.
    destruct (CF _ _ _ _ I Cx K) as [-> ->]. rewrite P. cbn. eauto.
  - destruct (parse_expression x d) as [n|e]; cbn; auto.
    destruct (fresh_new n (objects s) (all_fresh n)) as (l & y & E & H). rewrite E. cbn. eauto.
Qed.

(** The caching parser otherwise: whoever changes a tree changes what everybody gets. *)
Lemma overwrite_last : forall h c c', overwrite (length h) c' (h ++ [c]) = h ++ [c'].
Proof. induction h; intros; cbn; auto. rewrite IHh. auto. Qed.
Lemma cached_changed : forall x d l r op op', parse_expression x d = Ok (NBool l r op) ->
  exists root, let (s1, o1) := cached_step (HState [] []) (HCall x d) in
    o1 = Some (Ok root) /\ holds (objects s1) root (NBool l r op) /\
    let (s2, o2) := cached_step (fst (cached_step s1 (HWrite root (SetConnective op')))) (HCall x d) in
    o2 = Some (Ok root) /\ holds (objects s2) root (NBool l r op').
Proof.
  intros x d l r op op' P. destruct (all_fresh (NBool l r op) []) as (h1 & c & E & C). cbn [app] in E, C.
  exists (length h1). cbn [cached_step find_entry entries objects]. rewrite P.
  replace (alloc (NBool l r op) []) with (length h1, h1 ++ [c]) by (symmetry; exact E).
  split; auto. split.
  { cbn [objects]. apply (fresh_holds (NBool l r op) [] h1 c); auto. }
  cbn [fst objects entries find_entry]. rewrite jstr_eqb_refl. cbn [objects]. split; auto.
  destruct c; cbn in C; try contradiction. destruct C as (A & B & ->).
  unfold write. rewrite nth_last. cbn [mutate]. rewrite overwrite_last.
  apply holds_cell with (OBool left right op'); [apply nth_last|]. cbn. repeat split; auto using holds_more, holds_opt_more.
Qed.

(** ** Trees of different calls *)
Lemma overwrite_left : forall h k c x, k < length h -> exists h2, length h2 = length h /\ overwrite k c (h ++ x) = h2 ++ x.
Proof.
  induction h as [|y h IH]; intros k c x L; cbn [length] in L; [lia|]. destruct k as [|k].
  - exists (c :: h). auto.
  - destruct (IH k c x ltac:(lia)) as (h2 & E & O). exists (y :: h2). cbn. rewrite O. auto.
Qed.
Lemma overwrite_right : forall h k c x, length h <= k -> exists x2, overwrite k c (h ++ x) = h ++ x2.
Proof.
  induction h as [|y h IH]; intros k c x L; cbn [length] in L; [cbn [app]; eauto|]. destruct k as [|k]; [lia|].
  destruct (IH k c x ltac:(lia)) as (x2 & O). exists x2. cbn. rewrite O. auto.
Qed.
Lemma write_left h k m x : k < length h -> exists h2, length h2 = length h /\ write k m (h ++ x) = h2 ++ x.
Proof.
  intros L. unfold write. destruct (nth_error (h ++ x) k) as [c|]; [|eauto]. destruct (mutate m c) as [c'|]; [|eauto]. apply overwrite_left, L.
Qed.
Lemma write_right h k m x : length h <= k -> exists x2, write k m (h ++ x) = h ++ x2.
Proof.
  intros L. unfold write. destruct (nth_error (h ++ x) k) as [c|]; [|eauto]. destruct (mutate m c) as [c'|]; [|eauto]. apply overwrite_right, L.
Qed.

(** What a parse creates depends on the number of objects there are, not on the objects. *)
Definition blind (n : node) : Prop := forall h h2, length h = length h2 -> exists l x, alloc n h = (l, h ++ x) /\ alloc n h2 = (l, h2 ++ x).
Lemma blind_items : forall ns, Forall blind ns -> forall h h2, length h = length h2 -> exists ls x, alloc_items ns h = (ls, h ++ x) /\ alloc_items ns h2 = (ls, h2 ++ x).
Proof.
  intros ns F. induction F as [|n ns B F IH]; intros h h2 L.
  - exists [], []. cbn. rewrite !app_nil_r. auto.
  - cbn. destruct (B h h2 L) as (l & x & E & E2). rewrite E, E2.
    destruct (IH (h ++ x) (h2 ++ x)) as (ls & y & E3 & E4); [rewrite !app_length; lia|]. rewrite E3, E4. exists (l :: ls), (x ++ y). rewrite !app_assoc. auto.
Qed.
Lemma blind_opt : forall o, opt_P blind o -> forall h h2, length h = length h2 -> exists a x, alloc_opt o h = (a, h ++ x) /\ alloc_opt o h2 = (a, h2 ++ x).
Proof.
  intros [n|] F h h2 L; cbn in *.
  - destruct (F h h2 L) as (l & x & E & E2). rewrite E, E2. eauto.
  - exists None, []. rewrite !app_nil_r. auto.
Qed.
Lemma blind_create c h h2 x : length h = length h2 -> exists l y, create c (h ++ x) = (l, h ++ y) /\ create c (h2 ++ x) = (l, h2 ++ y).
Proof. intros L. exists (length (h ++ x)), (x ++ [c]). unfold create. rewrite !app_assoc, !app_length, L. auto. Qed.
Lemma all_blind : forall n, blind n.
Proof.
  induction n using node_ind'; intros h h2 L; cbn [alloc].
  - destruct (blind_create (OField f) h h2 [] L) as (l & y & A & B). rewrite !app_nil_r in A, B. eauto.
  - destruct (blind_create (OUnary dt v) h h2 [] L) as (l & y & A & B). rewrite !app_nil_r in A, B. eauto.
  - destruct (IHn h h2 L) as (a & x & E & E2). rewrite E, E2. fold (alloc_opt r (h ++ x)). fold (alloc_opt r (h2 ++ x)).
    destruct (blind_opt r H (h ++ x) (h2 ++ x)) as (b & y & E3 & E4); [rewrite !app_length; lia|]. rewrite E3, E4, <- !app_assoc. apply blind_create, L.
  - rewrite (alloc_items_eq _ h), (alloc_items_eq _ h2). destruct (blind_items _ H h h2 L) as (ls & x & E & E2). rewrite E, E2. apply blind_create, L.
  - destruct (IHn1 h h2 L) as (a & x & E & E2). rewrite E, E2.
    destruct (IHn2 (h ++ x) (h2 ++ x)) as (b & y & E3 & E4); [rewrite !app_length; lia|]. rewrite E3, E4, <- !app_assoc. apply blind_create, L.
  - match goal with |- context [create ?c h] => destruct (blind_create c h h2 [] L) as (l & y & A & B) end. rewrite !app_nil_r in A, B. eauto.
  - rewrite (alloc_items_eq _ h), (alloc_items_eq _ h2). destruct (blind_items _ H h h2 L) as (ls & x & E & E2). rewrite E, E2. apply blind_create, L.
  - rewrite (alloc_items_eq _ h), (alloc_items_eq _ h2). destruct (blind_items _ H h h2 L) as (ls & x & E & E2). rewrite E, E2. apply blind_create, L.
  - destruct (IHn h h2 L) as (a & x & E & E2). rewrite E, E2. fold (alloc_opt r (h ++ x)). fold (alloc_opt r (h2 ++ x)).
    destruct (blind_opt r H (h ++ x) (h2 ++ x)) as (b & y & E3 & E4); [rewrite !app_length; lia|]. rewrite E3, E4, <- !app_assoc. apply blind_create, L.
Qed.

Lemma writes_left (h x : heap) : forall ws (h2 : heap), length h2 = length h -> Forall (fun w => nth_error h (fst w) <> None) ws ->
  exists h3, length h3 = length h /\ writes ws (h2 ++ x) = h3 ++ x.
Proof.
  induction ws as [|[k m] ws IH]; intros h2 L F; [exists h2; auto|]. pose proof (Forall_inv F) as K. cbn [fst] in K. apply nth_error_Some in K.
  destruct (write_left h2 k m x) as (h3 & L3 & E); [lia|]. unfold writes. cbn [fold_left fst snd]. rewrite E. apply IH; [lia|exact (Forall_inv_tail F)].
Qed.
Lemma writes_right (h : heap) : forall ws x, Forall (fun w => nth_error h (fst w) = None) ws -> exists y, writes ws (h ++ x) = h ++ y.
Proof.
  induction ws as [|[k m] ws IH]; intros x F; [exists x; auto|]. pose proof (Forall_inv F) as K. cbn [fst] in K. apply nth_error_None in K.
  destruct (write_right h k m x K) as (x2 & E). unfold writes. cbn [fold_left fst snd]. rewrite E. apply IH. exact (Forall_inv_tail F).
Qed.
Lemma new_tree_kept h x d n ws : parse_expression x d = Ok n -> Forall (fun w => nth_error h (fst w) <> None) ws ->
  exists l, snd (plain_step h (HCall x d)) = Some (Ok l) /\ holds (writes ws (fst (plain_step h (HCall x d)))) l n.
Proof.
  intros P F. cbn [plain_step]. rewrite P. destruct (all_blind n h h eq_refl) as (l & y & E & _). rewrite E. cbn [fst snd]. exists l. split; auto.
  destruct (writes_left h y ws h eq_refl F) as (h3 & L & W). rewrite W. destruct (all_blind n h h3 (eq_sym L)) as (l2 & y2 & E2 & E3).
  assert (l2 = l) by congruence. assert (y2 = y) by (apply (app_inv_head h); congruence). subst l2 y2.
  destruct (fresh_new n h3 (all_fresh n)) as (l4 & z & E4 & H). rewrite E3 in E4. injection E4 as <- E5. rewrite E5. exact H.
Qed.
Lemma old_tree_kept h l n x d ws : holds h l n -> Forall (fun w => nth_error h (fst w) = None) ws -> holds (writes ws (fst (plain_step h (HCall x d)))) l n.
Proof.
  intros H F. assert (E : exists y, fst (plain_step h (HCall x d)) = h ++ y).
  { cbn [plain_step]. destruct (parse_expression x d) as [m|e]; [|exists []; cbn; rewrite app_nil_r; auto].
    destruct (all_blind m h h eq_refl) as (l2 & y & E & _). rewrite E. exists y. auto. }
  destruct E as [y ->]. destruct (writes_right h ws y F) as [z ->]. apply holds_more, H.
Qed.

(** ** Every setter *)
Lemma items_more h x ks ms : Forall2 (holds h) ks ms -> Forall2 (holds (h ++ x)) ks ms.
Proof. induction 1; constructor; auto using holds_more. Qed.
Lemma cell_changed h c n m n' x : cell_holds (h ++ x) c n -> changed h n m n' -> exists c', mutate m c = Some c' /\ cell_holds (h ++ x) c' n'.
Proof.
  intros C Ch. destruct Ch; destruct c; cbn in C; try contradiction; cbn [mutate]; eexists; (split; [reflexivity|]); cbn; intuition (subst; auto using holds_more, items_more).
Qed.
Lemma cell_more h x c n : cell_holds h c n -> cell_holds (h ++ x) c n.
Proof. destruct c, n; cbn; intuition auto using holds_more, holds_opt_more, items_more. Qed.
Lemma cached_setter : forall s x d n m n', find_entry (cache_key x d) (entries s) = None -> parse_expression x d = Ok n -> changed (objects s) n m n' ->
  exists root, let (s1, o1) := cached_step s (HCall x d) in
    o1 = Some (Ok root) /\ holds (objects s1) root n /\
    let (s2, o2) := cached_step (fst (cached_step s1 (HWrite root m))) (HCall x d) in
    o2 = Some (Ok root) /\ holds (objects s2) root n'.
Proof.
  intros s x d n m n' Fe P Ch. destruct (all_fresh n (objects s)) as (h1 & c & E & C). exists (length (objects s ++ h1)).
  cbn [cached_step]. rewrite Fe, P, E. split; auto. split.
  { cbn [objects]. apply (fresh_holds n (objects s) h1 c); auto. }
  cbn [fst objects entries find_entry]. rewrite jstr_eqb_refl. cbn [objects]. split; auto.
  destruct (cell_changed _ _ _ _ _ _ C Ch) as (c' & M & C'). unfold write. rewrite nth_last, M, overwrite_last. apply holds_cell with c'; [apply nth_last|apply cell_more, C'].
Qed.
