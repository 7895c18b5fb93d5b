(** Specification of what an evaluation may see of a map and a clock that change meanwhile. *)
From Verif Require Import Base Dates Values Ops Funcs Ast Eval SpecPath Reads.

(** The first key of a dotted name. *)
Fixpoint before_dot (s : jstr) : jstr :=
  match s with [] => [] | c :: r => if (c =? ch ".")%N then [] else c :: before_dot r end.

(** The calls of DAYS_ELAPSED in an arithmetic expression, and in a boolean one. *)
Definition total (l : list nat) : nat := fold_right plus 0 l.
Fixpoint arith_dates (n : node) : nat :=
  match n with
  | NArith l r op => arith_dates l + match op, r with UNARY, _ => 0 | _, Some r' => arith_dates r' | _, None => 0 end
  | NFunc f items => total (map arith_dates items) + match f with F_DAYS_ELAPSED => 1 | _ => 0 end
  | _ => 0
  end.
Fixpoint bool_dates (n : node) : nat :=
  let operand := fun m : node => if is_arith_base m then arith_dates m else bool_dates m in
  match n with
  | NCmp l r _ _ => operand l + operand r
  | NIn _ items | NArray _ _ items => total (map operand items)
  | NBool l r op => bool_dates l + match op, r with NOT, _ => 0 | _, Some r' => bool_dates r' | _, None => 0 end
  | _ => 0
  end.

(** The names looked up, in order. *)
Definition looked_up (tr : list access) : list jstr := flat_map (fun a => match a with Field f => [f] | Clock => [] end) tr.
(** One list is another with some elements left out. *)
Inductive within {A} : list A -> list A -> Prop :=
| within_nil : within [] []
| within_skip x l l' : within l l' -> within l (x :: l')
| within_keep x l l' : within l l' -> within (x :: l) (x :: l').
(** The moments of an evaluation that begins at [k] and makes the accesses [tr]. *)
Definition during (k : nat) (tr : list access) (i : nat) : Prop := k <= i <= k + length tr.
(** What was read at the moment of each access is what [D] and [t] have. *)
Definition as_seen (w : world) (k : nat) (tr : list access) (D : data) (t : date) : Prop :=
  (forall i f, nth_error tr i = Some (Field f) -> same_field (snd (w (k + i))) D f) /\ (forall i, nth_error tr i = Some Clock -> fst (w (k + i)) = t).
