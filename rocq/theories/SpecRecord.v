(** The data type recorded in a comparison. *)
From Verif Require Import Base Values Ops Ast.

(** The type of a literal; a field counts as text. *)
Definition literal_type (n : node) : dtype := match n with NUnary t _ => t | _ => STRING end.
(** A comparison records the type of its right operand if that is a literal or a field, and otherwise the type of its left one. *)
Definition compared_type (a b : node) : dtype :=
  match b with NUnary _ _ | NField _ => literal_type b | _ => literal_type a end.

(** All comparisons in a tree do so. *)
Fixpoint recorded (n : node) : Prop :=
  let all := fix all (l : list node) : Prop := match l with [] => True | i :: l' => recorded i /\ all l' end in
  match n with
  | NField _ | NUnary _ _ | NRange _ _ _ _ _ => True
  | NCmp a b _ dt => dt = compared_type a b /\ recorded a /\ recorded b
  | NArith a b _ | NBool a b _ => recorded a /\ match b with Some b' => recorded b' | None => True end
  | NFunc _ items | NIn _ items | NArray _ _ items => all items
  end.

(** The comparisons in a tree whose right operand is a literal record its type. *)
Fixpoint recorded_right (n : node) : Prop :=
  let all := fix all (l : list node) : Prop := match l with [] => True | i :: l' => recorded_right i /\ all l' end in
  match n with
  | NField _ | NUnary _ _ | NRange _ _ _ _ _ => True
  | NCmp a b _ dt => match b with NUnary t _ => dt = t | _ => True end /\ recorded_right a /\ recorded_right b
  | NArith a b _ | NBool a b _ => recorded_right a /\ match b with Some b' => recorded_right b' | None => True end
  | NFunc _ items | NIn _ items | NArray _ _ items => all items
  end.

(** The tree of a text that is one operand [x] only, where [m] is the field or the literal it stands for. *)
Definition word_tree (x : jstr) (m : node) : node :=
  match m with NField _ | NUnary STRING _ => m | _ => NUnary STRING (VStr x) end.
Definition nested (k : nat) (x : jstr) : list jstr := repeat (J "(") k ++ [x] ++ repeat (J ")") k.
