(** Specification: two texts that differ in the names of their fields only. *)
From Verif Require Import Base Values Ast Lexer Grammar SpecLex SpecGrammar SpecPath SpecName.

(** The name [f] in the data [d] stands for what the name [f'] stands for in the data [d']: both lead to the same value or
    both lead to nothing, and both or neither are the word null. *)
Definition stands_for (d d' : data) (f f' : jstr) : Prop :=
  (exists ks ks', leads_to f ks /\ leads_to f' ks' /\ forall v, found d ks v <-> found d' ks' v) /\
  (to_lower f = J "null" <-> to_lower f' = J "null").

(** The same token, or a field's name for a field's name. *)
Definition renamed (d d' : data) (x x' : token) : Prop :=
  (kind x = T_FIELD /\ kind x' = T_FIELD /\ stands_for d d' (text x) (text x')) \/ (kind x <> T_FIELD /\ x' = x).
Definition renamed_default (d d' : data) (o o' : option jstr) : Prop :=
  match o, o' with None, None => True | Some f, Some f' => stands_for d d' f f' | _, _ => False end.

(** A single operand, possibly in parentheses, or none at all (then the token after it). *)
Fixpoint lone (t : ptree) : option token :=
  match t with PParen t => lone t | PTypes tok => Some tok | PEps next => Some next | _ => None end.
(** NOT is applied to no operand alone, except to a name or to true or false.  (It takes the text of another literal for a
    name.) *)
Fixpoint nots_named (t : ptree) : Prop :=
  match t with
  | PParen t | PNeg t => nots_named t
  | PNot _ t => (forall x, lone t = Some x -> In (kind x) [T_FIELD; T_TRUE; T_FALSE]) /\ nots_named t
  | PFunc _ items | PIn _ _ _ items | PArray _ _ items => fold_right and True (map nots_named items)
  | PTypes _ | PEps _ | PTo _ _ _ _ => True
  | PCmp l _ r | PArith l _ r | PBin l _ r => nots_named l /\ nots_named r
  | PBad _ | PFuncErr _ _ | PToErr _ _ | PToOdd _ _ _ _ | PInErr _ _ | PArrayErr _ _ => False  (* no sentence *)
  end.
(** The text is not an operand alone, unless it is a name.  (Another literal is taken for a name.) *)
Definition not_literal (t : ptree) : Prop := forall x, lone t = Some x -> kind x = T_FIELD.

(** The data as the value of one key, and the names that lead there. *)
Definition nested (p : jstr) (d : data) : data := [(p, VMap d)].
Definition under (p : jstr) (f : jstr) : jstr := p ++ J "." ++ f.
Definition under_token (p : jstr) (x : token) : token := if tkind_eq_dec (kind x) T_FIELD then Tok T_FIELD (under p (text x)) else x.
(** A key a name can begin with: letters, digits and underscores, not digits alone. *)
Definition a_key (p : jstr) : Prop := Forall (fun c => letter_or_digit c = true \/ c = ch "_") p /\ Exists (fun c => is_digit c = false) p.
(** A name that leads somewhere, and is not the word null. *)
Definition plain_name (f : jstr) : Prop := (forall n, f <> dots n) /\ to_lower f <> J "null".
