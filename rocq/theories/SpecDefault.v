(** Specification: omitted operands. *)
From Verif Require Import Base Lexer Grammar SpecGrammar SpecSyntax.

(** The tree with the field [d] written where an operand is omitted. *)
Fixpoint fill (d : jstr) (t : ptree) : ptree :=
  match t with
  | PParen t => PParen (fill d t)
  | PNot nt t => PNot nt (fill d t)
  | PNeg t => PNeg (fill d t)
  | PFunc fn items => PFunc fn (map (fill d) items)
  | PTypes tok => PTypes tok
  | PEps _ => PTypes (Tok T_FIELD d)
  | PTo f lo to hi => PTo f lo to hi
  | PIn f neg it items => PIn f neg it (map (fill d) items)
  | PArray f op items => PArray f op (map (fill d) items)
  | PCmp l op r => PCmp (fill d l) op (fill d r)
  | PArith l op r => PArith (fill d l) op (fill d r)
  | PBin l op r => PBin (fill d l) op (fill d r)
  | PBad _ | PFuncErr _ _ | PToErr _ _ | PToOdd _ _ _ _ | PInErr _ _ | PArrayErr _ _ => t  (* no sentence *)
  end.

(** No operand is omitted. *)
Fixpoint complete (t : ptree) : Prop :=
  match t with
  | PParen t | PNot _ t | PNeg t => complete t
  | PFunc _ items | PIn _ _ _ items | PArray _ _ items => fold_right and True (map complete items)
  | PTypes _ | PTo _ _ _ _ => True
  | PEps _ => False
  | PCmp l _ r | PArith l _ r | PBin l _ r => complete l /\ complete r
  | PBad _ | PFuncErr _ _ | PToErr _ _ | PToOdd _ _ _ _ | PInErr _ _ | PArrayErr _ _ => False  (* no sentence *)
  end.

(** An omitted operand, possibly in parentheses. *)
Fixpoint omitted (t : ptree) : Prop := match t with PParen t => omitted t | PEps _ => True | _ => False end.
(** The operand of a NOT is not omitted. *)
Fixpoint nots_written (t : ptree) : Prop :=
  match t with
  | PParen t | PNeg t => nots_written t
  | PNot _ t => ~ omitted t /\ nots_written t
  | PFunc _ items | PIn _ _ _ items | PArray _ _ items => fold_right and True (map nots_written items)
  | PTypes _ | PEps _ | PTo _ _ _ _ => True
  | PCmp l _ r | PArith l _ r | PBin l _ r => nots_written l /\ nots_written r
  | PBad _ | PFuncErr _ _ | PToErr _ _ | PToOdd _ _ _ _ | PInErr _ _ | PArrayErr _ _ => False  (* no sentence *)
  end.
