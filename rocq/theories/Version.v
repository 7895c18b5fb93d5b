(** org.apache.maven.artifact.versioning.ComparableVersion (maven-artifact 3.5.2, build.gradle dependency), used by
    B/datatype/VersionDataType.java:21-54 and B/util/ValueUtils.java:72-73.  The class is not in the repository; the
    model transcribes its published algorithm: tokenise into integer items, qualifier items and nested lists,
    drop trailing null items, compare item by item. *)
From Verif Require Import Base JNum.
Local Open Scope Z_scope.

Inductive item :=
| IInt (n : Z)
| IStr (s : jstr)
| IList (l : list item).

(** StringItem: qualifiers in increasing order, aliases, and one-letter shortcuts when followed by a digit. *)
Definition qualifiers : list jstr :=
  [J "alpha"; J "beta"; J "milestone"; J "rc"; J "snapshot"; J ""; J "sp"].

Definition string_item (s : jstr) (followed_by_digit : bool) : item :=
  let s :=
    if followed_by_digit then
      if jstr_eqb s (J "a") then J "alpha"
      else if jstr_eqb s (J "b") then J "beta"
      else if jstr_eqb s (J "m") then J "milestone" else s
    else s in
  IStr (if jstr_eqb s (J "ga") then J "" else if jstr_eqb s (J "final") then J ""
        else if jstr_eqb s (J "cr") then J "rc" else s).

Fixpoint index_of (s : jstr) (l : list jstr) (i : Z) : option Z :=
  match l with
  | [] => None
  | x :: l' => if jstr_eqb x s then Some i else index_of s l' (i + 1)
  end.

(** StringItem.comparableQualifier *)
Definition comparable_qualifier (s : jstr) : jstr :=
  match index_of s qualifiers 0 with
  | Some i => print_Z i
  | None => J "7-" ++ s
  end.

Definition release_index : jstr := J "5".

(** Item.isNull *)
Definition item_is_null (i : item) : bool :=
  match i with
  | IInt n => n =? 0
  | IStr s => jstr_eqb (comparable_qualifier s) release_index
  | IList l => match l with [] => true | _ => false end
  end.

(** ListItem.normalize on the reversed list: remove null items from the end, skipping over (non-null) nested
    lists, until the first other item. *)
Fixpoint normalize_rev (l : list item) : list item :=
  match l with
  | [] => []
  | i :: l' =>
      if item_is_null i then normalize_rev l'
      else match i with
           | IList _ => i :: normalize_rev l'
           | _ => l
           end
  end.

(** parseItem *)
Definition parse_item (is_dig : bool) (buf : jstr) : item :=
  if is_dig then IInt (digits_val buf) else string_item buf false.

(** parseVersion's scan.  [outer] are the enclosing lists (innermost first), [cur] the current list, both reversed;
    [buf] is the current segment, reversed (version.substring(startIndex, i)). *)
Fixpoint scan (s : jstr) (outer : list (list item)) (cur : list item) (buf : jstr) (dig : bool)
  : list (list item) * list item :=
  match s with
  | [] =>
      match buf with
      | [] => (outer, cur)
      | _ => (outer, parse_item dig (rev buf) :: cur)
      end
  | c :: s' =>
      let flushed := match buf with [] => IInt 0 | _ => parse_item dig (rev buf) end in
      if (c =? ch ".")%N then scan s' outer (flushed :: cur) [] dig
      else if (c =? ch "-")%N then scan s' ((flushed :: cur) :: outer) [] [] dig
      else if is_digit c then
        match dig, buf with
        | false, _ :: _ => scan s' ((string_item (rev buf) true :: cur) :: outer) [] [c] true
        | _, _ => scan s' outer cur (c :: buf) true
        end
      else
        match dig, buf with
        | true, _ :: _ => scan s' ((parse_item true (rev buf) :: cur) :: outer) [] [c] false
        | _, _ => scan s' outer cur (c :: buf) false
        end
  end.

(** The nested lists are normalised from the innermost to the outermost; every nested list is the last element of
    its parent. *)
Fixpoint close (outer : list (list item)) (cur : list item) : list item :=
  let done := rev (normalize_rev cur) in
  match outer with
  | [] => done
  | parent :: outer' => close outer' (IList done :: parent)
  end.

(** ComparableVersion.parseVersion (lower-cased with Locale.ENGLISH; ASCII letters only in the model). *)
Definition parse_version (s : jstr) : list item :=
  let (outer, cur) := scan (to_lower s) [] [] [] false in close outer cur.

(** Item.compareTo(null) *)
Fixpoint compare_null (i : item) : comparison :=
  match i with
  | IInt n => if n =? 0 then Eq else Gt
  | IStr s => jstr_compare (comparable_qualifier s) release_index
  | IList l => match l with [] => Eq | i' :: _ => compare_null i' end
  end.

(** Item.compareTo(Item), ListItem.compareTo for two lists inlined as [go]. *)
Fixpoint item_compare (a b : item) {struct a} : comparison :=
  match a, b with
  | IInt n, IInt m => n ?= m
  | IInt _, _ => Gt
  | IStr s, IInt _ => Lt
  | IStr s, IStr t => jstr_compare (comparable_qualifier s) (comparable_qualifier t)
  | IStr s, IList _ => Lt
  | IList _, IInt _ => Lt
  | IList _, IStr _ => Gt
  | IList la, IList lb =>
      (fix go (la lb : list item) {struct la} : comparison :=
         match la with
         | [] =>
             (fix rest (lb : list item) : comparison :=
                match lb with
                | [] => Eq
                | r :: lb' => match CompOpp (compare_null r) with Eq => rest lb' | c => c end
                end) lb
         | l :: la' =>
             match lb with
             | [] => match compare_null l with Eq => go la' [] | c => c end
             | r :: lb' => match item_compare l r with Eq => go la' lb' | c => c end
             end
         end) la lb
  end.

(** ComparableVersion.compareTo *)
Definition version_compare (a b : jstr) : comparison :=
  item_compare (IList (parse_version a)) (IList (parse_version b)).
