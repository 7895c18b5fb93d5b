(** Shared vocabulary of the model: Java strings, failures, the result type.

    Citations are paths below /repo; [B] abbreviates
    src/main/java/com/github/sidhant92/boolparser. *)
From Coq Require Export List ZArith NArith Bool Lia.
From Coq Require Strings.String Strings.Ascii.
Export Coq.Strings.String.StringSyntax.
Export ListNotations.
Global Open Scope list_scope.

(** A Java [String] is a sequence of UTF-16 code units.  (java.lang.String; no source in the repo.) *)
Definition jchar := N.
Definition jstr := list jchar.

(** String literals of the model, written [J "text"]. *)
Definition J (s : String.string) : jstr :=
  map Ascii.N_of_ascii (String.list_ascii_of_string s).
Arguments J _%string_scope.

(** One-character literals, written [ch "x"]. *)
Definition ch (s : String.string) : jchar :=
  match s with
  | String.String a _ => Ascii.N_of_ascii a
  | String.EmptyString => 0%N
  end.
Arguments ch _%string_scope.

(** String.equals *)
Fixpoint jstr_eqb (a b : jstr) : bool :=
  match a, b with
  | [], [] => true
  | x :: a', y :: b' => (x =? y)%N && jstr_eqb a' b'
  | _, _ => false
  end.

(** String.compareTo: the sign of the first differing code unit, else of the difference of the lengths. *)
Fixpoint jstr_compare (a b : jstr) : comparison :=
  match a, b with
  | [], [] => Eq
  | [], _ :: _ => Lt
  | _ :: _, [] => Gt
  | x :: a', y :: b' =>
      match (x ?= y)%N with
      | Eq => jstr_compare a' b'
      | c => c
      end
  end.

(** Character.isDigit restricted to ASCII (simplification: other Unicode decimal digits are not digits in the model). *)
Definition is_digit (c : jchar) : bool := ((48 <=? c) && (c <=? 57))%N.

(** ASCII letters *)
Definition is_upper (c : jchar) : bool := ((65 <=? c) && (c <=? 90))%N.
Definition is_lower (c : jchar) : bool := ((97 <=? c) && (c <=? 122))%N.

(** Character.toLowerCase restricted to ASCII letters (simplification: the root locale, and other letters are left
    unchanged).  The results are compared with "true", "false" and "null" only, except in versions; no letter outside
    ASCII is folded to one of these words' letters, so only versions with such letters differ. *)
Definition lower_char (c : jchar) : jchar := if is_upper c then (c + 32)%N else c.
Definition to_lower (s : jstr) : jstr := map lower_char s.

(** String.equalsIgnoreCase, used with "null" and "true"
    (B/domain/FieldNode.java:23; Boolean.parseBoolean in B/util/ValueUtils.java:71). *)
Definition equals_ignore_case (a b : jstr) : bool := jstr_eqb (to_lower a) (to_lower b).

(** Longest prefix of characters satisfying [p], and the rest. *)
Fixpoint span (p : jchar -> bool) (s : jstr) : jstr * jstr :=
  match s with
  | [] => ([], [])
  | c :: s' => if p c then let (a, b) := span p s' in (c :: a, b) else ([], s)
  end.

(** The exceptions that can end up in a failed [Try]: the library's own (B/exception/*.java) and the runtime
    exceptions its code lets escape.  [SyntaxError] is ANTLR's RecognitionException, which is always caught
    inside the parser; it and [OutOfFuel] are proved never to be a result (C49). *)
Inductive exn :=
| DataNotFound | HeterogeneousArray | InvalidContainerType | InvalidDataType | InvalidExpression
| InvalidFunctionArgument | InvalidUnaryOperand | UnsupportedToken
| NullPointer | ClassCast | NoSuchElement | NumberFormat | ArithmeticExc | EmptyStack
| ArrayIndexOutOfBounds | StringIndexOutOfBounds
| SyntaxError | OutOfFuel.

(** io.vavr.control.Try: a value or the exception that was thrown. *)
Inductive res (A : Type) :=
| Ok (a : A)
| Err (e : exn).
Arguments Ok {A} _.
Arguments Err {A} _.

Definition bind {A B} (r : res A) (k : A -> res B) : res B :=
  match r with Ok a => k a | Err e => Err e end.
Definition fmap {A B} (f : A -> B) (r : res A) : res B := bind r (fun a => Ok (f a)).
Notation "x <- e ;; k" := (bind e (fun x => k)) (at level 61, e at next level, right associativity).

(** Left-to-right traversal that stops at the first exception (sequential java.util.stream with a throwing mapper). *)
Fixpoint mapM {A B} (f : A -> res B) (l : list A) : res (list B) :=
  match l with
  | [] => Ok []
  | a :: l' => b <- f a ;; bs <- mapM f l' ;; Ok (b :: bs)
  end.

(** Stream.anyMatch / allMatch with a predicate that may throw: short-circuiting, left to right. *)
Fixpoint anyM {A} (f : A -> res bool) (l : list A) : res bool :=
  match l with
  | [] => Ok false
  | a :: l' => b <- f a ;; if b then Ok true else anyM f l'
  end.
Fixpoint allM {A} (f : A -> res bool) (l : list A) : res bool :=
  match l with
  | [] => Ok true
  | a :: l' => b <- f a ;; if b then allM f l' else Ok false
  end.
